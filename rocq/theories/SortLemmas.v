(** Sorting and chunks. *)
From Coq Require Import NArith ZArith List Bool Lia Permutation PeanoNat.
From Verif Require Import Float ParticleModel MeshTypes Balance TrackModel CycleModel PopSpec ProgLemmas.
Import ListNotations.
Local Open Scope N_scope.

Section Sort.
Context {K : FloatOps}.
Implicit Types (p q : particle K) (l : list (particle K)).

Lemma sort_le_iff p q : sort_le p q = true <-> key_le (key p) (key q).
Proof.
  unfold sort_le, key_le, key. cbn [fst snd]. rewrite orb_true_iff, andb_true_iff, N.ltb_lt, N.eqb_eq, N.leb_le. tauto.
Qed.
Lemma key_le_trans a b c : key_le a b -> key_le b c -> key_le a c.
Proof. unfold key_le. lia. Qed.
Lemma key_le_total a b : key_le a b \/ key_le b a.
Proof. unfold key_le. lia. Qed.
Lemma key_le_antisym a b : key_le a b -> key_le b a -> a = b.
Proof. unfold key_le. destruct a, b; cbn [fst snd]. intros. f_equal; lia. Qed.

(** Sorted: the head is below the rest. *)
Fixpoint sorted l : Prop := match l with [] => True | p :: l => Forall (fun q => key_le (key p) (key q)) l /\ sorted l end.

Lemma insert_perm p l : Permutation (p :: l) (sort_insert p l).
Proof.
  induction l as [|q l IH]; cbn [sort_insert]; [reflexivity|].
  destruct (sort_le p q); [reflexivity|]. rewrite perm_swap. constructor. exact IH.
Qed.
Lemma sort_perm l : Permutation l (sort_particles l).
Proof. induction l as [|p l IH]; cbn [sort_particles]; [reflexivity|]. rewrite <- insert_perm. constructor. exact IH. Qed.

Lemma insert_sorted p l : sorted l -> sorted (sort_insert p l).
Proof.
  induction l as [|q l IH]; intros H; cbn [sort_insert]; [cbn; auto|]. destruct H as (Hq & H).
  destruct (sort_le p q) eqn:E.
  - apply sort_le_iff in E. cbn [sorted]. split; [|auto]. constructor; [exact E|].
    eapply Forall_impl; [|exact Hq]. intros a Ha. eapply key_le_trans; eauto.
  - assert (E' : key_le (key q) (key p)).
    { destruct (key_le_total (key q) (key p)) as [G|G]; [exact G|]. apply sort_le_iff in G. congruence. }
    cbn [sorted]. split; [|auto]. apply (Permutation_Forall (insert_perm p l)). constructor; auto.
Qed.
Lemma sort_sorted l : sorted (sort_particles l).
Proof. induction l as [|p l IH]; cbn [sort_particles]; [exact I|]. apply insert_sorted, IH. Qed.

Lemma sorted_nth l : sorted l <-> forall i j p q, (i < j)%nat -> nth_error l i = Some p -> nth_error l j = Some q -> key_le (key p) (key q).
Proof.
  induction l as [|a l IH]; split; intros H.
  - intros i j p q Hi E. destruct i; discriminate.
  - exact I.
  - destruct H as (H1 & H2). intros i j p q Hij Ei Ej. destruct i as [|i], j as [|j]; try lia; cbn [nth_error] in * .
    + injection Ei as <-. rewrite Forall_forall in H1. apply H1. eapply nth_error_In; eauto.
    + apply (proj1 IH H2 i j); auto; lia.
  - split.
    + apply Forall_forall. intros q Hq. destruct (In_nth_error _ _ Hq) as (j & Ej). apply (H 0%nat (S j)); auto; lia.
    + apply IH. intros i j p q Hij Ei Ej. apply (H (S i) (S j)); auto; lia.
Qed.

Lemma has_key_iff k p : has_key k p = true <-> key p = k.
Proof.
  unfold has_key, key. destruct k as [c g]. cbn [fst snd]. rewrite andb_true_iff, !N.eqb_eq.
  split; [intros (-> & ->); reflexivity|intros E; injection E; auto].
Qed.

Lemma insert_filter k p l : filter (has_key k) (sort_insert p l) = filter (has_key k) (p :: l).
Proof.
  induction l as [|q l IH]; cbn [sort_insert]; [reflexivity|].
  destruct (sort_le p q) eqn:E; [reflexivity|]. cbn [filter] in * . rewrite IH.
  destruct (has_key k q) eqn:Eq; [|reflexivity]. destruct (has_key k p) eqn:Ep; [|reflexivity].
  exfalso. apply has_key_iff in Eq, Ep.
  assert (G : sort_le p q = true) by (apply sort_le_iff; rewrite Eq, Ep; unfold key_le; lia). congruence.
Qed.
Lemma sort_filter k l : filter (has_key k) (sort_particles l) = filter (has_key k) l.
Proof.
  induction l as [|p l IH]; cbn [sort_particles]; [reflexivity|]. rewrite insert_filter. cbn [filter]. rewrite IH. reflexivity.
Qed.

Lemma sort_is_stable l : stable_sort_of l (sort_particles l).
Proof.
  split; [apply sort_perm|]. split; [apply sorted_nth, sort_sorted|]. intros k. apply sort_filter.
Qed.

(** Only one list is. *)
Lemma sorted_unique l1 : forall l2, sorted l1 -> sorted l2 -> (forall k, filter (has_key k) l1 = filter (has_key k) l2) -> l1 = l2.
Proof.
  induction l1 as [|p l1 IH]; intros [|q l2] S1 S2 H; [reflexivity| | |].
  - specialize (H (key q)). cbn [filter] in H. rewrite (proj2 (has_key_iff (key q) q) eq_refl) in H. discriminate.
  - specialize (H (key p)). cbn [filter] in H. rewrite (proj2 (has_key_iff (key p) p) eq_refl) in H. discriminate.
  - destruct S1 as (A1 & S1), S2 as (A2 & S2).
    assert (Hp : In p (q :: l2)).
    { assert (In p (filter (has_key (key p)) (q :: l2))).
      { rewrite <- H. cbn [filter]. rewrite (proj2 (has_key_iff _ p) eq_refl). left. reflexivity. }
      apply filter_In in H0. tauto. }
    assert (Hq : In q (p :: l1)).
    { assert (In q (filter (has_key (key q)) (p :: l1))).
      { rewrite H. cbn [filter]. rewrite (proj2 (has_key_iff _ q) eq_refl). left. reflexivity. }
      apply filter_In in H0. tauto. }
    assert (Ek : key p = key q).
    { rewrite Forall_forall in A1, A2. destruct Hp as [->|Hp]; [reflexivity|]. destruct Hq as [->|Hq]; [reflexivity|].
      apply key_le_antisym; auto. }
    assert (Epq : p = q).
    { pose proof (H (key p)) as G. cbn [filter] in G. rewrite (proj2 (has_key_iff _ p) eq_refl) in G.
      rewrite (proj2 (has_key_iff (key p) q) (eq_sym Ek)) in G. congruence. }
    subst q. f_equal. apply IH; auto. intros k. specialize (H k). cbn [filter] in H. destruct (has_key k p); congruence.
Qed.

Lemma stable_sort_unique l l1 l2 : stable_sort_of l l1 -> stable_sort_of l l2 -> l1 = l2.
Proof.
  intros (_ & S1 & F1) (_ & S2 & F2). apply sorted_unique; [apply sorted_nth, S1|apply sorted_nth, S2|].
  intros k. rewrite F1, F2. reflexivity.
Qed.

(** ** Chunks *)

Lemma chunks_fuel_parts {A} n fuel : (0 < n)%nat -> forall l : list A, (length l <= fuel)%nat ->
  concat (chunks_fuel fuel n l) = l /\ Forall (fun x => (0 < length x <= n)%nat) (chunks_fuel fuel n l) /\
  (forall i x, nth_error (chunks_fuel fuel n l) i = Some x -> (S i < length (chunks_fuel fuel n l))%nat -> length x = n) /\
  ((length (chunks_fuel fuel n l) - 1) * n < length l \/ l = [])%nat.
Proof.
  intros Hn. induction fuel as [|fuel IH]; intros l Hl; cbn [chunks_fuel].
  - destruct l; cbn [length] in Hl; [|lia]. repeat split; auto. intros i x E. destruct i; discriminate.
  - destruct l as [|a l]; [repeat split; auto; intros i x E; destruct i; discriminate|].
    set (m := a :: l) in * . assert (Lm : (0 < length m)%nat) by (cbn; lia). clearbody m. clear a l.
    destruct (IH (skipn n m)) as (C & Fl & U & L); [rewrite skipn_length; lia|].
    cbn [concat length]. rewrite C, firstn_skipn. split; [reflexivity|]. split; [|split].
    + constructor; [rewrite firstn_length; lia|exact Fl].
    + intros [|i] x E Hi; cbn [nth_error] in E; [|apply (U i); auto; lia].
      injection E as <-. rewrite firstn_length. destruct L as [L|L]; [|rewrite L in Hi; destruct fuel; cbn in Hi; lia].
      rewrite skipn_length in L. lia.
    + left. destruct L as [L|L].
      * rewrite skipn_length in L. nia.
      * rewrite L. destruct fuel; cbn; lia.
Qed.

Lemma chunks_parts {A} n (l : list A) : (0 < n)%nat ->
  concat (chunks n l) = l /\ Forall (fun x => (0 < length x <= n)%nat) (chunks n l) /\
  (forall i x, nth_error (chunks n l) i = Some x -> (S i < length (chunks n l))%nat -> length x = n).
Proof. intros Hn. destruct (chunks_fuel_parts n (length l) Hn l (le_n _)) as (H1 & H2 & H3 & _). auto. Qed.

Lemma chunks_count {A} n (l : list A) : (0 < n)%nat -> ((length (chunks n l) - 1) * n < length l \/ l = [])%nat.
Proof. intros Hn. apply (chunks_fuel_parts n (length l) Hn l (le_n _)). Qed.

(** The size computed when none is given. *)
Lemma dynamic_chunks (ei : exec_info) {A} (l : list A) : ei_chunk_size ei = 0 -> ei_n_rayon_threads ei <> 0 ->
  exists n, chunk_size ei (N.of_nat (length l)) = Ok n /\ 0 < n /\
    concat (chunks (N.to_nat n) l) = l /\ N.of_nat (length (chunks (N.to_nat n) l)) <= ei_n_rayon_threads ei.
Proof.
  intros H0 Ht. unfold chunk_size. rewrite H0.
  destruct (N.eqb_spec (ei_n_rayon_threads ei) 0) as [E|_]; [contradiction|]. cbn [negb rassert rbind].
  eexists. split; [reflexivity|]. set (t := ei_n_rayon_threads ei) in * . set (len := N.of_nat (length l)).
  assert (Hp : 0 < len / t + 1) by (rewrite N.add_1_r; apply N.lt_0_succ).
  split; [exact Hp|]. assert (Hn : (0 < N.to_nat (len / t + 1))%nat) by (clear - Hp; lia).
  split; [apply chunks_parts; exact Hn|].
  destruct (chunks_count (N.to_nat (len / t + 1)) l Hn) as [H|H].
  - pose proof (N.mul_succ_div_gt len t Ht) as G.
    set (q := len / t) in * . set (k := length (chunks (N.to_nat (q + 1)) l)) in * .
    assert (G2 : (N.of_nat k - 1) * (q + 1) < len) by (subst len; nia). nia.
  - subst l. cbn. lia.
Qed.

End Sort.
