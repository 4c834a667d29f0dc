(** Counting seeds: the seeds after a given number of draws are all the seeds, and the samples are spread evenly. *)
From Coq Require Import NArith ZArith List Bool Reals Lia Lra Permutation.
From Flocq Require Import Core.
From Verif Require Import Float RealOps RngModel RngLemmas RngIeee LawSpec.
Import ListNotations.
Local Open Scope R_scope.

(** ** Counting *)

Lemma counts_ext P Q n : (forall s, (s < 2 ^ 64)%N -> (P s <-> Q s)) -> counts P n -> counts Q n.
Proof.
  intros E (l & Nd & Hl & Hn). exists l. split; [exact Nd|]. split; [|exact Hn].
  intros s. rewrite Hl. split; intros [A B]; (split; [exact A|apply E; assumption]).
Qed.
Lemma share_ext P Q x e : (forall s, (s < 2 ^ 64)%N -> (P s <-> Q s)) -> share_is P x e -> share_is Q x e.
Proof. intros E (n & C & B). exists n. split; [eapply counts_ext; eauto|exact B]. Qed.

Lemma counts_once P n m : counts P n -> counts P m -> n = m.
Proof.
  intros (l & Nl & Hl & El) (k & Nk & Hk & Ek). subst. f_equal. apply Permutation_length, NoDup_Permutation; [assumption|assumption|].
  intros s. rewrite Hl, Hk. reflexivity.
Qed.

Lemma counts_minus P Q n m : counts P n -> counts Q m -> (forall s, (s < 2 ^ 64)%N -> Q s -> P s) ->
  (m <= n)%N /\ counts (fun s => P s /\ ~ Q s) (n - m).
Proof.
  intros (l & Nl & Hl & El) (k & Nk & Hk & Ek) S.
  assert (D : forall s, {In s k} + {~ In s k}) by (intros s; apply (in_dec N.eq_dec)).
  set (f := fun s => if D s then false else true).
  assert (In1 : forall s, In s (filter f l) <-> (s < 2 ^ 64)%N /\ P s /\ ~ Q s).
  { intros s. rewrite filter_In, Hl. unfold f. destruct (D s) as [i|i]; split.
    - intros [_ A]. discriminate A.
    - intros (_ & _ & A). exfalso. apply A. apply Hk in i. apply i.
    - intros ((A & B) & _). split; [exact A|]. split; [exact B|]. intros q. apply i, Hk. split; assumption.
    - intros (A & B & _). split; [split; assumption|reflexivity]. }
  assert (Pm : Permutation l (k ++ filter f l)).
  { apply NoDup_Permutation; [exact Nl| |].
    - clear - Nl Nk D. assert (A : NoDup (filter f l)) by (apply NoDup_filter; exact Nl).
      assert (B : forall s, In s k -> ~ In s (filter f l)).
      { intros s i j. apply filter_In in j. destruct j as [_ j]. unfold f in j. destruct (D s); [discriminate j|contradiction]. }
      generalize dependent (filter f l). clear - Nk. induction Nk as [|a k Ha Nk IH]; intros m Nm H; [exact Nm|].
      cbn. constructor.
      + rewrite in_app_iff. intros [i|i]; [contradiction|]. apply (H a); [left; reflexivity|exact i].
      + apply IH; [exact Nm|]. intros s i. apply H. right. exact i.
    - intros s. rewrite in_app_iff, In1, Hl, Hk. split.
      + intros [A B]. destruct (D s) as [i|i]; [left; apply Hk; exact i|right; repeat split; try assumption].
        intros q. apply i, Hk. split; assumption.
      + intros [[A B]|(A & B & _)]; split; auto. }
  apply Permutation_length in Pm. rewrite app_length in Pm. subst n m. split; [lia|].
  exists (filter f l). split; [apply NoDup_filter; exact Nl|]. split; [exact In1|lia].
Qed.

Lemma share_minus P Q x y a b : share_is P x a -> share_is Q y b -> (forall s, (s < 2 ^ 64)%N -> Q s -> P s) ->
  share_is (fun s => P s /\ ~ Q s) (x - y) (a + b).
Proof.
  intros (n & C1 & B1) (m & C2 & B2) S. destruct (counts_minus P Q n m C1 C2 S) as [L C].
  exists (n - m)%N. split; [exact C|]. rewrite N2Z.inj_sub, minus_IZR by exact L.
  replace ((IZR (Z.of_N n) - IZR (Z.of_N m)) / IZR (2 ^ 64) - (x - y)) with
    ((IZR (Z.of_N n) / IZR (2 ^ 64) - x) - (IZR (Z.of_N m) / IZR (2 ^ 64) - y)) by (field; apply not_0_IZR; discriminate).
  apply Rle_trans with (1 := Rabs_triang _ _). rewrite Rabs_Ropp. lra.
Qed.

Lemma share_weaken P x a b : share_is P x a -> a <= b -> share_is P x b.
Proof. intros (n & C & B) L. exists n. split; [exact C|lra]. Qed.

(** ** The seeds after [k] draws *)

Lemma rng_iter_surj k t : (t < two64)%N -> exists s, (s < two64)%N /\ rng_iter k s = t.
Proof.
  revert t. induction k as [|k IH]; intros t Ht; [exists t; split; [exact Ht|reflexivity]|].
  destruct (rng_iter_onto (rng_next t) t) as (n & _ & E); [apply rng_next_lt|exact Ht|].
  destruct (IH (rng_iter n t)) as (s & Hs & Es); [apply rng_iter_lt; exact Ht|]. exists s. split; [exact Hs|].
  change (rng_iter (S k) s) with (rng_next (rng_iter k s)). rewrite Es. rewrite <- E at 2.
  change (rng_next t) with (rng_iter 1 t). change (rng_next (rng_iter n t)) with (rng_iter 1 (rng_iter n t)).
  rewrite <- !rng_iter_add. f_equal. lia.
Qed.

Lemma counts_below k n : (n <= 2 ^ 64)%N -> counts (fun s => (rng_iter k s < n)%N) n.
Proof.
  revert n. apply (N.peano_ind (fun n => (n <= 2 ^ 64)%N -> counts (fun s => (rng_iter k s < n)%N) n)).
  - intros _. exists []. split; [constructor|]. split; [|reflexivity]. intros s. split; [intros []|]. intros [_ H]. lia.
  - intros n IH L. destruct IH as (l & Nd & Hl & En); [lia|].
    destruct (rng_iter_surj k n) as (s0 & H0 & E0); [change two64 with (2 ^ 64)%N; lia|].
    exists (s0 :: l). split; [|split].
    + constructor; [|exact Nd]. rewrite Hl, E0. lia.
    + intros s. cbn [In]. rewrite Hl. split.
      * intros [<-|[A B]]; split; auto; [rewrite E0; lia|lia].
      * intros [A B]. destruct (N.eq_dec (rng_iter k s) n) as [E|E]; [left|right; split; [exact A|lia]].
        apply (rng_iter_inj_state k); [exact H0|exact A|]. congruence.
    + cbn [length]. lia.
Qed.

Lemma counts_all : counts (fun _ => True) (2 ^ 64).
Proof.
  apply (counts_ext (fun s => (rng_iter 0 s < 2 ^ 64)%N)); [|apply counts_below; lia].
  intros s H. split; [trivial|]. intros _. exact H.
Qed.
Lemma share_not P x e : share_is P x e -> share_is (fun s => ~ P s) (1 - x) e.
Proof.
  intros H. apply (share_ext (fun s => True /\ ~ P s)); [tauto|].
  apply (share_weaken _ _ (0 + e)); [|lra]. apply share_minus; [|exact H|trivial].
  exists (2 ^ 64)%N. split; [exact counts_all|]. change (Z.of_N (2 ^ 64)) with (2 ^ 64)%Z.
  unfold Rdiv. rewrite Rinv_r by (apply not_0_IZR; discriminate). rewrite Rminus_diag_eq, Rabs_R0 by reflexivity. lra.
Qed.

(** ** The samples *)

(** The [k]-th sample drawn from a seed. *)
Definition nth_sample (k : nat) (s : N) : R := fsample (f := Rops) (rng_iter k s).

Lemma round53_mono a b : (a <= b)%N -> (b < two64)%N -> (round53 a <= round53 b)%N.
Proof.
  intros L Hb. assert (Ha : (a < two64)%N) by lia. apply N2Z.inj_le, le_IZR.
  rewrite <- !round53_is_round by assumption. apply round_le; [typeclasses eauto|apply valid_rnd_N|]. apply IZR_le. lia.
Qed.
Lemma round53_near a : (a < two64)%N -> (round53 a <= a + 1024 /\ a <= round53 a + 1024)%N.
Proof.
  intros Ha. destruct (N.lt_ge_cases a 9007199254740992) as [L|L]; [rewrite round53_spec_small by exact L; lia|].
  destruct (round53_close a L Ha) as (He & A & B & _). set (e := (N.log2 a - 52)%N) in * .
  assert (P : (2 ^ (e - 1) <= 2 ^ 10)%N) by (apply N.pow_le_mono_r; lia). change (2 ^ 10)%N with 1024%N in P. lia.
Qed.

Lemma first_fails (f : N -> bool) : (forall t u, (u <= t)%N -> f t = true -> f u = true) ->
  forall m, exists n, (n <= m)%N /\ forall t, (t < m)%N -> (f t = true <-> (t < n)%N).
Proof.
  intros Mo. apply N.peano_ind; [exists 0%N; split; [lia|intros t H; lia]|].
  intros m (n & L & H). destruct (f m) eqn:E.
  - exists (N.succ m). split; [lia|]. intros t Ht. split; [intros _; exact Ht|]. intros _. apply (Mo m); [lia|exact E].
  - exists n. split; [lia|]. intros t Ht. destruct (N.eq_dec t m) as [->|D]; [|apply H; lia].
    split; [rewrite E; discriminate|]. lia.
Qed.

(** Any event that is decided by comparing a sample with [x]. *)
Lemma sample_share k (g : R -> bool) x : 0 <= x <= 1 -> (forall v, g v = true -> v <= x) -> (forall v, v < x -> g v = true) ->
  share_is (fun s => g (nth_sample k s) = true) x (1025 / IZR (2 ^ 64)).
Proof.
  intros Hx G1 G2.
  assert (T : 0 < IZR (2 ^ 64)) by (apply IZR_lt; reflexivity).
  set (v := fun t => fsample (f := Rops) t).
  assert (V : forall t, v t * IZR (2 ^ 64) = IZR (Z.of_N (round53 t))).
  { intros t. unfold v. cbn [fsample Rops]. change (Z.of_N two64) with (2 ^ 64)%Z. field. lra. }
  destruct (first_fails (fun t => if (t <? two64)%N then g (v t) else false)) with (m := two64) as (n & L & H).
  { intros t u Hu. cbn beta. destruct (N.ltb_spec t two64) as [Ht|Ht]; [|discriminate]. destruct (N.ltb_spec u two64) as [Hu'|Hu']; [|lia].
    intros E. assert (LE : v u <= v t).
    { apply (Rmult_le_reg_r (IZR (2 ^ 64))); [exact T|]. rewrite !V. apply IZR_le. pose proof (round53_mono u t Hu Ht). lia. }
    pose proof (G1 _ E) as A. destruct (Rlt_dec (v u) x) as [B|B]; [apply G2; exact B|].
    replace (v u) with (v t) by lra. exact E. }
  assert (H' : forall t, (t < two64)%N -> g (v t) = true <-> (t < n)%N).
  { intros t Ht. rewrite <- (H t Ht). cbn beta. destruct (N.ltb_spec t two64); [reflexivity|lia]. }
  exists n. split.
  - apply (counts_ext (fun s => (rng_iter k s < n)%N)); [|apply counts_below; exact L].
    intros s Hs. rewrite <- (H' (rng_iter k s)); [reflexivity|]. apply rng_iter_lt. exact Hs.
  - assert (B : Rabs (IZR (Z.of_N n) - x * IZR (2 ^ 64)) <= 1025).
    { apply Rabs_le. split.
      - destruct (N.eq_dec n two64) as [->|D].
        + change (Z.of_N two64) with (2 ^ 64)%Z. nra.
        + assert (Hn : (n < two64)%N) by lia.
          assert (E : g (v n) <> true) by (rewrite (H' n Hn); lia).
          assert (GE : x <= v n) by (apply Rnot_lt_le; intros C; apply E, G2, C).
          pose proof (round53_near n Hn) as [A _]. apply N2Z.inj_le, IZR_le in A. rewrite N2Z.inj_add, plus_IZR in A.
          apply (Rmult_le_compat_r (IZR (2 ^ 64))) in GE; [|lra]. rewrite V in GE. cbn [Z.of_N] in A. lra.
      - destruct (N.eq_dec n 0) as [->|D]; [cbn [Z.of_N]; nra|].
        assert (Hn : (N.pred n < two64)%N) by lia.
        assert (E : g (v (N.pred n)) = true) by (apply (H' _ Hn); lia). apply G1 in E.
        pose proof (round53_near _ Hn) as [_ A]. apply N2Z.inj_le, IZR_le in A. rewrite N2Z.inj_add, plus_IZR in A.
        apply (Rmult_le_compat_r (IZR (2 ^ 64))) in E; [|lra]. rewrite V in E.
        rewrite N2Z.inj_pred, <- Z.sub_1_r, minus_IZR in A by lia. cbn [Z.of_N] in A. lra. }
    replace (IZR (Z.of_N n) / IZR (2 ^ 64) - x) with ((IZR (Z.of_N n) - x * IZR (2 ^ 64)) / IZR (2 ^ 64)) by (field; lra).
    unfold Rdiv. rewrite Rabs_mult, (Rabs_pos_eq (/ _)) by (left; apply Rinv_0_lt_compat; exact T).
    apply Rmult_le_compat_r; [left; apply Rinv_0_lt_compat; exact T|exact B].
Qed.

Lemma small_ulp53 : 1025 / IZR (2 ^ 64) <= ulp53.
Proof. unfold ulp53. change (2 ^ 64)%Z with (2048 * 2 ^ 53)%Z. rewrite mult_IZR. assert (0 < / IZR (2 ^ 53)) by (apply Rinv_0_lt_compat, IZR_lt; reflexivity).
  unfold Rdiv. rewrite Rinv_mult. lra. Qed.
Lemma small_ulp52 : 1025 / IZR (2 ^ 64) + 1025 / IZR (2 ^ 64) <= ulp52.
Proof. unfold ulp52. change (2 ^ 64)%Z with (4096 * 2 ^ 52)%Z. rewrite mult_IZR. assert (0 < / IZR (2 ^ 52)) by (apply Rinv_0_lt_compat, IZR_lt; reflexivity).
  unfold Rdiv. rewrite Rinv_mult. lra. Qed.

(** Events that happen when a sample is below (above) a bound. *)
Lemma share_le k (P : N -> Prop) x : 0 <= x <= 1 -> (forall s, P s <-> nth_sample k s <= x) -> share_is P x ulp53.
Proof.
  intros Hx H. apply (share_weaken _ _ (1025 / IZR (2 ^ 64))); [|exact small_ulp53].
  apply (share_ext (fun s => Rleb (nth_sample k s) x = true)); [intros s _; rewrite Rleb_iff, H; reflexivity|].
  apply (sample_share k (fun v => Rleb v x) x); [exact Hx| |]; intros v; rewrite Rleb_iff; lra.
Qed.
Lemma share_lt k (P : N -> Prop) x : 0 <= x <= 1 -> (forall s, P s <-> nth_sample k s < x) -> share_is P x ulp53.
Proof.
  intros Hx H. apply (share_weaken _ _ (1025 / IZR (2 ^ 64))); [|exact small_ulp53].
  apply (share_ext (fun s => Rltb (nth_sample k s) x = true)); [intros s _; rewrite Rltb_iff, H; reflexivity|].
  apply (sample_share k (fun v => Rltb v x) x); [exact Hx| |]; intros v; rewrite Rltb_iff; lra.
Qed.
Lemma share_ge k (P : N -> Prop) x : 0 <= x <= 1 -> (forall s, P s <-> 1 - x <= nth_sample k s) -> share_is P x ulp53.
Proof.
  intros Hx H. replace x with (1 - (1 - x)) by lra. apply (share_ext (fun s => ~ nth_sample k s < 1 - x)).
  - intros s _. rewrite H. split; lra.
  - apply share_not. apply (share_lt k); [lra|reflexivity].
Qed.
Lemma share_gt k (P : N -> Prop) x : 0 <= x <= 1 -> (forall s, P s <-> 1 - x < nth_sample k s) -> share_is P x ulp53.
Proof.
  intros Hx H. replace x with (1 - (1 - x)) by lra. apply (share_ext (fun s => ~ nth_sample k s <= 1 - x)).
  - intros s _. rewrite H. split; lra.
  - apply share_not. apply (share_le k); [lra|reflexivity].
Qed.
(** A sample between two bounds. *)
Lemma share_between k (P : N -> Prop) x y : 0 <= x <= y -> y <= 1 -> (forall s, P s <-> x <= nth_sample k s < y) ->
  share_is P (y - x) ulp52.
Proof.
  intros Hx Hy H. apply (share_ext (fun s => Rltb (nth_sample k s) y = true /\ ~ Rltb (nth_sample k s) x = true)).
  - intros s _. rewrite H, !Rltb_iff. split; lra.
  - apply (share_weaken _ _ (1025 / IZR (2 ^ 64) + 1025 / IZR (2 ^ 64))); [|exact small_ulp52].
    apply (share_minus (fun s => Rltb (nth_sample k s) y = true) (fun s => Rltb (nth_sample k s) x = true)).
    + apply (sample_share k (fun v => Rltb v y) y); [lra| |]; intros v; rewrite Rltb_iff; lra.
    + apply (sample_share k (fun v => Rltb v x) x); [lra| |]; intros v; rewrite Rltb_iff; lra.
    + intros s _. rewrite !Rltb_iff. lra.
Qed.
