(** Generic facts about the search of the nearest center, for any float operations. *)
From Coq Require Import NArith QArith List Bool Lia Permutation.
From Verif Require Import Float ParticleModel NuclearModel CycleModel AssignModel TrackAccount CycleFacts.
Import ListNotations.
Local Open Scope N_scope.
Local Open Scope float_scope.

(** Number of cells not yet flagged. *)
Fixpoint unflagged (l : list bool) : nat :=
  match l with [] => 0 | b :: l => (if b then 0 else 1) + unflagged l end.

Lemma unflagged_le l : (unflagged l <= length l)%nat.
Proof. induction l as [|[] l]; cbn; lia. Qed.

Lemma unflagged_set l i : nth_error l i = Some false -> unflagged l = S (unflagged (list_set l i true)).
Proof.
  revert i. induction l as [|b l IH]; intros [|i] H; cbn in H; try discriminate.
  - injection H as ->. reflexivity.
  - cbn. rewrite (IH i H). destruct b; lia.
Qed.

Section Assign.
Context {K : FloatOps}.
Implicit Types (g : gao K) (s : search).

(** [s'] comes from [s] by flagging some new cells and adding them to the two queues. *)
Definition pushed s s' : Prop :=
  exists new, se_queue s' = se_queue s ++ new /\ se_wet s' = se_wet s ++ new /\
    (unflagged (se_burned s) = length new + unflagged (se_burned s'))%nat /\
    length (se_burned s') = length (se_burned s) /\
    se_burned s' = fold_left (fun b i => list_set b (N.to_nat i) true) new (se_burned s).

Lemma pushed_refl s : pushed s s.
Proof. exists []. rewrite !app_nil_r. cbn. auto. Qed.
Lemma pushed_trans a b c : pushed a b -> pushed b c -> pushed a c.
Proof.
  intros (n1 & Q1 & W1 & U1 & L1 & B1) (n2 & Q2 & W2 & U2 & L2 & B2). exists (n1 ++ n2).
  rewrite Q2, Q1, W2, W1, !app_assoc. split; [reflexivity|]. split; [reflexivity|].
  rewrite app_length. split; [lia|]. split; [congruence|]. rewrite fold_left_app, <- B1. exact B2.
Qed.

Lemma add_tuple_pushed g s t s' : add_tuple_to_queue g s t = Ok s' -> pushed s s'.
Proof.
  unfold add_tuple_to_queue. intros H. rb H as b E.
  unfold vec_get in E. destruct (nth_error _ _) as [b'|] eqn:En; [|discriminate]. injection E as ->.
  destruct b; injection H as <-; [apply pushed_refl|].
  exists [tuple_to_index g t]. cbn. split; [reflexivity|]. split; [reflexivity|].
  rewrite (unflagged_set _ _ En). split; [lia|]. split; [apply length_list_set|reflexivity].
Qed.

Lemma add_nbrs_pushed g s i s' : add_nbrs_to_queue g s i = Ok s' -> pushed s s'.
Proof.
  unfold add_nbrs_to_queue. generalize (axis_nbrs g (index_to_tuple g i)). intros l. revert s.
  induction l as [|t l IH]; intros s H; cbn in H.
  - injection H as <-. apply pushed_refl.
  - rb H as s1 E. eapply pushed_trans; [eapply add_tuple_pushed; eauto|eauto].
Qed.

Lemma rbind_fuel {A B} (r : result A) (k : A -> result B) :
  r <> NoFuel -> (forall a, r = Ok a -> k a <> NoFuel) -> rbind r k <> NoFuel.
Proof. destruct r; cbn; try congruence. intros _ H. apply H. reflexivity. Qed.
Lemma unwrap_fuel {A} (o : option A) : unwrap o <> NoFuel.
Proof. destruct o; discriminate. Qed.
Lemma vec_get_fuel {A} (l : list A) i : vec_get l i <> NoFuel.
Proof. apply unwrap_fuel. Qed.
Lemma rassert_fuel b : rassert b <> NoFuel.
Proof. destruct b; discriminate. Qed.
Lemma usub_fuel a b : usub a b <> NoFuel.
Proof. unfold usub. destruct (b <=? a); discriminate. Qed.
Lemma rfold_fuel {A St} (f : St -> A -> result St) (l : list A) (s : St) : (forall (s : St) a, f s a <> NoFuel) -> rfold f l s <> NoFuel.
Proof.
  intros H. revert s. induction l as [|a l IH]; intros s; cbn; [discriminate|].
  apply rbind_fuel; auto.
Qed.
Lemma rmap_fuel {A B} (f : A -> result B) l : (forall a, In a l -> f a <> NoFuel) -> rmap f l <> NoFuel.
Proof.
  induction l as [|a l IH]; intros H; cbn; [discriminate|].
  apply rbind_fuel; [apply H; left; reflexivity|]. intros b _.
  apply rbind_fuel; [apply IH; intros; apply H; right; auto|discriminate].
Qed.

Lemma which_tuple_fuel g r : which_cell_tuple g r <> NoFuel.
Proof.
  unfold which_cell_tuple, axis_index.
  repeat (apply rbind_fuel; [repeat (apply rbind_fuel; [first [apply unwrap_fuel|apply usub_fuel]|intros]); discriminate|intros]).
  discriminate.
Qed.
Lemma min_dist2_fuel g r i : min_dist2 g r i <> NoFuel.
Proof.
  unfold min_dist2. apply rbind_fuel; [apply which_tuple_fuel|]. intros [[rx ry] rz] _.
  destruct (index_to_tuple g i) as [[tx ty] tz]. apply rbind_fuel; [apply rassert_fuel|discriminate].
Qed.
Lemma add_tuple_fuel g s t : add_tuple_to_queue g s t <> NoFuel.
Proof. unfold add_tuple_to_queue. apply rbind_fuel; [apply vec_get_fuel|]. intros []; discriminate. Qed.
Lemma scan_fuel g rr l best : scan_centers g rr l best <> NoFuel.
Proof.
  revert best. induction l as [|i l IH]; intros best; cbn [scan_centers]; [discriminate|].
  apply rbind_fuel; [apply vec_get_fuel|]. auto.
Qed.

Lemma search_fuel fuel g rr s best :
  (length (se_queue s) + unflagged (se_burned s) <= fuel)%nat -> search_loop fuel g rr s best <> NoFuel.
Proof.
  revert s best. induction fuel as [|fuel IH]; intros s best H; cbn [search_loop];
    destruct (se_queue s) as [|c q] eqn:Eq; try discriminate; cbn [length] in H; [lia|].
  apply rbind_fuel; [apply min_dist2_fuel|]. intros dd _.
  destruct (dd >. fst best).
  - apply IH. cbn. lia.
  - apply rbind_fuel; [apply vec_get_fuel|]. intros mine _.
    apply rbind_fuel; [apply scan_fuel|]. intros best' _.
    apply rbind_fuel.
    + apply rfold_fuel. intros. apply add_tuple_fuel.
    + intros s' E. apply add_nbrs_pushed in E. destruct E as (new & Q & _ & U & _).
      cbn in Q, U. apply IH. rewrite Q, app_length. lia.
Qed.

Lemma nearest_center_fuel g rr : nearest_center g rr <> NoFuel.
Proof.
  unfold nearest_center. apply rbind_fuel; [apply which_tuple_fuel|]. intros t _.
  apply rbind_fuel; [apply add_tuple_fuel|]. intros s E. apply add_tuple_pushed in E.
  destruct E as (new & Q & _ & U & L & _). cbn in Q, U, L.
  apply rbind_fuel.
  - apply search_fuel. rewrite Q. pose proof (unflagged_le (ga_burned g)). lia.
  - intros [s' best] _. apply rbind_fuel; [apply unwrap_fuel|discriminate].
Qed.

(** The index found is that of a center. *)
Lemma scan_index g rr l best best' : scan_centers g rr l best = Ok best' ->
  (forall i, snd best = Some i -> i < N.of_nat (length (ga_centers g))) ->
  forall i, snd best' = Some i -> i < N.of_nat (length (ga_centers g)).
Proof.
  revert best. induction l as [|j l IH]; intros best H Hb; cbn [scan_centers] in H.
  - injection H as <-. exact Hb.
  - rb H as c E. eapply IH; [exact H|]. destruct (_ <. _).
    + cbn. intros i [= <-]. unfold vec_get in E. destruct (nth_error _ _) eqn:En; [|discriminate].
      (assert (N.to_nat j < length (ga_centers g))%nat by (apply nth_error_Some; congruence); lia).
    + exact Hb.
Qed.

Lemma search_index fuel g rr s best s' best' : search_loop fuel g rr s best = Ok (s', best') ->
  (forall i, snd best = Some i -> i < N.of_nat (length (ga_centers g))) ->
  forall i, snd best' = Some i -> i < N.of_nat (length (ga_centers g)).
Proof.
  revert s best. induction fuel as [|fuel IH]; intros s best H Hb; cbn [search_loop] in H;
    destruct (se_queue s) as [|c q] eqn:Eq; try discriminate.
  - injection H as <- <-. exact Hb.
  - injection H as <- <-. exact Hb.
  - rb H as dd E. destruct (dd >. fst best); [eauto|].
    rb H as mine E1. rb H as best1 E2. rb H as s1 E3. eapply IH; [exact H|]. eapply scan_index; eauto.
Qed.

Lemma nearest_center_index g rr i b : nearest_center g rr = Ok (i, b) -> i < N.of_nat (length (ga_centers g)).
Proof.
  unfold nearest_center. intros H. rb H as t E. rb H as s Es. rb H as [s' best] E2. rb H as j E3.
  injection H as <- _. eapply search_index; [exact E2|discriminate|].
  destruct (snd best); [|discriminate]. injection E3 as ->. reflexivity.
Qed.

(** The scratch flags are restored. *)
Definition flagged_in (l : list bool) (w : list N) : Prop :=
  forall i, nth_error l i = Some true -> In (N.of_nat i) w.

Lemma flags_set new l w : flagged_in l w ->
  flagged_in (fold_left (fun b i => list_set b (N.to_nat i) true) new l) (w ++ new).
Proof.
  revert l w. induction new as [|i new IH]; intros l w H; cbn [fold_left]; [rewrite app_nil_r; exact H|].
  replace (w ++ i :: new) with ((w ++ [i]) ++ new) by (rewrite <- app_assoc; reflexivity). apply IH.
  intros j Hj. apply in_or_app.
  destruct (Nat.eq_dec j (N.to_nat i)) as [->|Hne]; [right; left; lia|]. left. apply H.
  revert Hj. clear - Hne. revert j i Hne. induction l as [|b l IHl]; intros j i Hne; [destruct (N.to_nat i); auto|].
  destruct (N.to_nat i) as [|i'] eqn:Ei; cbn [list_set].
  - destruct j; [lia|]. auto.
  - destruct j as [|j]; [auto|]. cbn. intros Hj. apply (IHl j (N.of_nat i')); [lia|].
    rewrite Nnat.Nat2N.id. exact Hj.
Qed.

Lemma list_set_other {A} (l : list A) i j v : i <> j -> nth_error (list_set l i v) j = nth_error l j.
Proof.
  revert i j. induction l as [|a l IH]; intros i j H; [destruct i; reflexivity|].
  destruct i, j; cbn; try lia; auto.
Qed.
Lemma list_set_same {A} (l : list A) i v : (i < length l)%nat -> nth_error (list_set l i v) i = Some v.
Proof. revert i. induction l as [|a l IH]; intros [|i] H; cbn in * ; try lia; auto. apply IH. lia. Qed.

Lemma clear_all w l : flagged_in l w -> clear_burned l w = repeat false (length l).
Proof.
  intros H.
  assert (G : forall j b, nth_error (clear_burned l w) j = Some b -> b = false).
  { revert l H. induction w as [|i w IH]; intros l H j b Hj; cbn in Hj.
    - destruct b; [|reflexivity]. apply H in Hj. destruct Hj.
    - eapply IH; [|exact Hj]. intros k Hk. destruct (Nat.eq_dec (N.to_nat i) k) as [<-|Hne].
      + rewrite list_set_same in Hk; [discriminate|].
        rewrite <- (length_list_set l (N.to_nat i) false). apply nth_error_Some. congruence.
      + rewrite list_set_other in Hk by auto. apply H in Hk. destruct Hk as [->|]; [|assumption].
        rewrite Nnat.Nat2N.id in Hne. congruence. }
  assert (L : length (clear_burned l w) = length l).
  { clear. unfold clear_burned. revert l. induction w as [|i w IH]; intros l; [reflexivity|].
    cbn. rewrite IH. apply length_list_set. }
  rewrite <- L. clear - G. induction (clear_burned l w) as [|b m IH]; [reflexivity|].
  cbn. f_equal; [apply (G 0%nat b); reflexivity|]. apply IH. intros j c Hj. apply (G (S j) c). exact Hj.
Qed.

Lemma search_flags fuel g rr s best s' best' : search_loop fuel g rr s best = Ok (s', best') ->
  flagged_in (se_burned s) (se_wet s) ->
  flagged_in (se_burned s') (se_wet s') /\ length (se_burned s') = length (se_burned s).
Proof.
  revert s best. induction fuel as [|fuel IH]; intros s best H Hf; cbn [search_loop] in H;
    destruct (se_queue s) as [|c q] eqn:Eq; try discriminate.
  - injection H as <- <-. auto.
  - injection H as <- <-. auto.
  - rb H as dd E. destruct (dd >. fst best); [apply IH in H; auto|].
    rb H as mine E1. rb H as best1 E2. rb H as s1 E3. apply add_nbrs_pushed in E3.
    destruct E3 as (new & _ & W & _ & L & B). cbn in W, L, B. rewrite <- L. apply IH with best1; auto.
    rewrite W, B. apply flags_set. exact Hf.
Qed.

Lemma nearest_center_scratch g rr i b n : ga_burned g = repeat false n ->
  nearest_center g rr = Ok (i, b) -> b = ga_burned g.
Proof.
  intros Hn. unfold nearest_center. intros H. rb H as t E. rb H as s Es. rb H as [s' best] E2. rb H as j E3.
  injection H as _ <-. apply add_tuple_pushed in Es. destruct Es as (new & _ & W & _ & L & B). cbn in W, L, B.
  apply search_flags in E2.
  - destruct E2 as (F & L2). rewrite (clear_all _ _ F), L2, L, Hn, repeat_length. reflexivity.
  - rewrite W, B. apply (flags_set new (ga_burned g) []). intros j0 Hj. rewrite Hn in Hj.
    apply nth_error_In, repeat_spec in Hj. discriminate.
Qed.

End Assign.
