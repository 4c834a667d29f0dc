(** Proofs about timers (C52). *)
From Coq Require Import NArith List Bool Lia.
From Verif Require Import Float TrackAccount TimerModel TimerSpec.
Import ListNotations.
Local Open Scope N_scope.
Local Opaque duration_max.

Lemma sum_app l m : sum_of (l ++ m) = sum_of l + sum_of m.
Proof. unfold sum_of. induction l as [|a l IH]; [reflexivity|]. cbn [app fold_right]. rewrite IH. lia. Qed.
Lemma sum_one v : sum_of [v] = v. Proof. unfold sum_of. cbn. lia. Qed.

Lemma duration_ok d r : duration d = Ok r -> r = d /\ d <= duration_max.
Proof. unfold duration. destruct (d <=? duration_max) eqn:E; [|discriminate]. intros H. injection H as <-. apply N.leb_le in E. auto. Qed.
Lemma duration_small d : d <= duration_max -> duration d = Ok d.
Proof. intros H. unfold duration. apply N.leb_le in H. now rewrite H. Qed.

(** ** Measuring *)
Definition slot_adds (x y : slot) (l : list N) : Prop :=
  sl_avg y = sl_avg x /\ sl_max y = sl_max x /\ sl_min y = sl_min x /\ sl_tot y = sl_tot x /\
  w_last (sl_watch y) = w_last (sl_watch x) + sum_of l /\ w_cumulative (sl_watch y) = w_cumulative (sl_watch x) + sum_of l /\
  w_calls (sl_watch y) = w_calls (sl_watch x) + N.of_nat (length l) /\ (w_last (sl_watch x) <= duration_max -> w_last (sl_watch y) <= duration_max).

Lemma adds_refl x : slot_adds x x [].
Proof. unfold slot_adds, sum_of. cbn. repeat split; lia. Qed.
Lemma adds_trans x y z l m : slot_adds x y l -> slot_adds y z m -> slot_adds x z (l ++ m).
Proof.
  unfold slot_adds. intros (A1 & A2 & A3 & A4 & A5 & A6 & A7 & A8) (B1 & B2 & B3 & B4 & B5 & B6 & B7 & B8). rewrite app_length, sum_app. repeat split; try congruence; try lia.
Qed.
Lemma start_adds c s t s' : slot_adds (tm_slot c s') (tm_slot (start c s t) s') [].
Proof.
  unfold start, set_slot. cbn [tm_slot]. destruct (section_eqb s s') eqn:E; [|apply adds_refl].
  assert (s = s') as <- by (destruct s, s'; reflexivity || discriminate). unfold slot_adds, set_watch, sum_of. cbn. repeat split; lia.
Qed.
Lemma start_own c s t : w_start (sl_watch (tm_slot (start c s t) s)) = t.
Proof. unfold start, set_slot. cbn [tm_slot]. destruct s; reflexivity. Qed.
Lemma stop_adds c s t c' : stop c s t = Ok c' -> tm_n_avg c' = tm_n_avg c /\
  (forall s', slot_adds (tm_slot c s') (tm_slot c' s') (if section_eqb s s' then [t - w_start (sl_watch (tm_slot c s))] else [])) /\
  (forall s', s' <> s -> tm_slot c' s' = tm_slot c s') /\ w_start (sl_watch (tm_slot c' s)) = w_start (sl_watch (tm_slot c s)) /\ w_end (sl_watch (tm_slot c' s)) = t.
Proof.
  unfold stop, duration_since. intros H. rb H as l El. rb H as k Ek. apply duration_ok in El as (-> & Hl). apply duration_ok in Ek as (-> & Hk). injection H as <-.
  split; [reflexivity|]. split; [|split].
  - intros s'. unfold set_slot. cbn [tm_slot]. destruct (section_eqb s s') eqn:E; [|apply adds_refl].
    assert (s = s') as <- by (destruct s, s'; reflexivity || discriminate). unfold slot_adds, set_watch. cbn [sl_avg sl_max sl_min sl_tot sl_watch w_last w_cumulative w_calls length].
    rewrite sum_one. repeat split; lia.
  - intros s' Hs. unfold set_slot. cbn [tm_slot]. destruct (section_eqb s s') eqn:E; [|reflexivity]. destruct s, s'; congruence || discriminate.
  - destruct s; split; reflexivity.
Qed.
Lemma start_n c s t : tm_n_avg (start c s t) = tm_n_avg c. Proof. reflexivity. Qed.
Lemma start_other c s t s' : s' <> s -> tm_slot (start c s t) s' = tm_slot c s'.
Proof. intros Hs. unfold start, set_slot. cbn [tm_slot]. destruct (section_eqb s s') eqn:E; [|reflexivity]. destruct s, s'; congruence || discriminate. Qed.

(** One measurement. *)
Lemma measure_one c s t0 t1 c' : stop (start c s t0) s t1 = Ok c' -> tm_n_avg c' = tm_n_avg c /\
  (forall s', slot_adds (tm_slot c s') (tm_slot c' s') (if section_eqb s s' then [t1 - t0] else [])) /\ (forall s', s' <> s -> tm_slot c' s' = tm_slot c s').
Proof.
  intros H. apply stop_adds in H as (A & B & C & _). rewrite start_own in B. split; [exact A|]. split.
  - intros s'. specialize (B s'). pose proof (adds_trans _ _ _ _ _ (start_adds c s t0 s') B) as T. exact T.
  - intros s' Hs. rewrite (C s' Hs). now apply start_other.
Qed.

Section Run.
Variable clock : nat -> N.
Notation el := (elapsed clock).

Definition round_adds (r i : nat) (s : section) : list N :=
  match s with
  | SCycleTrackingSort => map (fun j => el (i + 4 * j) (i + 1 + 4 * j)) (seq 0 r)
  | SCycleTrackingProcess => map (fun j => el (i + 2 + 4 * j) (i + 3 + 4 * j)) (seq 0 r)
  | _ => []
  end.
Lemma shift_seq r i a b : map (fun j => el (i + 4 + a + 4 * j) (i + 4 + b + 4 * j)) (seq 0 r) = map (fun j => el (i + a + 4 * j) (i + b + 4 * j)) (seq 1 r).
Proof. rewrite <- seq_shift, map_map. apply map_ext. intros j. f_equal; lia. Qed.
Lemma rounds_add : forall r c i c' i', round_timers clock r c i = Ok (c', i') -> i' = (i + 4 * r)%nat /\ tm_n_avg c' = tm_n_avg c /\
  (forall s, slot_adds (tm_slot c s) (tm_slot c' s) (round_adds r i s)) /\ (forall s, s <> SCycleTrackingSort -> s <> SCycleTrackingProcess -> tm_slot c' s = tm_slot c s).
Proof.
  induction r as [|r IH]; intros c i c' i' H; cbn [round_timers] in H.
  - injection H as <- <-. split; [lia|]. split; [reflexivity|]. split; [|reflexivity]. intros []; apply adds_refl.
  - rb H as c1 E1. rb H as c2 E2. apply measure_one in E1 as (A1 & B1 & C1). apply measure_one in E2 as (A2 & B2 & C2). apply IH in H as (-> & A & B & C).
    split; [lia|]. split; [congruence|]. split; [|intros s h1 h2; rewrite (C s h1 h2), (C2 s h2), (C1 s h1); reflexivity].
    intros s. specialize (B1 s). specialize (B2 s). specialize (B s). pose proof (adds_trans _ _ _ _ _ (adds_trans _ _ _ _ _ B1 B2) B) as T.
    destruct s; cbn [round_adds section_eqb section_index Nat.eqb app] in T |- * ; try exact T.
    + cbn [seq map]. pose proof (shift_seq r i 2 3) as Es. rewrite <- Es. unfold elapsed in T |- * at 1.
      replace (i + 2 + 4 * 0)%nat with (i + 2)%nat by lia. replace (i + 3 + 4 * 0)%nat with (i + 3)%nat by lia. exact T.
    + cbn [seq map].
      unfold elapsed in T |- * at 1. replace (i + 4 * 0)%nat with i by lia. replace (i + 1 + 4 * 0)%nat with (i + 1)%nat by lia.
      assert (E2' : map (fun j => el (i + 4 * j) (i + 1 + 4 * j)) (seq 1 r) = map (fun j => el (i + 4 + 4 * j) (i + 4 + 1 + 4 * j)) (seq 0 r)).
      { rewrite <- seq_shift, map_map. apply map_ext. intros j. f_equal; lia. }
      rewrite E2'. exact T.
Qed.

Definition process_adds (r b : nat) (s : section) : list N := match s with SCycleSync => [] | _ => measured clock s b r end.
Lemma process_add r c b c' i' : process_timers clock r c (b + 2) = Ok (c', i') -> i' = (b + (6 + 4 * r))%nat /\ tm_n_avg c' = tm_n_avg c /\
  (forall s, slot_adds (tm_slot c s) (tm_slot c' s) (process_adds r b s)) /\ tm_slot c' SMain = tm_slot c SMain.
Proof.
  unfold process_timers. intros H. rb H as c1 E1. rb H as q E2. destruct q as [c2 i2]. rb H as c3 E3. injection H as <- <-.
  apply measure_one in E1 as (A1 & B1 & C1). apply rounds_add in E2 as (-> & A2 & B2 & C2). apply stop_adds in E3 as (A3 & B3 & C3 & _).
  split; [lia|]. split; [rewrite start_n in A2; congruence|]. split.
  - intros s. specialize (B1 s). pose proof (start_adds c1 SCycleTracking (clock (b + 2 + 2)) s) as B1'. specialize (B2 s). specialize (B3 s).
    pose proof (adds_trans _ _ _ _ _ (adds_trans _ _ _ _ _ (adds_trans _ _ _ _ _ B1 B1') B2) B3) as T.
    rewrite (C2 SCycleTracking) in T by discriminate. rewrite start_own in T.
    destruct s; cbn [round_adds section_eqb section_index Nat.eqb app process_adds measured] in T |- * ; rewrite ?app_nil_r in T; try exact T; unfold elapsed in T |- * .
    + replace (b + 3)%nat with (b + 2 + 1)%nat by lia. exact T.
    + replace (b + 4)%nat with (b + 2 + 2)%nat by lia. replace (b + 5 + 4 * r)%nat with (b + 2 + 3 + 4 * r)%nat by lia. exact T.
    + erewrite map_ext; [exact T|]. intros j. cbn beta. f_equal; f_equal; lia.
    + erewrite map_ext; [exact T|]. intros j. cbn beta. f_equal; f_equal; lia.
  - rewrite (C3 SMain), (C2 SMain), start_other, (C1 SMain) by discriminate. reflexivity.
Qed.
End Run.

(** ** Statistics *)
Definition stats (x : slot) (l : list N) : Prop :=
  sl_tot x = sum_of l /\ truncated_mean (sl_avg x) l /\ Forall (fun v => v <= duration_max) l /\
  match l with [] => sl_avg x = 0 /\ sl_max x = 0 /\ sl_min x = duration_max
  | _ => is_min (sl_min x) l /\ is_max (sl_max x) l /\ sl_min x <= sl_avg x <= sl_max x end.

Lemma is_min_snoc m l v : is_min m l -> is_min (if v <? m then v else m) (l ++ [v]).
Proof.
  intros (I & A). destruct (v <? m) eqn:E; split.
  - apply in_or_app. right. now left.
  - apply N.ltb_lt in E. apply Forall_app. split; [|repeat constructor; lia]. revert A. apply Forall_impl. intros; lia.
  - apply in_or_app. now left.
  - apply N.ltb_ge in E. apply Forall_app. split; [exact A|repeat constructor; exact E].
Qed.
Lemma is_max_snoc m l v : is_max m l -> is_max (if m <? v then v else m) (l ++ [v]).
Proof.
  intros (I & A). destruct (m <? v) eqn:E; split.
  - apply in_or_app. right. now left.
  - apply N.ltb_lt in E. apply Forall_app. split; [|repeat constructor; lia]. revert A. apply Forall_impl. intros; lia.
  - apply in_or_app. now left.
  - apply N.ltb_ge in E. apply Forall_app. split; [exact A|repeat constructor; exact E].
Qed.

Lemma mean_snoc a l v : truncated_mean a l -> let n := N.of_nat (length l) + 1 in truncated_mean ((a * (n - 1) + v) / n) (l ++ [v]).
Proof.
  unfold truncated_mean. cbv zeta. rewrite app_length, sum_app, sum_one. cbn [length]. intros (A & B).
  set (k := N.of_nat (length l)) in * . set (S0 := sum_of l) in * . replace (N.of_nat (length l + 1)) with (k + 1) by lia. clearbody k S0.
  replace (k + 1 - 1) with k by lia. pose proof (N.div_mod (a * k + v) (k + 1) ltac:(lia)) as D. pose proof (N.mod_lt (a * k + v) (k + 1) ltac:(lia)) as M.
  set (q := (a * k + v) / (k + 1)) in * . set (m := (a * k + v) mod (k + 1)) in * . clearbody q m. split; [nia|].
  destruct (N.eq_dec k 0) as [->|Hk]; [lia|]. assert (E : k * (k - 1) + 2 * k = (k + 1) * k) by nia. nia.
Qed.
Lemma avg_between lo hi a k v : lo <= a <= hi -> lo <= v <= hi -> lo <= (a * k + v) / (k + 1) <= hi.
Proof.
  intros Ha Hv. split.
  - apply N.div_le_lower_bound; [lia|]. nia.
  - apply N.lt_succ_r. apply N.div_lt_upper_bound; [lia|]. nia.
Qed.

Lemma clear_stats x y l : stats x l -> w_last (sl_watch x) <= duration_max -> clear_slot (N.of_nat (length l) + 1) x = Ok y ->
  stats y (l ++ [w_last (sl_watch x)]) /\ w_last (sl_watch y) = 0 /\ w_cumulative (sl_watch y) = w_cumulative (sl_watch x) /\ w_calls (sl_watch y) = w_calls (sl_watch x).
Proof.
  intros (T & M & D & R) Hv H. unfold clear_slot in H. rb H as tot Et. rb H as pr Ep. rb H as sm Es.
  apply duration_ok in Et as (-> & Ht). apply duration_ok in Ep as (-> & Hp). apply duration_ok in Es as (-> & Hs). injection H as <-.
  set (v := w_last (sl_watch x)) in * . cbn [sl_watch w_last w_cumulative w_calls]. split; [|auto].
  unfold stats. cbn [sl_tot sl_avg sl_max sl_min]. split; [rewrite sum_app, sum_one; congruence|]. split; [apply mean_snoc; exact M|].
  split; [apply Forall_app; auto|]. replace (N.of_nat (length l) + 1 - 1) with (N.of_nat (length l)) by lia.
  destruct l as [|u l].
  - destruct R as (-> & -> & ->). cbn [app length]. change (N.of_nat 0) with 0. replace ((0 * 0 + v) / (0 + 1)) with v by (rewrite N.add_0_l, N.div_1_r; lia).
    assert (E1 : (if v <? duration_max then v else duration_max) = v) by (destruct (v <? duration_max) eqn:E; [reflexivity|apply N.ltb_ge in E; lia]).
    assert (E2 : (if 0 <? v then v else 0) = v) by (destruct (0 <? v) eqn:E; [reflexivity|apply N.ltb_ge in E; lia]).
    rewrite E1, E2. unfold is_min, is_max. repeat split; try (now left); try (repeat constructor; lia); lia.
  - destruct R as (R1 & R2 & R3). cbn [app]. change (u :: l ++ [v]) with ((u :: l) ++ [v]). pose proof (is_min_snoc _ _ v R1) as N1. pose proof (is_max_snoc _ _ v R2) as N2.
    split; [exact N1|]. split; [exact N2|]. apply avg_between.
    + destruct (v <? sl_min x) eqn:E1, (sl_max x <? v) eqn:E2; rewrite ?N.ltb_lt, ?N.ltb_ge in *; lia.
    + destruct (v <? sl_min x) eqn:E1, (sl_max x <? v) eqn:E2; rewrite ?N.ltb_lt, ?N.ltb_ge in *; lia.
Qed.
Lemma clear_defined x l : stats x l -> sum_of l + w_last (sl_watch x) <= duration_max -> exists y, clear_slot (N.of_nat (length l) + 1) x = Ok y.
Proof.
  intros (T & (M & _) & _) H. unfold clear_slot. rewrite T, duration_small by exact H. cbn [rbind].
  rewrite duration_small by nia. cbn [rbind]. rewrite duration_small by nia. cbn [rbind]. eexists. reflexivity.
Qed.
