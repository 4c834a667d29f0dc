(** With a clock that never goes back the timers never overflow, and times nest (C52). *)
From Coq Require Import NArith List Bool Lia.
From Verif Require Import Float TrackAccount TimerModel TimerSpec TimerLemmas TimerRun.
Import ListNotations.
Local Open Scope N_scope.
Local Opaque duration_max.

(** The main timer, which has no statistics until the end, is not concerned. *)
Definition room (c : timers) (t : N) : Prop := forall s, s <> SMain -> let x := tm_slot c s in
  sl_tot x + w_last (sl_watch x) <= w_cumulative (sl_watch x) /\ sl_avg x * tm_n_avg c <= sl_tot x /\ w_cumulative (sl_watch x) <= t.

Lemma room_later c t t' : t <= t' -> room c t -> room c t'.
Proof. intros H R s Hs. destruct (R s Hs) as (A & B & C). cbv zeta in * . repeat split; try assumption. lia. Qed.
Lemma room_start c s t now : room c t -> room (start c s now) t.
Proof.
  intros R s' Hs. specialize (R s' Hs). pose proof (start_adds c s now s') as (A1 & A2 & A3 & A4 & A5 & A6 & A7 & A8). cbv zeta in * . rewrite start_n, A1, A4, A5, A6.
  unfold sum_of. cbn [fold_right]. rewrite !N.add_0_r. exact R.
Qed.
Lemma stop_defined c s t : s <> SMain -> room c t -> t <= duration_max -> w_cumulative (sl_watch (tm_slot c s)) <= w_start (sl_watch (tm_slot c s)) -> w_start (sl_watch (tm_slot c s)) <= t ->
  exists c', stop c s t = Ok c' /\ room c' t.
Proof.
  intros Hm R Ht Hc Hs. pose proof (R s Hm) as (A & B & C). cbv zeta in A, B, C. unfold stop, duration_since. rewrite !duration_small by lia. cbn [rbind]. eexists. split; [reflexivity|].
  intros s' Hs'. specialize (R s' Hs'). cbv zeta in * . unfold set_slot. cbn [tm_slot tm_n_avg]. destruct (section_eqb s s') eqn:E; [|exact R].
  assert (s = s') as <- by (destruct s, s'; reflexivity || discriminate). unfold set_watch. cbn [sl_tot sl_watch sl_avg w_last w_cumulative]. lia.
Qed.
Lemma measure_defined c s t0 t1 : s <> SMain -> room c t0 -> t0 <= t1 -> t1 <= duration_max -> exists c', stop (start c s t0) s t1 = Ok c' /\ room c' t1.
Proof.
  intros Hm R H1 H2. apply stop_defined; [exact Hm| |exact H2|rewrite start_own|rewrite start_own; exact H1].
  - apply room_start. now apply (room_later _ t0).
  - pose proof (start_adds c s t0 s) as (_ & _ & _ & _ & _ & -> & _). unfold sum_of. cbn [fold_right]. rewrite N.add_0_r. apply (R s Hm).
Qed.

Lemma clear_room c t : room c t -> t <= duration_max -> tm_n_avg c + 1 < 2 ^ 32 -> exists c', clear_last_cycle_timers c = Ok c' /\ room c' t /\ tm_n_avg c' = tm_n_avg c + 1.
Proof.
  intros R Ht Hn. unfold clear_last_cycle_timers. apply N.ltb_lt in Hn. rewrite Hn. cbn [rassert rbind]. clear Hn.
  assert (one : forall s, s <> SMain -> exists y, clear_slot (tm_n_avg c + 1) (tm_slot c s) = Ok y /\ sl_tot y + w_last (sl_watch y) <= w_cumulative (sl_watch y) /\
     sl_avg y * (tm_n_avg c + 1) <= sl_tot y /\ w_cumulative (sl_watch y) <= t).
  { intros s Hs. destruct (R s Hs) as (A & B & C). cbv zeta in A, B, C. unfold clear_slot. replace (tm_n_avg c + 1 - 1) with (tm_n_avg c) by lia.
    rewrite (duration_small (sl_tot _ + _)), (duration_small (sl_avg _ * _)) by lia. cbn [rbind]. rewrite duration_small by lia. cbn [rbind]. eexists. split; [reflexivity|]. cbn [sl_tot sl_watch sl_avg w_last w_cumulative]. split; [lia|]. split; [|lia].
    rewrite N.mul_comm. etransitivity; [apply N.mul_div_le; lia|]. lia. }
  destruct (one SPopulationControl ltac:(discriminate)) as (y1 & -> & Y1), (one SCycleTracking ltac:(discriminate)) as (y2 & -> & Y2), (one SCycleTrackingProcess ltac:(discriminate)) as (y3 & -> & Y3), (one SCycleTrackingSort ltac:(discriminate)) as (y4 & -> & Y4),
    (one SCycleSync ltac:(discriminate)) as (y5 & -> & Y5). cbn [rbind]. eexists. split; [reflexivity|]. split; [|reflexivity].
  intros s Hs. cbv zeta. cbn [tm_slot tm_n_avg]. destruct s; try assumption. contradiction.
Qed.

Section Run.
Variable clock : nat -> N.
Hypothesis forward : forall i, clock i <= clock (S i).
Hypothesis bounded : forall i, clock i <= duration_max.

Lemma clock_le i j : (i <= j)%nat -> clock i <= clock j.
Proof. induction 1 as [|j _ IH]; [lia|]. etransitivity; [exact IH|apply forward]. Qed.

Ltac later R j := match type of R with room _ (clock ?k) => apply (room_later _ (clock k) (clock j) (clock_le k j ltac:(lia))) in R end.

Lemma rounds_defined : forall r c i, room c (clock i) -> exists c', round_timers clock r c i = Ok (c', (i + 4 * r)%nat) /\ room c' (clock (i + 4 * r)).
Proof.
  induction r as [|r IH]; intros c i R; cbn [round_timers].
  - replace (i + 4 * 0)%nat with i by lia. eauto.
  - destruct (measure_defined c SCycleTrackingSort (clock i) (clock (i + 1)) ltac:(discriminate) R (clock_le i (i + 1) ltac:(lia)) (bounded _)) as (c1 & -> & R1). cbn [rbind].
    later R1 (i + 2)%nat.
    destruct (measure_defined c1 SCycleTrackingProcess (clock (i + 2)) (clock (i + 3)) ltac:(discriminate) R1 (clock_le (i + 2) (i + 3) ltac:(lia)) (bounded _)) as (c2 & -> & R2). cbn [rbind].
    later R2 (i + 4)%nat. destruct (IH c2 (i + 4)%nat R2) as (c3 & -> & R3).
    replace (i + 4 * S r)%nat with (i + 4 + 4 * r)%nat by lia. eauto.
Qed.
Lemma process_defined r c i : room c (clock i) -> exists c', process_timers clock r c i = Ok (c', (i + 4 + 4 * r)%nat) /\ room c' (clock (i + 4 + 4 * r)).
Proof.
  intros R. unfold process_timers.
  destruct (measure_defined c SPopulationControl (clock i) (clock (i + 1)) ltac:(discriminate) R (clock_le i (i + 1) ltac:(lia)) (bounded _)) as (c1 & -> & R1). cbn [rbind].
  later R1 (i + 2)%nat.
  pose proof (room_start _ SCycleTracking _ (clock (i + 2)) R1) as R2. later R2 (i + 3)%nat.
  destruct (rounds_defined r _ _ R2) as (c3 & E3 & R3). rewrite E3. cbn [rbind]. apply rounds_add in E3 as (_ & _ & _ & Same).
  assert (T : tm_slot c3 SCycleTracking = tm_slot (start c1 SCycleTracking (clock (i + 2))) SCycleTracking) by (apply Same; discriminate).
  destruct (stop_defined c3 SCycleTracking (clock (i + 3 + 4 * r)) ltac:(discriminate) R3 (bounded _)) as (c4 & -> & R4).
  - rewrite T, start_own. pose proof (start_adds c1 SCycleTracking (clock (i + 2)) SCycleTracking) as (_ & _ & _ & _ & _ & -> & _). unfold sum_of. cbn [fold_right]. rewrite N.add_0_r.
    apply (R1 SCycleTracking). discriminate.
  - rewrite T, start_own. apply clock_le. lia.
  - cbn [rbind]. exists c4. replace (i + 4 + 4 * r)%nat with (i + 3 + 4 * r + 1)%nat by lia. split; [reflexivity|]. later R4 (i + 3 + 4 * r + 1)%nat. exact R4.
Qed.
Lemma sync_defined step c i : room c (clock i) -> tm_n_avg c + 1 < 2 ^ 32 -> exists c' rows, sync_timers clock step c i = Ok (c', rows, (i + 2)%nat) /\ room c' (clock (i + 2)) /\
  tm_n_avg c' <= tm_n_avg c + 1.
Proof.
  intros R Hn. unfold sync_timers. destruct step as [|step].
  - cbn [rbind]. destruct (measure_defined c SCycleSync (clock i) (clock (i + 1)) ltac:(discriminate) R (clock_le i (i + 1) ltac:(lia)) (bounded _)) as (c1 & E & R1). rewrite E. cbn [rbind].
    apply measure_one in E as (A & _). exists c1, []. split; [reflexivity|]. split; [|lia]. later R1 (i + 2)%nat. exact R1.
  - pose proof (room_start c SCycleSync _ (clock i) R) as R0.
    destruct (clear_room _ _ R0 (bounded _) Hn) as (c1 & E1 & R1 & N1). rewrite E1. cbn [rbind].
    assert (Es : w_start (sl_watch (tm_slot c1 SCycleSync)) = clock i /\ w_cumulative (sl_watch (tm_slot c1 SCycleSync)) = w_cumulative (sl_watch (tm_slot c SCycleSync))).
    { unfold clear_last_cycle_timers in E1. rb E1 as z Ez. rb E1 as x1 F1. rb E1 as x2 F2. rb E1 as x3 F3. rb E1 as x4 F4. rb E1 as x5 F5. injection E1 as <-. cbn [tm_slot].
      unfold clear_slot in F5. rb F5 as t1 G1. rb F5 as t2 G2. rb F5 as t3 G3. injection F5 as <-. cbn [sl_watch w_start w_cumulative]. split; reflexivity. }
    destruct Es as (Es & Ec). destruct (stop_defined c1 SCycleSync (clock (i + 1)) ltac:(discriminate)) as (c2 & E2 & R2).
    + later R1 (i + 1)%nat. exact R1.
    + apply bounded.
    + rewrite Es, Ec. apply (R SCycleSync). discriminate.
    + rewrite Es. apply clock_le. lia.
    + rewrite E2. cbn [rbind]. apply stop_adds in E2 as (A & _). eexists _, _. split; [reflexivity|]. split; [later R2 (i + 2)%nat; exact R2|].
      rewrite A, N1. rewrite start_n. lia.
Qed.
Lemma cycles_defined : forall rounds step c i, room c (clock i) -> tm_n_avg c + N.of_nat (length rounds) < 2 ^ 32 ->
  exists c' rows i' step', cycle_timers clock step rounds c i = Ok (c', rows, i', step') /\ room c' (clock i') /\ tm_n_avg c' <= tm_n_avg c + N.of_nat (length rounds).
Proof.
  induction rounds as [|r rounds IH]; intros step c i R Hn; cbn [cycle_timers].
  - exists c, [], i, step. repeat split; try assumption; try apply R; try assumption. cbn. lia.
  - cbn [length] in Hn |- * . destruct (sync_defined step c i R ltac:(lia)) as (c1 & rows1 & -> & R1 & N1). cbn [rbind].
    destruct (process_defined r c1 (i + 2)%nat R1) as (c2 & E2 & R2). rewrite E2. cbn [rbind]. apply process_add in E2 as (_ & A2 & _).
    destruct (IH (S step) c2 _ R2 ltac:(lia)) as (c3 & rows3 & i3 & st3 & -> & R3 & N3). cbn [rbind].
    eexists _, _, _, _. split; [reflexivity|]. split; [exact R3|]. lia.
Qed.

Lemma sync_main step c i c' rows i' : sync_timers clock step c i = Ok (c', rows, i') -> tm_slot c' SMain = tm_slot c SMain.
Proof.
  unfold sync_timers. intros H. rb H as q E. destruct q as [c1 rw]. rb H as c2 E2. injection H as <- <- <-. apply stop_adds in E2 as (_ & _ & D & _). rewrite (D SMain) by discriminate.
  destruct step as [|step].
  - injection E as <- <-. apply start_other. discriminate.
  - rb E as c3 E3. injection E as <- <-. unfold clear_last_cycle_timers in E3. rb E3 as z Ez. rb E3 as x1 F1. rb E3 as x2 F2. rb E3 as x3 F3. rb E3 as x4 F4. rb E3 as x5 F5. injection E3 as <-. reflexivity.
Qed.
Lemma cycles_main : forall rounds step c i c' rows i' step', cycle_timers clock step rounds c i = Ok (c', rows, i', step') -> tm_slot c' SMain = tm_slot c SMain.
Proof.
  induction rounds as [|r rounds IH]; intros step c i c' rows i' step' H; cbn [cycle_timers] in H; [injection H as <- <- <- <-; reflexivity|].
  rb H as q E1. destruct q as [[c1 rows1] i1]. rb H as q E2. destruct q as [c2 i2]. rb H as q E3. destruct q as [[[c3 rows3] i3] step3]. injection H as <- <- <- <-.
  rewrite (IH _ _ _ _ _ _ _ E3). assert (Hi : i1 = (i + 2)%nat).
  { clear - E1. unfold sync_timers in E1. rb E1 as q E. destruct q. rb E1 as c9 E9. injection E1 as <- <- <-. reflexivity. }
  subst i1. apply process_add in E2 as (_ & _ & _ & ->). apply (sync_main _ _ _ _ _ _ E1).
Qed.

Lemma run_defined rounds : N.of_nat (length rounds) + 1 < 2 ^ 32 -> exists c rows, run_timers clock rounds = Ok (c, rows).
Proof.
  intros Hn. unfold run_timers.
  assert (R0 : room (start timers_default SMain (clock 0)) (clock 1)).
  { apply room_start. intros s _. cbn. lia. }
  destruct (cycles_defined rounds 0 _ 1%nat R0) as (c1 & rows1 & i1 & st1 & E1 & R1 & N1); [rewrite start_n; cbn; lia|]. rewrite E1. cbn [rbind]. rewrite start_n in N1. cbn in N1.
  destruct (sync_defined st1 c1 i1 R1 ltac:(lia)) as (c2 & rows2 & E2 & R2 & N2). rewrite E2. cbn [rbind].
  pose proof (sync_main _ _ _ _ _ _ E2) as S2. rewrite (cycles_main _ _ _ _ _ _ _ _ E1) in S2.
  unfold stop, duration_since. rewrite S2. cbn [start set_slot tm_slot section_eqb section_index Nat.eqb timers_default set_watch sl_watch watch_default w_last w_cumulative w_start w_end w_calls].
  rewrite !N.add_0_l, duration_small by (pose proof (bounded (i1 + 2)); lia). cbn [rbind]. eauto.
Qed.

(** ** Times nest *)
Lemma elapsed_split i j k : (i <= j)%nat -> (j <= k)%nat -> elapsed clock i k = elapsed clock i j + elapsed clock j k.
Proof. intros H1 H2. unfold elapsed. pose proof (clock_le i j H1). pose proof (clock_le j k H2). lia. Qed.
Lemma rounds_nest b : forall r, sum_of (measured clock SCycleTrackingSort b r) + sum_of (measured clock SCycleTrackingProcess b r) <= elapsed clock (b + 5) (b + 5 + 4 * r).
Proof.
  cbn [measured]. induction r as [|r IH]; [cbn; lia|]. rewrite !seq_S, !map_app, !sum_app. cbn [map]. rewrite !sum_one. cbn [Nat.add].
  rewrite (elapsed_split (b + 5) (b + 5 + 4 * r) (b + 5 + 4 * S r)) by lia.
  rewrite (elapsed_split (b + 5 + 4 * r) (b + 6 + 4 * r) (b + 5 + 4 * S r)) by lia. rewrite (elapsed_split (b + 6 + 4 * r) (b + 7 + 4 * r) (b + 5 + 4 * S r)) by lia.
  rewrite (elapsed_split (b + 7 + 4 * r) (b + 8 + 4 * r) (b + 5 + 4 * S r)) by lia. lia.
Qed.
Lemma cycle_nests b r : sum_of (measured clock SCycleTrackingSort b r) + sum_of (measured clock SCycleTrackingProcess b r) <= sum_of (measured clock SCycleTracking b r) /\
  sum_of (measured clock SCycleSync b r) + sum_of (measured clock SPopulationControl b r) + sum_of (measured clock SCycleTracking b r) <= elapsed clock b (b + (6 + 4 * r)).
Proof.
  split.
  - etransitivity; [apply rounds_nest|]. cbn [measured]. rewrite sum_one, (elapsed_split (b + 4) (b + 5) (b + 5 + 4 * r)) by lia. lia.
  - cbn [measured]. rewrite !sum_one. rewrite (elapsed_split b (b + 1) (b + (6 + 4 * r))), (elapsed_split (b + 1) (b + 2) (b + (6 + 4 * r))), (elapsed_split (b + 2) (b + 3) (b + (6 + 4 * r))),
      (elapsed_split (b + 3) (b + 4) (b + (6 + 4 * r))), (elapsed_split (b + 4) (b + 5 + 4 * r) (b + (6 + 4 * r))) by lia. lia.
Qed.
Lemma all_nest : forall rounds b, 
  sum_of (all_measured clock SCycleTrackingSort b rounds) + sum_of (all_measured clock SCycleTrackingProcess b rounds) <= sum_of (all_measured clock SCycleTracking b rounds) /\
  sum_of (all_measured clock SCycleSync b rounds) + sum_of (all_measured clock SPopulationControl b rounds) + sum_of (all_measured clock SCycleTracking b rounds)
    <= elapsed clock b (b + reading_after rounds - 1).
Proof.
  induction rounds as [|r rounds IH]; intros b; cbn [all_measured reading_after]; [cbn; lia|]. rewrite !sum_app. destruct (cycle_nests b r) as (A & B), (IH (b + (6 + 4 * r))%nat) as (C & D).
  split; [lia|]. rewrite (elapsed_split b (b + (6 + 4 * r)) (b + (6 + 4 * r + reading_after rounds) - 1)); [|lia|destruct rounds; cbn [reading_after]; lia].
  replace (b + (6 + 4 * r) + reading_after rounds - 1)%nat with (b + (6 + 4 * r + reading_after rounds) - 1)%nat in D by lia. lia.
Qed.
Lemma totals_nest rounds c rows : rounds <> [] -> run_timers clock rounds = Ok (c, rows) ->
  sl_tot (tm_slot c SCycleTrackingSort) + sl_tot (tm_slot c SCycleTrackingProcess) <= sl_tot (tm_slot c SCycleTracking) /\
  sl_tot (tm_slot c SCycleSync) + sl_tot (tm_slot c SPopulationControl) + sl_tot (tm_slot c SCycleTracking) <= sl_tot (tm_slot c SMain).
Proof.
  intros Hr H. apply run_ok in H as (_ & (v & Q) & w & M & _). assert (T : forall s, s <> SMain -> sl_tot (tm_slot c s) = sum_of (all_measured clock s 1 rounds)).
  { intros s Hs. destruct (Q s Hs) as (_ & S & _). apply (rep_total _ _ _ _ (stats_report clock rounds s _ Hr S)). }
  rewrite !T by discriminate. rewrite M. cbn [sl_tot]. destruct (all_nest rounds 1) as (A & B). split; [exact A|]. etransitivity; [exact B|].
  rewrite (elapsed_split 0 1 (last_sync rounds + 2)) by lia. unfold last_sync. replace (1 + reading_after rounds - 1)%nat with (reading_after rounds) by lia.
  rewrite (elapsed_split 1 (reading_after rounds) (reading_after rounds + 2)); [lia|destruct rounds; cbn [reading_after]; lia|lia].
Qed.
End Run.
