(** The lines of the timer report (C52). *)
From Coq Require Import NArith ZArith QArith Qreals Reals List Bool Lia Lra.
From Verif Require Import Float RealOps TimerModel TimerSpec TimerLemmas TimerRun.
Import ListNotations.
Local Open Scope N_scope.

Definition seconds (d : N) : R := (IZR (Z.of_N d) / 1000000000)%R.
Lemma as_secs_real d : as_secs (K := Rops) d = seconds d.
Proof.
  unfold as_secs, seconds. cbn [fadd fdiv fof_N flit Rops]. assert (E : Q2R (1000000000 # 1) = 1000000000%R) by (unfold Q2R; cbn; lra). rewrite E.
  pose proof (N.div_mod d 1000000000 ltac:(lia)) as D. set (q := d / 1000000000) in * . set (m := d mod 1000000000) in * .
  assert (G : IZR (Z.of_N d) = (1000000000 * IZR (Z.of_N q) + IZR (Z.of_N m))%R) by (rewrite D, N2Z.inj_add, N2Z.inj_mul, plus_IZR, mult_IZR; reflexivity).
  rewrite G. change (F Rops) with R in * . lra.
Qed.
Lemma efficiency_range (c : timers) s : sl_avg (tm_slot c s) <= sl_max (tm_slot c s) ->
  (0 <= tl_efficiency (timer_line_of (K := Rops) c s) <= 100)%R.
Proof.
  intros H. unfold timer_line_of. cbn [tl_efficiency]. rewrite !as_secs_real. cbn [fadd fdiv fmul flit Rops]. unfold seconds.
  set (a := sl_avg (tm_slot c s)) in * . set (m := sl_max (tm_slot c s)) in * .
  assert (Ha : (0 <= IZR (Z.of_N a))%R) by (apply (IZR_le 0); lia). assert (Hm : (IZR (Z.of_N a) <= IZR (Z.of_N m))%R) by (apply IZR_le; lia).
  assert (E : Q2R (100 # 1) = 100%R) by (unfold Q2R; cbn; lra). rewrite E. assert (P : (0 < Q2R (1 # 10 ^ 80))%R).
  { unfold Q2R. apply Rmult_lt_0_compat; [apply (IZR_lt 0); reflexivity|]. apply Rinv_0_lt_compat. apply (IZR_lt 0). reflexivity. }
  set (eps := Q2R (1 # 10 ^ 80)) in * . clearbody eps. set (x := IZR (Z.of_N a)) in * . set (y := IZR (Z.of_N m)) in * . clearbody x y. split.
  - apply Rmult_le_pos; [lra|]. left. apply Rinv_0_lt_compat. lra.
  - apply (Rmult_le_reg_r (y / 1000000000 + eps)); [lra|]. unfold Rdiv at 1. rewrite Rmult_assoc, Rinv_l by lra. lra.
Qed.
Lemma report_line (K : FloatOps) (c : timers) s : In s all_sections /\ nth (section_index s) (cumulative_report (K := K) c) (timer_line_of c SMain) = timer_line_of c s.
Proof. destruct s; split; try reflexivity; cbn; tauto. Qed.
Lemma micros_mono a b : a <= b -> as_micros a <= as_micros b.
Proof. intros H. apply N.div_le_mono; [lia|exact H]. Qed.
Lemma reported_order (K : FloatOps) clock rounds c rows s : rounds <> [] -> run_timers clock rounds = Ok (c, rows) ->
  let l := timer_line_of (K := K) c s in tl_shortest l <= tl_average l <= tl_longest l.
Proof.
  intros Hr H. unfold timer_line_of. cbv zeta. cbn [tl_shortest tl_average tl_longest]. apply run_ok in H as (_ & (v & Q) & w & M & _).
  assert (G : sl_min (tm_slot c s) <= sl_avg (tm_slot c s) <= sl_max (tm_slot c s)).
  { assert (D : s = SMain \/ s <> SMain) by (destruct s; auto; right; discriminate). destruct D as [->|Hs].
    - rewrite M. cbn [sl_min sl_avg sl_max]. lia.
    - destruct (Q s Hs) as (_ & St & _). apply (rep_order _ _ _ _ (stats_report clock rounds s _ Hr St)). }
  split; apply micros_mono; apply G.
Qed.
Lemma reported_efficiency clock rounds c rows s : run_timers clock rounds = Ok (c, rows) -> (0 <= tl_efficiency (timer_line_of (K := Rops) c s) <= 100)%R.
Proof.
  intros H. apply efficiency_range. apply run_ok in H as (_ & (v & Q) & w & M & _). assert (D : s = SMain \/ s <> SMain) by (destruct s; auto; right; discriminate). destruct D as [->|Hs].
  - rewrite M. cbn. lia.
  - destruct (Q s Hs) as (_ & St & _). destruct rounds as [|r rounds]; [|apply (rep_order _ _ _ _ (stats_report clock (r :: rounds) s _ ltac:(discriminate) St))].
    destruct St as (_ & _ & _ & -> & -> & _). lia.
Qed.
Lemma section_reports clock rounds c rows : rounds <> [] -> run_timers clock rounds = Ok (c, rows) -> forall s, s <> SMain ->
  section_report clock rounds s (tm_slot c s) /\
  w_calls (sl_watch (tm_slot c s)) = N.of_nat (length (all_measured clock s 1 rounds)) + (match s with SCycleSync => 1 | _ => 0 end).
Proof.
  intros Hr H s Hs. apply run_ok in H as (_ & (v & Q) & _). destruct (Q s Hs) as (_ & St & _ & _ & _ & Hk). split; [apply (stats_report clock rounds s _ Hr St)|].
  rewrite Hk. unfold after_all, sync_adds. rewrite app_length. destruct s; try contradiction; cbn [length]; lia.
Qed.
Lemma main_report clock rounds c rows : run_timers clock rounds = Ok (c, rows) -> let x := tm_slot c SMain in let d := elapsed clock 0 (last_sync rounds + 2) in
  sl_min x = d /\ sl_avg x = d /\ sl_max x = d /\ sl_tot x = d /\ w_calls (sl_watch x) = 1.
Proof. intros H. apply run_ok in H as (_ & _ & w & -> & Hw). cbn. auto. Qed.
Lemma columns_sum clock : forall rounds b,
  sum_of (map tr_population (time_rows clock b rounds)) = sum_of (all_measured clock SPopulationControl b rounds) /\
  sum_of (map tr_tracking (time_rows clock b rounds)) = sum_of (all_measured clock SCycleTracking b rounds) /\
  sum_of (map tr_sync (time_rows clock b rounds)) = sum_of (all_measured clock SCycleSync b rounds).
Proof.
  induction rounds as [|r rounds IH]; intros b; [repeat split; reflexivity|]. cbn [time_rows map all_measured]. rewrite !sum_app. destruct (IH (b + (6 + 4 * r))%nat) as (<- & <- & <-).
  repeat split; reflexivity.
Qed.
Lemma report_columns clock rounds c rows : run_timers clock rounds = Ok (c, rows) -> length rows = length rounds /\
  sum_of (map tr_population rows) = sl_tot (tm_slot c SPopulationControl) /\ sum_of (map tr_tracking rows) = sl_tot (tm_slot c SCycleTracking) /\
  sum_of (map tr_sync rows) = sl_tot (tm_slot c SCycleSync).
Proof.
  intros H. apply run_ok in H as (-> & (v & Q) & _). destruct (columns_sum clock rounds 1) as (-> & -> & ->). split.
  - clear. generalize 1%nat as b. induction rounds as [|r rounds IH]; intros b; [reflexivity|]. cbn [time_rows length]. now rewrite IH.
  - assert (T : forall s, s <> SMain -> sl_tot (tm_slot c s) = sum_of (all_measured clock s 1 rounds)).
    { intros s Hs. destruct (Q s Hs) as (_ & (T & _) & _). rewrite T. apply per_cycle_sum. }
    rewrite !T by discriminate. auto.
Qed.

(** The figure of merit: segments per second of tracking. *)
Lemma merit clock rounds c rows n : rounds <> [] -> run_timers clock rounds = Ok (c, rows) ->
  figure_of_merit (K := Rops) c n = (IZR (Z.of_N n) / seconds (sum_of (all_measured clock SCycleTracking 1 rounds)))%R.
Proof.
  intros Hr H. destruct (section_reports _ _ _ _ Hr H SCycleTracking ltac:(discriminate)) as ([T _ _ _ _] & _).
  unfold figure_of_merit. rewrite as_secs_real, T. reflexivity.
Qed.
(** The efficiency is the average over the longest, but for the tiny number that avoids the division by zero. *)
Lemma efficiency_close (a m : N) : 0 < m -> let e := tl_efficiency (timer_line_of (K := Rops) (set_slot timers_default SMain (mkSlot watch_default a m 0 0)) SMain) in
  (0 <= 100 * IZR (Z.of_N a) / IZR (Z.of_N m) - e <= IZR (Z.of_N a) * / IZR (10 ^ 69))%R.
Proof.
  intros Hm. cbv zeta. unfold timer_line_of. cbn [tl_efficiency]. cbn [tm_slot set_slot section_eqb section_index Nat.eqb sl_avg sl_max]. rewrite !as_secs_real.
  cbn [fadd fdiv fmul flit Rops]. unfold seconds. assert (E : Q2R (100 # 1) = 100%R) by (unfold Q2R; cbn; lra). rewrite E.
  assert (E2 : (Q2R (1 # 10 ^ 80) = / (100 * IZR (10 ^ 69) * 1000000000))%R).
  { unfold Q2R. cbn [Qnum Qden]. rewrite Rmult_1_l. f_equal. rewrite <- !mult_IZR. f_equal. }
  rewrite E2. assert (Hx : (0 <= IZR (Z.of_N a))%R) by (apply (IZR_le 0); lia). assert (Hy : (1 <= IZR (Z.of_N m))%R) by (apply IZR_le; lia).
  assert (Hb : (1 <= IZR (10 ^ 69))%R) by (apply IZR_le; lia).
  set (x := IZR (Z.of_N a)) in * . set (y := IZR (Z.of_N m)) in * . set (b := IZR (10 ^ 69)) in * . clearbody x y b.
  assert (Hp : (0 < 100 * b * y + 1)%R) by nra.
  replace (100 * x / y - 100 * (x / 1000000000) / (y / 1000000000 + / (100 * b * 1000000000)))%R with (x * (100 / (y * (100 * b * y + 1))))%R by (field; nra).
  assert (Hq : (0 < y * (100 * b * y + 1))%R) by (apply Rmult_lt_0_compat; lra). split.
  - apply Rmult_le_pos; [exact Hx|]. apply Rmult_le_pos; [lra|]. left. apply Rinv_0_lt_compat. exact Hq.
  - apply Rmult_le_compat_l; [exact Hx|]. apply Rmult_le_reg_r with (y * (100 * b * y + 1))%R; [exact Hq|]. unfold Rdiv. rewrite Rmult_assoc, Rinv_l by lra.
    apply Rmult_le_reg_l with b; [lra|]. replace (b * (/ b * (y * (100 * b * y + 1))))%R with (y * (100 * b * y + 1))%R by (field; lra).
    assert (1 <= y * y)%R by nra. assert (b * 1 <= b * (y * y))%R by (apply Rmult_le_compat_l; lra). lra.
Qed.
Lemma report_lines clock rounds c rows : rounds <> [] -> run_timers clock rounds = Ok (c, rows) -> forall s, s <> SMain ->
  let l := nth (section_index s) (cumulative_report (K := Rops) c) (timer_line_of c SMain) in
  exists shortest average longest, is_min shortest (per_cycle clock s 1 rounds) /\ truncated_mean average (per_cycle clock s 1 rounds) /\
    is_max longest (per_cycle clock s 1 rounds) /\
    tl_calls l = N.of_nat (length (all_measured clock s 1 rounds)) + (match s with SCycleSync => 1 | _ => 0 end) /\
    tl_shortest l = shortest / 1000 /\ tl_average l = average / 1000 /\ tl_longest l = longest / 1000 /\
    tl_total l = sum_of (all_measured clock s 1 rounds) / 1000 /\
    (0 < longest -> (0 <= 100 * IZR (Z.of_N average) / IZR (Z.of_N longest) - tl_efficiency l <= IZR (Z.of_N average) * / IZR (10 ^ 69))%R).
Proof.
  intros Hr H s Hs. cbv zeta. rewrite (proj2 (report_line Rops c s)). destruct (section_reports _ _ _ _ Hr H s Hs) as ([T R1 R2 R3 _] & Hc).
  exists (sl_min (tm_slot c s)), (sl_avg (tm_slot c s)), (sl_max (tm_slot c s)). split; [exact R1|]. split; [exact R3|]. split; [exact R2|].
  unfold timer_line_of at 1 2 3 4 5. cbv zeta. cbn [tl_calls tl_shortest tl_average tl_longest tl_total]. split; [exact Hc|]. do 3 (split; [reflexivity|]).
  split; [rewrite T; reflexivity|]. intros Hm. exact (efficiency_close _ _ Hm).
Qed.

Lemma steady i : N.of_nat i <= N.of_nat (S i). Proof. lia. Qed.
Lemma last_sync_left_out : exists clock rounds c rows, (forall i, clock i <= clock (S i)) /\ rounds <> [] /\ run_timers clock rounds = Ok (c, rows) /\
  sl_tot (tm_slot c SCycleSync) < w_cumulative (sl_watch (tm_slot c SCycleSync)).
Proof.
  destruct (run_timers N.of_nat [1%nat]) as [[c rows]| |] eqn:E; [|vm_compute in E; discriminate..].
  exists N.of_nat, [1%nat], c, rows. split; [exact steady|]. split; [discriminate|]. split; [exact E|].
  assert (G : match run_timers N.of_nat [1%nat] with Ok (c, _) => sl_tot (tm_slot c SCycleSync) <? w_cumulative (sl_watch (tm_slot c SCycleSync)) | _ => false end = true) by (vm_compute; reflexivity).
  rewrite E in G. apply N.ltb_lt. exact G.
Qed.
Lemma no_cycle_min : exists clock c rows s, (forall i, clock i <= clock (S i)) /\ run_timers clock [] = Ok (c, rows) /\
  sl_avg (tm_slot c s) < sl_min (tm_slot c s) /\ sl_min (tm_slot c s) = duration_max.
Proof.
  destruct (run_timers N.of_nat []) as [[c rows]| |] eqn:E; [|vm_compute in E; discriminate..].
  exists N.of_nat, c, rows, SCycleTracking. split; [exact steady|]. split; [exact E|].
  assert (G : match run_timers N.of_nat [] with Ok (c, _) => (sl_avg (tm_slot c SCycleTracking) <? sl_min (tm_slot c SCycleTracking)) && (sl_min (tm_slot c SCycleTracking) =? duration_max) | _ => false end = true) by (vm_compute; reflexivity).
  rewrite E in G. apply andb_prop in G as (G1 & G2). split; [now apply N.ltb_lt|now apply N.eqb_eq].
Qed.
