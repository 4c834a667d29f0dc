(** Claims about the timers (C52). *)
From Coq Require Import NArith ZArith Reals List Bool.
From Verif Require Import Float RealOps TimerModel TimerSpec TimerLemmas TimerRun TimerDefined TimerReport.
Import ListNotations.
Local Open Scope N_scope.

(** For a run of at least one cycle, whatever the readings of the clock and the number of turns of the tracking loop in each cycle: the statistics
    of each section are those of the measured durations, and the number of calls is that of the measurements.  The last synchronisation is
    counted as a call and not as time (see [c52_all_time_counted_refuted]). *)
Theorem c52_section_statistics : forall clock rounds c rows, rounds <> [] -> run_timers clock rounds = Ok (c, rows) -> forall s, s <> SMain ->
  section_report clock rounds s (tm_slot c s) /\
  w_calls (sl_watch (tm_slot c s)) = N.of_nat (length (all_measured clock s 1 rounds)) + (match s with SCycleSync => 1 | _ => 0 end).
Proof. exact section_reports. Qed.
Print Assumptions c52_section_statistics.

(** The main timer measures the whole run. *)
Theorem c52_main_statistics : forall clock rounds c rows, run_timers clock rounds = Ok (c, rows) ->
  let x := tm_slot c SMain in let d := elapsed clock 0 (last_sync rounds + 2) in
  sl_min x = d /\ sl_avg x = d /\ sl_max x = d /\ sl_tot x = d /\ w_calls (sl_watch x) = 1.
Proof. exact main_report. Qed.
Print Assumptions c52_main_statistics.

(** The printed columns: shortest, average and longest are in order, in microseconds too; the efficiency is between 0 and 100 in exact arithmetic. *)
Theorem c52_reported_order : forall (K : FloatOps) clock rounds c rows s, rounds <> [] -> run_timers clock rounds = Ok (c, rows) ->
  let l := timer_line_of (K := K) c s in tl_shortest l <= tl_average l <= tl_longest l.
Proof. exact reported_order. Qed.
Print Assumptions c52_reported_order.
Theorem c52_efficiency : forall clock rounds c rows s, run_timers clock rounds = Ok (c, rows) -> (0 <= tl_efficiency (timer_line_of (K := Rops) c s) <= 100)%R.
Proof. exact reported_efficiency. Qed.
Print Assumptions c52_efficiency.

(** The lines of the report are these statistics in microseconds; the efficiency is the average over the longest in percent, but for the tiny
    number added to avoid a division by zero; the figure of merit is the number of segments per second of tracking (exact arithmetic). *)
Theorem c52_report_lines : forall clock rounds c rows, rounds <> [] -> run_timers clock rounds = Ok (c, rows) -> forall s, s <> SMain ->
  let l := nth (section_index s) (cumulative_report (K := Rops) c) (timer_line_of c SMain) in
  exists shortest average longest, is_min shortest (per_cycle clock s 1 rounds) /\ truncated_mean average (per_cycle clock s 1 rounds) /\
    is_max longest (per_cycle clock s 1 rounds) /\
    tl_calls l = N.of_nat (length (all_measured clock s 1 rounds)) + (match s with SCycleSync => 1 | _ => 0 end) /\
    tl_shortest l = shortest / 1000 /\ tl_average l = average / 1000 /\ tl_longest l = longest / 1000 /\
    tl_total l = sum_of (all_measured clock s 1 rounds) / 1000 /\
    (0 < longest -> (0 <= 100 * IZR (Z.of_N average) / IZR (Z.of_N longest) - tl_efficiency l <= IZR (Z.of_N average) * / IZR (10 ^ 69))%R).
Proof. exact report_lines. Qed.
Print Assumptions c52_report_lines.
Theorem c52_figure_of_merit : forall clock rounds c rows n, rounds <> [] -> run_timers clock rounds = Ok (c, rows) ->
  figure_of_merit (K := Rops) c n = (IZR (Z.of_N n) / (IZR (Z.of_N (sum_of (all_measured clock SCycleTracking 1 rounds))) / 1000000000))%R.
Proof. exact merit. Qed.
Print Assumptions c52_figure_of_merit.

(** The durations in the lines of the tallies report add up to the totals of the timer report. *)
Theorem c52_columns_add_up : forall clock rounds c rows, run_timers clock rounds = Ok (c, rows) -> length rows = length rounds /\
  sum_of (map tr_population rows) = sl_tot (tm_slot c SPopulationControl) /\ sum_of (map tr_tracking rows) = sl_tot (tm_slot c SCycleTracking) /\
  sum_of (map tr_sync rows) = sl_tot (tm_slot c SCycleSync).
Proof. exact report_columns. Qed.
Print Assumptions c52_columns_add_up.

(** With a clock that does not go back: the timers never overflow, sorting and processing are within tracking, and synchronisation, population
    control and tracking within the main section. *)
Theorem c52_timers_defined : forall clock, (forall i, clock i <= clock (S i)) -> (forall i, clock i <= duration_max) ->
  forall rounds, N.of_nat (length rounds) + 1 < 2 ^ 32 -> exists c rows, run_timers clock rounds = Ok (c, rows).
Proof. exact run_defined. Qed.
Print Assumptions c52_timers_defined.
Theorem c52_times_nest : forall clock, (forall i, clock i <= clock (S i)) -> forall rounds c rows, rounds <> [] -> run_timers clock rounds = Ok (c, rows) ->
  sl_tot (tm_slot c SCycleTrackingSort) + sl_tot (tm_slot c SCycleTrackingProcess) <= sl_tot (tm_slot c SCycleTracking) /\
  sl_tot (tm_slot c SCycleSync) + sl_tot (tm_slot c SPopulationControl) + sl_tot (tm_slot c SCycleTracking) <= sl_tot (tm_slot c SMain).
Proof. exact totals_nest. Qed.
Print Assumptions c52_times_nest.

(** A clock whose successive readings are further and further apart, and a run of three cycles with 2, 0 and 1 turns of the tracking loop. *)
Definition demo_clock (i : nat) : N := N.min (N.of_nat (i * i) * 1000) 1000000000.
Example c52_example : match run_timers demo_clock [2%nat; 0%nat; 1%nat] with
  | Ok (c, rows) => map (fun s => let x := tm_slot c s in [w_calls (sl_watch x); sl_min x; sl_avg x; sl_max x; sl_tot x]) all_sections
      = [[1; 1089000; 1089000; 1089000; 1089000]; [3; 7000; 29666; 47000; 89000]; [3; 39000; 161666; 275000; 485000];
         [3; 0; 33000; 57000; 99000]; [3; 0; 29000; 53000; 87000]; [4; 3000; 25666; 43000; 77000]]
      /\ length rows = 3%nat
  | _ => False end.
Proof. vm_compute. split; reflexivity. Qed.
Example c52_clock_example : (forall i, demo_clock i <= demo_clock (S i)) /\ (forall i, demo_clock i <= duration_max).
Proof.
  unfold demo_clock. split; intros i.
  - apply N.min_le_compat_r. apply N.mul_le_mono_r. rewrite !Nnat.Nat2N.inj_mul. apply N.mul_le_mono; apply N.lt_le_incl; rewrite Nnat.Nat2N.inj_succ; apply N.lt_succ_diag_r.
  - etransitivity; [apply N.le_min_r|]. vm_compute. discriminate.
Qed.

(** The total of the synchronisation section is not all the time measured in it: the last synchronisation is left out, although it is counted as a call. *)
Theorem c52_all_time_counted_refuted : exists clock rounds c rows, (forall i, clock i <= clock (S i)) /\ rounds <> [] /\ run_timers clock rounds = Ok (c, rows) /\
  sl_tot (tm_slot c SCycleSync) < w_cumulative (sl_watch (tm_slot c SCycleSync)).
Proof. exact last_sync_left_out. Qed.
Print Assumptions c52_all_time_counted_refuted.

(** A run without cycles reports the largest possible duration as the shortest one. *)
Theorem c52_no_cycle_refuted : exists clock c rows s, (forall i, clock i <= clock (S i)) /\ run_timers clock [] = Ok (c, rows) /\
  sl_avg (tm_slot c s) < sl_min (tm_slot c s) /\ sl_min (tm_slot c s) = duration_max.
Proof. exact no_cycle_min. Qed.
Print Assumptions c52_no_cycle_refuted.
