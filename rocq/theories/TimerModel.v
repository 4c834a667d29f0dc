(** Model of the built-in timers, /repo/fastiron/src/utils/mc_fast_timer.rs, and of the places of main.rs where
    they are started, stopped, printed and cleared.  A duration is a number of nanoseconds; a reading of the clock
    ([Instant::now]) is a number of nanoseconds too, given by an arbitrary sequence of readings. *)
From Coq Require Import NArith QArith List Bool.
From Verif Require Import Float.
Import ListNotations.
Local Open Scope N_scope.

(** mc_fast_timer.rs lines 17-30, [Section]. *)
Inductive section : Set := SMain | SPopulationControl | SCycleTracking | SCycleTrackingProcess | SCycleTrackingSort | SCycleSync.
(** [section as usize]. *)
Definition section_index (s : section) : nat :=
  match s with SMain => 0 | SPopulationControl => 1 | SCycleTracking => 2 | SCycleTrackingProcess => 3 | SCycleTrackingSort => 4 | SCycleSync => 5 end.
Definition section_eqb (a b : section) : bool := Nat.eqb (section_index a) (section_index b).
(** Lines 145-153: the section of each timer, in the order of the report. *)
Definition all_sections : list section := [SMain; SPopulationControl; SCycleTracking; SCycleTrackingProcess; SCycleTrackingSort; SCycleSync].

(** [Duration::MAX] of the standard library. *)
Definition duration_max : N := (2 ^ 64 - 1) * 1000000000 + 999999999.
(** [+], [*] by a u32 on durations panic on overflow. *)
Definition duration (d : N) : result N := if d <=? duration_max then Ok d else Panic.
(** [end.duration_since(start)] is zero when [end] is before [start]. *)
Definition duration_since (last first : N) : N := last - first.

(** Lines 47-58, [MCFastTimer]; the default (lines 60-70) reads the clock twice, but no field read before a start depends on it: the
    two clocks start at zero here.  [num_calls] is a u64; its overflow is not modelled. *)
Record stopwatch : Set := mkWatch { w_start : N; w_end : N; w_last : N; w_cumulative : N; w_calls : N }.
Definition watch_default : stopwatch := mkWatch 0 0 0 0 0.

(** Lines 77-92, [MCFastTimerContainer]: the arrays are indexed by the section; the entries of the arrays [timers], [avgs], [maxs],
    [mins], [tots] that belong to one section are kept together. *)
Record slot : Set := mkSlot { sl_watch : stopwatch; sl_avg : N; sl_max : N; sl_min : N; sl_tot : N }.
Record timers : Set := mkTimers { tm_n_avg : N; tm_slot : section -> slot }.
(** Lines 229-240. *)
Definition timers_default : timers := mkTimers 0 (fun _ => mkSlot watch_default 0 0 duration_max 0).
Definition set_slot (c : timers) (s : section) (x : slot) : timers :=
  mkTimers (tm_n_avg c) (fun s' => if section_eqb s s' then x else tm_slot c s').
Definition set_watch (x : slot) (w : stopwatch) : slot := mkSlot w (sl_avg x) (sl_max x) (sl_min x) (sl_tot x).

(** Lines 243-246, [start]. *)
Definition start (c : timers) (s : section) (now : N) : timers :=
  let w := sl_watch (tm_slot c s) in
  set_slot c s (set_watch (tm_slot c s) (mkWatch now (w_end w) (w_last w) (w_cumulative w) (w_calls w))).
(** Lines 249-259, [stop]. *)
Definition stop (c : timers) (s : section) (now : N) : result timers :=
  let w := sl_watch (tm_slot c s) in
  let d := duration_since now (w_start w) in
  do last <- duration (w_last w + d) ;
  do cumulative <- duration (w_cumulative w + d) ;
  Ok (set_slot c s (set_watch (tm_slot c s) (mkWatch (w_start w) now last cumulative (w_calls w + 1)))).
(** Lines 262-265, [get_last_cycle], before its conversion to seconds. *)
Definition last_cycle (c : timers) (s : section) : N := w_last (sl_watch (tm_slot c s)).

(** Lines 194-213: one turn of the loop of [clear_last_cycle_timers]; [n] is [n_avg]. *)
Definition clear_slot (n : N) (x : slot) : result slot :=
  let w := sl_watch x in
  let last := w_last w in
  do tot <- duration (sl_tot x + last) ;
  let min := if last <? sl_min x then last else sl_min x in
  let max := if sl_max x <? last then last else sl_max x in
  do prod <- duration (sl_avg x * (n - 1)) ;
  do sum <- duration (prod + last) ;
  Ok (mkSlot (mkWatch (w_start w) (w_end w) 0 (w_cumulative w) (w_calls w)) (sum / n) max min tot).
(** Lines 189-214, [clear_last_cycle_timers].  When the u32 [n_avg] is exhausted a build with overflow checks panics on the increment,
    and one without on the division by zero. *)
Definition clear_last_cycle_timers (c : timers) : result timers :=
  let n := tm_n_avg c + 1 in
  do _ <- rassert (n <? 2 ^ 32) ;
  do a <- clear_slot n (tm_slot c SPopulationControl) ;
  do b <- clear_slot n (tm_slot c SCycleTracking) ;
  do d <- clear_slot n (tm_slot c SCycleTrackingProcess) ;
  do e <- clear_slot n (tm_slot c SCycleTrackingSort) ;
  do f <- clear_slot n (tm_slot c SCycleSync) ;
  Ok (mkTimers n (fun s => match s with
    | SMain => tm_slot c SMain | SPopulationControl => a | SCycleTracking => b | SCycleTrackingProcess => d | SCycleTrackingSort => e | SCycleSync => f end)).
(** Lines 217-226, [update_main_stats]. *)
Definition update_main_stats (c : timers) : timers :=
  let w := sl_watch (tm_slot c SMain) in
  let d := duration_since (w_end w) (w_start w) in
  set_slot c SMain (mkSlot w d d d d).

(** ** The timers during a run of main.rs *)

(** The durations in one line of the tallies report (tallies.rs lines 274-276). *)
Record time_row : Set := mkTimeRow { tr_population : N; tr_tracking : N; tr_sync : N }.

Section Run.
(** The successive readings of the clock; each function takes and gives back the number of readings made so far. *)
Variable clock : nat -> N.

(** main.rs lines 229-285, [cycle_sync], as far as the timers go.  The early return of lines 258-261 is never taken ([step] is at
    most [n_steps]). *)
Definition sync_timers (step : nat) (c : timers) (i : nat) : result (timers * list time_row * nat) :=
  let c := start c SCycleSync (clock i) in
  do (c, rows) <-
    match step with
    | O => Ok (c, [])
    | S _ =>
        let row := mkTimeRow (last_cycle c SPopulationControl) (last_cycle c SCycleTracking) (last_cycle c SCycleSync) in
        do c <- clear_last_cycle_timers c ; Ok (c, [row])
    end ;
  do c <- stop c SCycleSync (clock (i + 1)) ;
  Ok (c, rows, (i + 2)%nat).

(** main.rs lines 328-341: [rounds] turns of the tracking loop. *)
Fixpoint round_timers (rounds : nat) (c : timers) (i : nat) : result (timers * nat) :=
  match rounds with
  | O => Ok (c, i)
  | S rounds =>
      let c := start c SCycleTrackingSort (clock i) in
      do c <- stop c SCycleTrackingSort (clock (i + 1)) ;
      let c := start c SCycleTrackingProcess (clock (i + 2)) in
      do c <- stop c SCycleTrackingProcess (clock (i + 3)) ;
      round_timers rounds c (i + 4)
  end.

(** main.rs lines 291-344, [cycle_process]. *)
Definition process_timers (rounds : nat) (c : timers) (i : nat) : result (timers * nat) :=
  let c := start c SPopulationControl (clock i) in
  do c <- stop c SPopulationControl (clock (i + 1)) ;
  let c := start c SCycleTracking (clock (i + 2)) in
  do (c, i) <- round_timers rounds c (i + 3) ;
  do c <- stop c SCycleTracking (clock i) ;
  Ok (c, (i + 1)%nat).

(** main.rs lines 121-130; [rounds] gives the number of turns of the tracking loop in each of the remaining cycles. *)
Fixpoint cycle_timers (step : nat) (rounds : list nat) (c : timers) (i : nat) : result (timers * list time_row * nat * nat) :=
  match rounds with
  | [] => Ok (c, [], i, step)
  | r :: rounds =>
      do (c, rows, i) <- sync_timers step c i ;
      do (c, i) <- process_timers r c i ;
      do (c, rows', i, step) <- cycle_timers (S step) rounds c i ;
      Ok (c, rows ++ rows', i, step)
  end.

(** main.rs lines 118-139 and 166: the whole run; the timers at the end and the durations in the lines of the tallies report. *)
Definition run_timers (rounds : list nat) : result (timers * list time_row) :=
  let c := start timers_default SMain (clock 0) in
  do (c, rows, i, step) <- cycle_timers 0 rounds c 1 ;
  do (c, rows', i) <- sync_timers step c i ;
  do c <- stop c SMain (clock i) ;
  Ok (update_main_stats c, rows ++ rows').

End Run.

(** ** The report *)

(** [Duration::as_micros]. *)
Definition as_micros (d : N) : N := d / 1000.

Section Report.
Context {K : FloatOps}.
Local Open Scope float_scope.

(** [Duration::as_secs_f64]. *)
Definition as_secs (d : N) : F K := fof_N (d / 1000000000)%N +. fof_N (d mod 1000000000)%N /. flit (1000000000 # 1).

(** mc_fast_timer.rs lines 141-181: one line of the report. *)
Record timer_line : Type := mkTimerLine {
  tl_section : section; tl_calls : N; tl_shortest : N; tl_average : N; tl_longest : N; tl_total : N; tl_efficiency : F K }.
Definition timer_line_of (c : timers) (s : section) : timer_line :=
  let x := tm_slot c s in
  mkTimerLine s (w_calls (sl_watch x)) (as_micros (sl_min x)) (as_micros (sl_avg x)) (as_micros (sl_max x)) (as_micros (sl_tot x))
    ((flit (100 # 1) *. as_secs (sl_avg x)) /. (as_secs (sl_max x) +. flit (1 # 10 ^ 80))).
Definition cumulative_report (c : timers) : list timer_line := map (timer_line_of c) all_sections.
(** Lines 182-185. *)
Definition figure_of_merit (c : timers) (num_segments : N) : F K := fof_N num_segments /. as_secs (sl_tot (tm_slot c SCycleTracking)).
End Report.
Arguments timer_line : clear implicits.
