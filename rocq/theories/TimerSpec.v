(** Vocabulary for the claims about timers (C52).  The durations measured in a run are described directly on the readings of the clock: the
    first reading starts the main timer, each cycle then makes two readings around the synchronisation, two around population control, one at
    the start and one at the end of tracking, and between these four per turn of the tracking loop. *)
From Coq Require Import NArith List Bool.
From Verif Require Import Float TimerModel.
Import ListNotations.
Local Open Scope N_scope.

Definition sum_of (l : list N) : N := fold_right N.add 0 l.

Section Clock.
Variable clock : nat -> N.
Definition elapsed (from to : nat) : N := clock to - clock from.

(** Number of the reading at which a cycle begins, after cycles with the given numbers of turns. *)
Fixpoint reading_after (earlier : list nat) : nat := match earlier with [] => 1 | r :: earlier => 6 + 4 * r + reading_after earlier end.

(** The durations measured for a section in a cycle that begins at reading [b] and has [r] turns of the tracking loop. *)
Definition measured (s : section) (b r : nat) : list N :=
  match s with
  | SMain => []
  | SCycleSync => [elapsed b (b + 1)]
  | SPopulationControl => [elapsed (b + 2) (b + 3)]
  | SCycleTracking => [elapsed (b + 4) (b + 5 + 4 * r)]
  | SCycleTrackingSort => map (fun j => elapsed (b + 5 + 4 * j) (b + 6 + 4 * j)) (seq 0 r)
  | SCycleTrackingProcess => map (fun j => elapsed (b + 7 + 4 * j) (b + 8 + 4 * j)) (seq 0 r)
  end.
(** Cycle after cycle: the time spent in a section during each cycle. *)
Fixpoint per_cycle (s : section) (b : nat) (rounds : list nat) : list N :=
  match rounds with [] => [] | r :: rounds => sum_of (measured s b r) :: per_cycle s (b + (6 + 4 * r)) rounds end.
(** All the durations measured for a section, in order. *)
Fixpoint all_measured (s : section) (b : nat) (rounds : list nat) : list N :=
  match rounds with [] => [] | r :: rounds => measured s b r ++ all_measured s (b + (6 + 4 * r)) rounds end.
(** The same as lines of the tallies report. *)
Fixpoint time_rows (b : nat) (rounds : list nat) : list time_row :=
  match rounds with
  | [] => []
  | r :: rounds => mkTimeRow (sum_of (measured SPopulationControl b r)) (sum_of (measured SCycleTracking b r)) (sum_of (measured SCycleSync b r))
                   :: time_rows (b + (6 + 4 * r)) rounds
  end.
(** Number of the reading at which the last synchronisation begins. *)
Definition last_sync (rounds : list nat) : nat := reading_after rounds.
End Clock.

(** What the statistics of a slot should be after cycles that took the times [l]. *)
Definition is_min (m : N) (l : list N) : Prop := In m l /\ Forall (fun x => m <= x) l.
Definition is_max (m : N) (l : list N) : Prop := In m l /\ Forall (fun x => x <= m) l.
(** The average is truncated at each step: it never exceeds the mean and is at most (n-1)/2 nanoseconds below it. *)
Definition truncated_mean (a : N) (l : list N) : Prop :=
  let n := N.of_nat (length l) in n * a <= sum_of l /\ 2 * sum_of l <= 2 * (n * a) + n * (n - 1).

(** The statistics that the report gives for a section other than the main one, at the end of a run of at least one cycle.  The last
    synchronisation, which clears the timers before it is over, is not part of them. *)
Record section_report (clock : nat -> N) (rounds : list nat) (s : section) (x : slot) : Prop := {
  rep_total : sl_tot x = sum_of (all_measured clock s 1 rounds);
  rep_shortest : is_min (sl_min x) (per_cycle clock s 1 rounds);
  rep_longest : is_max (sl_max x) (per_cycle clock s 1 rounds);
  rep_average : truncated_mean (sl_avg x) (per_cycle clock s 1 rounds);
  rep_order : sl_min x <= sl_avg x <= sl_max x
}.
