(** Model of the statistics tool: /repo/fastiron-stats/src/structures/raw.rs (variables, covariance, correlation) and processed.rs (comparison, correlation
    matrix, scaling).  The arithmetic is f64, taken as any [FloatOps].  Figures are not modelled, except for the values of the speedup plot. *)
From Coq Require Import NArith QArith List Bool String Ascii.
From Verif Require Import Float TimerModel CsvModel.
Import ListNotations.
Local Open Scope N_scope.
Local Open Scope float_scope.

Section Stat.
Context {D : FloatOps}.

(** raw.rs lines 89-97, [TalliedVariable]. *)
Record variable : Type := mkVariable { va_values : list (F D); va_mean : F D; va_variance : F D }.
(** raw.rs lines 101-114, [TalliedVariable::new]. *)
Definition new_variable (values : list (F D)) : variable :=
  let n_val := fof_N (N.of_nat (List.length values)) in
  let mean := fsum values /. n_val in
  let var := fsum (List.map (fun x => (x -. mean) *. (x -. mean)) values) /. n_val in
  mkVariable values mean var.
(** raw.rs lines 122-129, [covariance]; [assert_eq!] on the numbers of values. *)
Definition covariance (x y : variable) : result (F D) :=
  do _ <- rassert (Nat.eqb (List.length (va_values x)) (List.length (va_values y))) ;
  let products := List.map (fun '(xi, yi) => (xi -. va_mean x) *. (yi -. va_mean y)) (List.combine (va_values x) (va_values y)) in
  Ok (fsum products /. fof_N (N.of_nat (List.length (va_values x)))).
(** raw.rs lines 136-143, [correlation]. *)
Definition correlation (x y : variable) : result (F D) :=
  if (va_variance x ==. f0) || (va_variance y ==. f0) then Ok f0
  else do cov <- covariance x y ; Ok (cov /. fsqrt (va_variance x *. va_variance y)).

(** raw.rs lines 152-172, [TalliesReport::from] a file of the given text. *)
Definition tallies_report (parse : string -> option (F D)) (text : string) : result (list variable) :=
  do columns <- read_tallies parse text ; Ok (List.map new_variable columns).
(** raw.rs lines 174-180, [Index<TalliedData>]. *)
Definition report_get (r : list variable) (d : tallied_data) : result variable := unwrap (nth_error r (tallied_index d)).

(** processed.rs lines 147-159, [CORRELATION_COLS]. *)
Definition correlation_cols : list tallied_data :=
  [TStart; TRr; TSplit; TAbsorb; TScatter; TFission; TProduce; TCollision; TEscape; TCensus; TNumSeg].
(** processed.rs lines 162-167, [CORRELATION_ROWS]. *)
Definition correlation_rows : list tallied_data := [TCycleSync; TCycleTracking; TPopulationControl; TCycle].
(** processed.rs lines 270-285, [CorrelationResults::from]: the table, flattened row after row. *)
Definition correlation_results (r : list variable) : result (list (F D)) :=
  do table <- rmap (fun row => rmap (fun col => do x <- report_get r row ; do y <- report_get r col ; correlation x y) correlation_cols) correlation_rows ;
  Ok (List.concat table).

(** Fields separated by commas. *)
Fixpoint comma_fields (l : list string) : string :=
  match l with [] => ""%string | [f] => f | f :: l => (f ++ "," ++ comma_fields l)%string end.
Definition comma_line (l : list string) : string := (comma_fields l ++ newline)%string.

(** processed.rs lines 177-214, [CorrelationResults::save]: the lines of correlation.csv; [show6] is [{:.6}]. *)
Definition correlation_header : list string :=
  [""; "Start"; "Rr"; "Split"; "Absorb"; "Scatter"; "Fission"; "Produce"; "Collision"; "Escape"; "Census"; "NumSeg"]%string.
Definition correlation_label (idx : nat) : result string :=
  match idx with
  | 0%nat => Ok "CycleSync"%string | 1%nat => Ok "CycleTracking"%string | 2%nat => Ok "PopulationControl"%string | 3%nat => Ok "Cycle"%string
  | _ => Panic
  end.
Definition save_correlation (show6 : F D -> string) (data : list (F D)) : result (list (list string)) :=
  do lines <- rmap (fun idx =>
    do label <- correlation_label idx ;
    do cells <- rmap (fun j => do v <- unwrap (nth_error data (j + 11 * idx)%nat) ; Ok (show6 v)) [0%nat; 1%nat; 2%nat; 3%nat; 4%nat; 5%nat; 6%nat; 7%nat; 8%nat; 9%nat; 10%nat] ;
    Ok (label :: cells)) [0%nat; 1%nat; 2%nat; 3%nat] ;
  Ok (correlation_header :: lines).

(** raw.rs lines 190-197 and 212-225, [TIMERS_ARR] and [Display] of [TimerSV]: the sections of the simulation, in the same order. *)
Definition section_name (s : section) : string :=
  match s with
  | SMain => "Section::Main" | SPopulationControl => "Section::PopulationControl" | SCycleTracking => "Section::CycleTracking"
  | SCycleTrackingProcess => "Section::CycleTrackingProcess" | SCycleTrackingSort => "Section::CycleTrackingSort" | SCycleSync => "Section::CycleSync"
  end%string.
Definition timers_get (r : list (summary D)) (s : section) : result (summary D) := unwrap (nth_error r (section_index s)).

(** processed.rs lines 122-141, [ComparisonResults::from]. *)
Definition compare_timers (old new : list (summary D)) : result (list (F D)) :=
  rmap (fun s => do o <- timers_get old s ; do n <- timers_get new s ;
                 Ok (((su_mean n -. su_mean o) /. su_mean o) *. flit (100 # 1))) all_sections.
(** processed.rs lines 45-64, [ComparisonResults::save]: the lines of comparison.csv as values: section, old, new, change. *)
Definition save_comparison (old new : list (summary D)) : result (list (string * F D * F D * F D)) :=
  do percents <- compare_timers old new ;
  rmap (fun s => do o <- timers_get old s ; do n <- timers_get new s ; do p <- unwrap (nth_error percents (section_index s)) ;
                 Ok (section_name s, su_total o, su_total n, p)) all_sections.

(** processed.rs lines 291-297, [ScalingType]. *)
Inductive scaling_type : Type := Weak | Strong (factor : N).
(** processed.rs lines 300-317, [ScalingResults]. *)
Record scaling : Type := mkScaling {
  sg_threads : list N; sg_total : list (F D); sg_population : list (F D); sg_tracking : list (F D); sg_process : list (F D); sg_sort : list (F D);
  sg_sync : list (F D); sg_type : scaling_type }.
(** [usize::pow], with its overflow check and that of the product, processed.rs line 575. *)
Definition upow (a : N) (n : nat) : result N := let r := a ^ N.of_nat n in if r <? 2 ^ 64 then Ok r else Panic.
Definition umul (a b : N) : result N := let r := a * b in if r <? 2 ^ 64 then Ok r else Panic.
(** processed.rs lines 571-613, [ScalingResults::from]; [files] is the file system: the report in the file of that name, if there is one that can be read. *)
Definition scaling_results (files : string -> option (list (summary D))) (root : string) (t_init t_iter t_factor : N) (ty : scaling_type) : result scaling :=
  do n_threads <- rmap (fun idx => do q <- upow t_factor idx ; umul t_init q) (List.seq 0 (N.to_nat t_iter)) ;
  do reports <- rmap (fun n => unwrap (files (root ++ show_N n ++ ".csv")%string)) n_threads ;
  let means s := rmap (fun r => do x <- timers_get r s ; Ok (su_mean x)) reports in
  do total <- means SMain ;
  do population <- means SPopulationControl ;
  do tracking <- means SCycleTracking ;
  do process <- means SCycleTrackingProcess ;
  do sort <- means SCycleTrackingSort ;
  do sync <- means SCycleSync ;
  Ok (mkScaling n_threads total population tracking process sort sync ty).
(** processed.rs lines 341-344, the ideal average tracking time. *)
Definition ideal_tracking (ty : scaling_type) (avg_ref : F D) (idx : nat) : result (F D) :=
  match ty with
  | Weak => Ok avg_ref
  | Strong factor => do q <- upow factor idx ; Ok (avg_ref /. fof_N q)
  end.
(** processed.rs lines 321-357, [save_tracking]: the lines as values. *)
Definition save_tracking (s : scaling) : result (list (N * F D * F D * F D * F D)) :=
  do avg_ref <- unwrap (nth_error (sg_tracking s) 0) ;
  let n_elem := List.length (sg_threads s) in
  do _ <- rassert (Nat.eqb (List.length (sg_tracking s)) n_elem) ;
  do _ <- rassert (Nat.eqb (List.length (sg_process s)) n_elem) ;
  do _ <- rassert (Nat.eqb (List.length (sg_sort s)) n_elem) ;
  rmap (fun idx =>
    do ideal <- ideal_tracking (sg_type s) avg_ref idx ;
    do n <- unwrap (nth_error (sg_threads s) idx) ;
    do t <- unwrap (nth_error (sg_tracking s) idx) ;
    do p <- unwrap (nth_error (sg_process s) idx) ;
    do o <- unwrap (nth_error (sg_sort s) idx) ;
    Ok (n, t, ideal, p, o)) (List.seq 0 n_elem).
(** processed.rs lines 360-386, [save_others]. *)
Definition save_others (s : scaling) : result (list (N * F D * F D * F D)) :=
  let n_elem := List.length (sg_threads s) in
  do _ <- rassert (Nat.eqb (List.length (sg_total s)) n_elem) ;
  do _ <- rassert (Nat.eqb (List.length (sg_population s)) n_elem) ;
  do _ <- rassert (Nat.eqb (List.length (sg_sync s)) n_elem) ;
  rmap (fun idx =>
    do n <- unwrap (nth_error (sg_threads s) idx) ;
    do t <- unwrap (nth_error (sg_total s) idx) ;
    do p <- unwrap (nth_error (sg_population s) idx) ;
    do y <- unwrap (nth_error (sg_sync s) idx) ;
    Ok (n, t, p, y)) (List.seq 0 n_elem).
(** processed.rs lines 397-412, [plot_se]: the ideal and the real values. *)
Definition plotted_speedup (s : scaling) : result (list (F D * F D)) :=
  rmap (fun '(idx, n) =>
    do r <- unwrap (nth_error (sg_tracking s) 0) ;
    do t <- unwrap (nth_error (sg_tracking s) idx) ;
    Ok (match sg_type s with Weak => f1 | Strong _ => fof_N n end, r /. t)) (List.combine (List.seq 0 (List.length (sg_threads s))) (sg_threads s)).
End Stat.
Arguments variable : clear implicits.
Arguments scaling : clear implicits.
