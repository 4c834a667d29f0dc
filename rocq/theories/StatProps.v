(** The claims about the statistics tool: C53, C54, C57 and C58. *)
From Coq Require Import Reals Lra NArith ZArith QArith String List Bool Lia.
From Verif Require Import Float RealOps Ieee Balance NuclearModel ParticleModel TrackModel CycleModel Demo DemoRun TimerModel CsvModel CsvSpec StatSpec StatModel
  CsvFacts CsvDemo StatReal StatFacts StatDemo.
Import ListNotations.
Local Open Scope R_scope.

(** ** C53 *)
(** The mean and the variance; a variance is never negative and is zero for the constant series only. *)
Theorem c53_variable : forall l : list R, va_mean (new_variable (D := Rops) l) = average l /\ va_variance (new_variable (D := Rops) l) = spread l /\
  0 <= spread l /\ (spread l = 0 <-> constant l).
Proof. exact (fun l => conj (var_mean l) (conj (var_variance l) (conj (spread_nonneg l) (spread_zero l)))). Qed.
Print Assumptions c53_variable.
Theorem c53_bounds : forall l m : list R, length l = length m -> exists r, correlation (new_variable (D := Rops) l) (new_variable (D := Rops) m) = Ok r /\ -1 <= r <= 1.
Proof. exact correlation_bound. Qed.
Print Assumptions c53_bounds.
Theorem c53_symmetric : forall l m : list R, length l = length m ->
  correlation (new_variable (D := Rops) l) (new_variable (D := Rops) m) = correlation (new_variable (D := Rops) m) (new_variable (D := Rops) l).
Proof. exact correlation_sym. Qed.
Print Assumptions c53_symmetric.
Theorem c53_self : forall l : list R, ~ constant l -> correlation (new_variable (D := Rops) l) (new_variable (D := Rops) l) = Ok 1.
Proof. exact correlation_self. Qed.
Print Assumptions c53_self.
Theorem c53_constant : forall l m : list R, length l = length m -> constant l \/ constant m -> correlation (new_variable (D := Rops) l) (new_variable (D := Rops) m) = Ok 0.
Proof. exact correlation_constant. Qed.
Print Assumptions c53_constant.
(** Expressing a series in other units does not change its correlations, a change of sign changes theirs. *)
Theorem c53_units : forall a b (l m : list R) r, length l = length m -> a <> 0 -> correlation (new_variable (D := Rops) l) (new_variable (D := Rops) m) = Ok r ->
  correlation (new_variable (D := Rops) (map (fun x => a * x + b) l)) (new_variable (D := Rops) m) = Ok (if Rlt_dec 0 a then r else - r).
Proof. exact correlation_affine. Qed.
Print Assumptions c53_units.
Theorem c53_lengths : forall l m : list R, length l <> length m -> ~ constant l -> ~ constant m ->
  correlation (new_variable (D := Rops) l) (new_variable (D := Rops) m) = Panic.
Proof. exact correlation_lengths. Qed.
Print Assumptions c53_lengths.
Example c53_example : length [1; 2; 3] = length [5; 5; 6] /\ ~ constant [1; 2; 3] /\ constant [2; 2].
Proof.
  split; [reflexivity|]. split.
  - intros (c & H). pose proof (H 1 ltac:(cbn; tauto)). pose proof (H 2 ltac:(cbn; tauto)). lra.
  - exists 2. intros x [<- |[<- |[]]]; reflexivity.
Qed.

(** The saved table: the cell in the line and the column with the given names is the correlation of the two series of those names; all cells are there. *)
Theorem c53_saved_table : forall (D : FloatOps) (show6 : F D -> string) (columns : list (list (F D))) n,
  length columns = n_tallied_data -> Forall (fun c => length c = n) columns ->
  exists data lines, correlation_results (map new_variable columns) = Ok data /\ save_correlation show6 data = Ok (correlation_header :: lines) /\
    map (hd ""%string) lines = map tallied_text correlation_rows /\ tl correlation_header = map tallied_text correlation_cols /\
    forall row col, In row correlation_rows -> In col correlation_cols -> exists i j line x y r,
      nth_error correlation_rows i = Some row /\ nth_error correlation_cols j = Some col /\ nth_error lines i = Some line /\
      nth_error columns (tallied_index row) = Some x /\ nth_error columns (tallied_index col) = Some y /\
      correlation (new_variable x) (new_variable y) = Ok r /\ nth_error (tl line) j = Some (show6 r).
Proof. exact @saved_correlations. Qed.
Print Assumptions c53_saved_table.
Example c53_saved_example : length (repeat [1; 2] n_tallied_data) = n_tallied_data /\ Forall (fun c : list R => length c = 2%nat) (repeat [1; 2] n_tallied_data).
Proof. split; [reflexivity|]. apply Forall_forall. intros c H. apply repeat_spec in H. subst c. reflexivity. Qed.

(** In binary64 a series of equal values may have a variance, and a correlation that is not zero; and a report without lines gives no number. *)
Theorem c53_binary64_constant_refuted : exists (l : list (F K64)) c r, l <> [] /\ (forall x, In x l -> x = c) /\
  correlation (new_variable l) (new_variable l) = Ok r /\ feq r f0 = false.
Proof. exact constant_not_zero. Qed.
Print Assumptions c53_binary64_constant_refuted.
Theorem c53_binary64_empty_refuted : exists r : F K64, correlation (new_variable []) (new_variable []) = Ok r /\ feq r r = false.
Proof. exact empty_not_a_number. Qed.
Print Assumptions c53_binary64_empty_refuted.

(** ** C54 *)
(** The file that the calls of [print_summary] leave is read without panic, and each name of the statistics tool stands for the quantity that the simulation
    wrote in the column of that name, in the order of the cycles; whatever the file contained before. *)
Theorem c54_tallies : forall (K D : FloatOps) (show : F K -> string) (show64 : F D -> string) parse (value : F K -> F D),
  reads_back show parse value -> reads_back show64 parse (fun x => x) -> (forall n, parse (show_N n) = Some (fof_N n)) ->
  forall rows file, rows <> [] -> map (fun row => rp_cycle (fst row)) rows = nrange 0 (length rows) ->
  exists text columns, print_all show show64 file rows = Ok (Some text) /\ (exists rest, text = csv_line tallies_header ++ rest)%string /\
    read_tallies parse text = Ok columns /\ length columns = n_tallied_data /\
    forall d, nth_error tallies_header (tallied_index d) = Some (written_name d) /\ nth_error columns (tallied_index d) = Some (map (quantity value d) rows).
Proof. exact @tallies_read_back. Qed.
Print Assumptions c54_tallies.
(** The reports of a completed run meet the hypotheses of the previous theorem. *)
Theorem c54_run : forall (K D : FloatOps) (show : F K -> string) (show64 : F D -> string) parse (value : F K -> F D) fuel cfuel (md : mcdata K) d s times file,
  reads_back show parse value -> reads_back show64 parse (fun x => x) -> (forall n, parse (show_N n) = Some (fof_N n)) ->
  core_loop fuel cfuel md (initial_sim md d) (Ok s) -> sp_n_steps (mc_params md) <> 0%N -> length times = length (s_reports s) ->
  exists text columns, print_all show show64 file (combine (s_reports s) times) = Ok (Some text) /\ read_tallies parse text = Ok columns /\
    forall d, nth_error tallies_header (tallied_index d) = Some (written_name d) /\
      nth_error columns (tallied_index d) = Some (map (quantity value d) (combine (s_reports s) times)).
Proof. exact run_tallies_read_back. Qed.
Print Assumptions c54_run.
Theorem c54_timers : forall (D : FloatOps) (show_micros : N -> string) (show_percent : F D -> string) (parse : string -> option (F D)), reads_back show_micros parse fof_N -> (forall x, plain (show_percent x)) ->
  forall c, exists reports, read_timers parse (timers_csv show_micros show_percent c) = Ok reports /\ length reports = 6%nat /\
    forall s, nth_error reports (section_index s) = Some (summary_of c s).
Proof. exact @timers_read_back. Qed.
Print Assumptions c54_timers.
(** Texts of binary64 numbers that meet the hypotheses, and a run of two cycles. *)
Example c54_example : reads_back show_f64 parse_f64 (fun x => x) /\ (forall n, parse_f64 (show_N n) = Some (fof_N n)) /\ reads_back show_N parse_f64 fof_N /\
  (forall x, plain (show_f64 x)) /\
  exists (md : mcdata K64) d s, core_loop 200 20 md (initial_sim md d) (Ok s) /\ length (s_reports s) = 2%nat.
Proof.
  split; [exact show_f64_back|]. split; [exact show_N_back|]. split; [exact show_micros_back|]. split; [exact show_f64_plain|].
  destruct demo_exists as (md & d & s & _ & _ & H & V). exists md, d, s. split; [exact H|].
  destruct (s_reports s) as [|a [|b [|c l]]] eqn:E; unfold demo_view in V; rewrite E in V; try discriminate. reflexivity.
Qed.

(** ** C57 *)
(** Each line of the comparison: the name of the section, the two totals, and the change of the means. *)
Theorem c57_saved_comparison : forall (D : FloatOps) (old new : list (summary D)), length old = 6%nat -> length new = 6%nat ->
  exists lines, save_comparison old new = Ok lines /\ length lines = 6%nat /\
    forall s, exists o n, nth_error old (section_index s) = Some o /\ nth_error new (section_index s) = Some n /\
      nth_error lines (section_index s) = Some (section_name s, su_total o, su_total n, fmul (fdiv (fsub (su_mean n) (su_mean o)) (su_mean o)) (flit (100 # 1))).
Proof. exact @saved_comparison. Qed.
Print Assumptions c57_saved_comparison.
Theorem c57_change : forall o n : R, 0 < o -> let change := (n - o) / o * 100 in n = o * (1 + change / 100) /\ (0 < change <-> o < n) /\ (change < 0 <-> n < o).
Proof. exact change_of_means. Qed.
Print Assumptions c57_change.
Example c57_example : length unit_reports = 6%nat /\ 0 < 1.
Proof. split; [reflexivity|lra]. Qed.
(** The change is not that of the totals printed beside it: reports of a run of one cycle and of one of two cycles on the same clock. *)
Theorem c57_change_of_totals_refuted : exists c rows c' rows' lines o n change,
  run_timers steady_clock [1%nat] = Ok (c, rows) /\ run_timers steady_clock [1%nat; 1%nat] = Ok (c', rows') /\
  save_comparison (reports_of c) (reports_of c') = Ok lines /\ In (section_name SCycleTracking, o, n, change) lines /\ 0 < o /\ n = 2 * o /\ change = 0.
Proof. exact change_not_of_totals. Qed.
Print Assumptions c57_change_of_totals_refuted.

(** ** C58 *)
(** A scaling study over [t_iter] reports: it succeeds, takes the reports named after the numbers of threads, and saves their means and the ideal times. *)
Theorem c58_scaling_study : forall (D : FloatOps) (files : string -> option (list (summary D))) root t_init t_iter t_factor ty,
  (forall i, (i < N.to_nat t_iter)%nat -> (threads_at t_init t_factor i < 2 ^ 64 /\ t_factor ^ N.of_nat i < 2 ^ 64)%N) ->
  (forall i, (i < N.to_nat t_iter)%nat -> exists r, files (study_file root (threads_at t_init t_factor i)) = Some r /\ length r = 6%nat) ->
  (ty = Weak \/ ty = Strong t_factor) -> t_iter <> 0%N ->
  exists study tracking others, scaling_results files root t_init t_iter t_factor ty = Ok study /\
    sg_threads study = map (threads_at t_init t_factor) (seq 0 (N.to_nat t_iter)) /\ sg_type study = ty /\
    save_tracking study = Ok tracking /\ save_others study = Ok others /\ length tracking = N.to_nat t_iter /\ length others = N.to_nat t_iter /\
    exists reference, forall i, (i < N.to_nat t_iter)%nat -> exists r main population tracked process sorted sync,
      files (study_file root (threads_at t_init t_factor i)) = Some r /\
      nth_error r (section_index SMain) = Some main /\ nth_error r (section_index SPopulationControl) = Some population /\
      nth_error r (section_index SCycleTracking) = Some tracked /\ nth_error r (section_index SCycleTrackingProcess) = Some process /\
      nth_error r (section_index SCycleTrackingSort) = Some sorted /\ nth_error r (section_index SCycleSync) = Some sync /\
      (i = 0%nat -> reference = su_mean tracked) /\
      nth_error (sg_tracking study) i = Some (su_mean tracked) /\
      nth_error tracking i = Some (threads_at t_init t_factor i, su_mean tracked, ideal_time ty reference i, su_mean process, su_mean sorted) /\
      nth_error others i = Some (threads_at t_init t_factor i, su_mean main, su_mean population, su_mean sync).
Proof. exact @scaling_study. Qed.
Print Assumptions c58_scaling_study.
Example c58_example : let files := fun _ : string => Some unit_reports in
  (forall i, (i < N.to_nat 5)%nat -> (threads_at 1 2 i < 2 ^ 64 /\ 2 ^ N.of_nat i < 2 ^ 64)%N) /\
  (forall i, (i < N.to_nat 5)%nat -> exists r, files (study_file "run_" (threads_at 1 2 i)) = Some r /\ length r = 6%nat).
Proof.
  intros files. split; intros i Hi; [|exists unit_reports; split; reflexivity]. change (N.to_nat 5) with 5%nat in Hi.
  do 5 (destruct i as [|i]; [split; reflexivity|]). lia.
Qed.
(** A strong scaling study starting at one thread whose times are the ideal ones is plotted on the line of ideal speedups. *)
Theorem c58_ideal_speedup : forall (study : scaling Rops) t_iter t_factor reference, sg_type study = Strong t_factor ->
  sg_threads study = map (threads_at 1 t_factor) (seq 0 (N.to_nat t_iter)) -> nth_error (sg_tracking study) 0 = Some reference -> reference <> 0 ->
  length (sg_tracking study) = N.to_nat t_iter -> t_factor <> 0%N ->
  (forall i, (i < N.to_nat t_iter)%nat -> nth_error (sg_tracking study) i = Some (ideal_time (D := Rops) (Strong t_factor) reference i)) ->
  exists points, plotted_speedup study = Ok points /\ length points = N.to_nat t_iter /\ forall ideal real, In (ideal, real) points -> ideal = real.
Proof. exact speedup_from_one. Qed.
Print Assumptions c58_ideal_speedup.
Example c58_ideal_example : exists study : scaling Rops, sg_type study = Strong 2 /\ sg_threads study = map (threads_at 1 2) (seq 0 (N.to_nat 2)) /\
  nth_error (sg_tracking study) 0 = Some 8 /\ length (sg_tracking study) = N.to_nat 2 /\
  (forall i, (i < N.to_nat 2)%nat -> nth_error (sg_tracking study) i = Some (ideal_time (D := Rops) (Strong 2) 8 i)).
Proof.
  exists (mkScaling (D := Rops) [1%N; 2%N] [] [] [8; 4] [] [] [] (Strong 2)). repeat (split; [reflexivity|]). intros i Hi. change (N.to_nat 2) with 2%nat in Hi.
  destruct i as [|[|i]].
  - cbn [sg_tracking nth_error]. apply f_equal. change (8 = 8 / 1). lra.
  - cbn [sg_tracking nth_error]. apply f_equal. change (4 = 8 / 2). lra.
  - lia.
Qed.
(** It is not, when the study starts at two threads; and a study without runs panics. *)
Theorem c58_ideal_speedup_refuted : exists files study points ideal real,
  scaling_results (D := Rops) files "run_" 2 1 2 (Strong 2) = Ok study /\ nth_error (sg_tracking study) 0 = Some (ideal_time (D := Rops) (Strong 2) 1 0) /\
  plotted_speedup study = Ok points /\ points = [(ideal, real)] /\ ideal = 2 /\ real = 1.
Proof. exact speedup_from_two. Qed.
Print Assumptions c58_ideal_speedup_refuted.
Theorem c58_no_run_panics : forall (D : FloatOps) files root t_init t_factor ty,
  exists study, scaling_results (D := D) files root t_init 0 t_factor ty = Ok study /\ save_tracking study = Panic.
Proof. exact empty_study. Qed.
Print Assumptions c58_no_run_panics.
