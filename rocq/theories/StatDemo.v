(** Concrete cases for the statistics tool. *)
From Coq Require Import Reals Lra Arith NArith ZArith QArith List Bool String Ascii Lia.
From Verif Require Import Float RealOps Ieee TimerModel CsvModel CsvSpec StatSpec StatModel StatReal StatFacts.
Import ListNotations.

(** A constant series whose binary64 variance is not zero. *)
Definition tenths : list (F K64) := [flit (1 # 10); flit (1 # 10); flit (1 # 10)].
Lemma tenths_correlated : match correlation (new_variable tenths) (new_variable tenths) with Ok r => feq r f0 | _ => true end = false.
Proof. vm_compute. reflexivity. Qed.
(** No value at all. *)
Lemma empty_correlation : match correlation (new_variable ([] : list (F K64))) (new_variable []) with Ok r => feq r r | _ => true end = false.
Proof. vm_compute. reflexivity. Qed.

Theorem constant_not_zero : exists (l : list (F K64)) c r, l <> [] /\ (forall x, In x l -> x = c) /\ correlation (new_variable l) (new_variable l) = Ok r /\ feq r f0 = false.
Proof.
  pose proof tenths_correlated as H. destruct (correlation (new_variable tenths) (new_variable tenths)) as [r| |] eqn:E; try discriminate H.
  exists tenths, (flit (1 # 10)), r. split; [discriminate|]. split; [|split; [exact E|exact H]].
  unfold tenths. intros x Hx. repeat (destruct Hx as [Hx|Hx]; [symmetry; exact Hx|]). destruct Hx.
Qed.
Theorem empty_not_a_number : exists r : F K64, correlation (new_variable []) (new_variable []) = Ok r /\ feq r r = false.
Proof.
  pose proof empty_correlation as H. destruct (correlation (new_variable ([] : list (F K64))) (new_variable [])) as [r| |] eqn:E; try discriminate H. exists r. auto.
Qed.

(** A clock that advances by ten microseconds at each reading. *)
Definition steady_clock (i : nat) : N := (N.of_nat i * 10000)%N.
Local Open Scope R_scope.
Definition reports_of (c : timers) : list (summary Rops) := map (summary_of c) all_sections.

Theorem change_not_of_totals : exists c rows c' rows' lines o n change,
  run_timers steady_clock [1%nat] = Ok (c, rows) /\ run_timers steady_clock [1%nat; 1%nat] = Ok (c', rows') /\
  save_comparison (reports_of c) (reports_of c') = Ok lines /\ In (section_name SCycleTracking, o, n, change) lines /\ 0 < o /\ n = 2 * o /\ change = 0.
Proof.
  destruct (run_timers steady_clock [1%nat]) as [[c rows]| |] eqn:E; [|vm_compute in E; discriminate E..].
  destruct (run_timers steady_clock [1%nat; 1%nat]) as [[c' rows']| |] eqn:E'; [|vm_compute in E'; discriminate E'..].
  assert (M : sl_avg (tm_slot c SCycleTracking) = sl_avg (tm_slot c' SCycleTracking) /\ as_micros (sl_tot (tm_slot c SCycleTracking)) = 50%N /\ as_micros (sl_tot (tm_slot c' SCycleTracking)) = 100%N).
  { vm_compute in E. injection E as <- _. vm_compute in E'. injection E' as <- _. vm_compute. auto. }
  destruct M as (M & T & T'). clear E E'.
  destruct (saved_comparison (reports_of c) (reports_of c') eq_refl eq_refl) as (lines & Hl & _ & H). destruct (H SCycleTracking) as (o & n & Ho & Hn & Hline).
  cbn in Ho, Hn. injection Ho as Ho. injection Hn as Hn.
  exists c, rows, c', rows', lines, (su_total o), (su_total n), ((su_mean n - su_mean o) / su_mean o * Q2R (100 # 1)).
  split; [reflexivity|]. split; [reflexivity|]. split; [exact Hl|]. split; [apply nth_error_In in Hline; exact Hline|].
  rewrite <- Ho, <- Hn. unfold summary_of. cbv zeta. cbn [su_total su_mean]. rewrite M, T, T'. cbn [fof_N Rops].
  split; [apply IZR_lt; reflexivity|]. split; [cbn; lra|]. unfold Rdiv. rewrite Rminus_diag_eq by reflexivity. rewrite !Rmult_0_l. reflexivity.
Qed.

(** A study that starts with two threads: the ideal speedup of the first run is 2, its real speedup 1. *)
Definition unit_reports : list (summary Rops) := List.repeat (mkSummary (D := Rops) 1 1 1 1) 6.
Theorem speedup_from_two : exists files study points ideal real,
  scaling_results (D := Rops) files "run_" 2 1 2 (Strong 2) = Ok study /\ nth_error (sg_tracking study) 0 = Some (ideal_time (D := Rops) (Strong 2) 1 0) /\
  plotted_speedup study = Ok points /\ points = [(ideal, real)] /\ ideal = 2 /\ real = 1.
Proof.
  exists (fun _ => Some unit_reports). eexists. exists [(2, 1 / 1)]. exists 2, (1 / 1). split; [reflexivity|]. split.
  - cbn [sg_tracking nth_error]. apply f_equal. unfold ideal_time. cbn [fdiv fof_N Rops]. change (IZR (Z.of_N (2 ^ N.of_nat 0))) with 1. change (@eq R 1 (1 / 1)). lra.
  - split; [reflexivity|]. split; [reflexivity|]. split; [reflexivity|]. lra.
Qed.
(** A study without runs cannot be saved. *)
Theorem empty_study (D : FloatOps) files root t_init t_factor ty : exists study, scaling_results (D := D) files root t_init 0 t_factor ty = Ok study /\ save_tracking study = Panic.
Proof. eexists. split; reflexivity. Qed.
