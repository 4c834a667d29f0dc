(** C06 to C11, C46, C47: the accounting of cycles and runs.

    All the theorems hold for every arithmetic [K], every problem data [md], every domain [d], every
    execution policy and every schedule for which the run returns. *)
From Coq Require Import NArith QArith List Bool String.
From Verif Require Import Float ParticleModel NuclearModel MeshTypes Balance TrackModel CycleModel ReportModel
  TrackSpec CycleSpec CycleFacts Ieee GridModel MeshModel Demo DemoRun.
Import ListNotations.
Local Open Scope N_scope.

(** ** C06: conservation *)

(** There is one report per cycle; in each, gains equal losses and the end count is the census
    count; the last end count is the number of particles that wait for the next cycle. *)
Theorem c06_particle_conservation : forall (K : FloatOps) fuel cfuel (md : mcdata K) d s,
  core_loop fuel cfuel md (initial_sim md d) (Ok s) ->
  List.length (s_reports s) = N.to_nat (sp_n_steps (mc_params md)) /\
  Forall (fun r => conserved (rp_balance r) /\ bget (rp_balance r) EEnd = bget (rp_balance r) ECensus) (s_reports s) /\
  bget (last (map rp_balance (s_reports s)) balance_zero) EEnd = N.of_nat (List.length (processing (s_cont s))).
Proof. exact @run_conserved. Qed.
Print Assumptions c06_particle_conservation.

(** The counters count what happened: each report comes with the tracks of its cycle (see
    [CycleSpec.cycle_story]), and the particles kept by a cycle are those the next one starts with. *)
Theorem c06_reports_tell_the_story : forall (K : FloatOps) fuel cfuel (md : mcdata K) d s,
  core_loop fuel cfuel md (initial_sim md d) (Ok s) ->
  run_story (mc_track md) (d_mesh d) (map rp_balance (s_reports s)) (processing (s_cont s)).
Proof. exact @run_tells. Qed.
Print Assumptions c06_reports_tell_the_story.

(** The columns: Start Source Split Produce, Absorb Census Escape OverRr WeightRr Fission, Collision
    Scatter NumSegments End. *)
Example c06_example : exists (md : mcdata K64) d s,
  core_loop 200 20 md (initial_sim md d) (Ok s) /\
  demo_view (Ok s) = Some ([(0, [0; 1; 9; 21; 10; 11; 2; 0; 0; 8; 33; 15; 51; 11]);
           (1, [11; 1; 0; 26; 11; 1; 11; 5; 0; 10; 38; 17; 66; 1])], [0; 0; 12; 0]).
Proof. destruct demo_exists as (md & d & s & _ & _ & H & V). exists md, d, s. split; assumption. Qed.

(** ** C07: the missing-particle test *)
Theorem c07_missing_particle_test_passes : forall (K : FloatOps) fuel cfuel (md : mcdata K) d s,
  core_loop fuel cfuel md (initial_sim md d) (Ok s) -> missing_particle_test (rs_balance (s_results s)) = true.
Proof. exact @run_missing. Qed.
Print Assumptions c07_missing_particle_test_passes.

(** The test is not trivially true. *)
Example c07_test_can_fail : missing_particle_test (bset balance_zero EEscape 1) = false.
Proof. reflexivity. Qed.
Example c07_example : exists (md : mcdata K64) d s,
  core_loop 200 20 md (initial_sim md d) (Ok s) /\ List.length (s_reports s) = 2%nat.
Proof.
  destruct demo_exists as (md & d & s & Ed & _ & H & V). exists md, d, s. split; [exact H|].
  destruct (s_reports s) as [|a [|b [|c l]]] eqn:E; unfold demo_view in V; rewrite E in V;
    try discriminate; reflexivity.
Qed.

(** ** C08: collisions by kind *)
Theorem c08_collision_partition : forall (K : FloatOps) fuel cfuel (md : mcdata K) d s,
  core_loop fuel cfuel md (initial_sim md d) (Ok s) ->
  Forall (fun b => bget b ECollision = bget b EScatter + bget b EAbsorb + bget b EFission)
         (rs_balance (s_results s) :: map rp_balance (s_reports s)).
Proof. exact @run_collisions. Qed.
Print Assumptions c08_collision_partition.

(** Each counter is the number of the corresponding events of the tracks of the cycle; for Produce,
    the total number of particles coming out of the fissions. *)
Theorem c08_counters_count_events : forall (K : FloatOps) fuel cfuel (md : mcdata K) d s,
  core_loop fuel cfuel md (initial_sim md d) (Ok s) ->
  exists evss,
    Forall2 (fun r evs =>
      (exists dom tracked kept, d_mesh dom = d_mesh d /\ all_valid tracked /\
         rounds_paths (mc_track md) dom tracked evs kept) /\
      forall k, In k [EAbsorb; ECensus; EEscape; ECollision; EFission; EProduce; EScatter; ENumSegments] ->
                bget (rp_balance r) k = total (counts k) evs) (s_reports s) evss /\
    forall k, In k [EAbsorb; ECensus; EEscape; ECollision; EFission; EProduce; EScatter; ENumSegments] ->
      bget (rs_balance (s_results s)) k = total (counts k) (List.concat evss).
Proof. exact @run_events. Qed.
Print Assumptions c08_counters_count_events.

Example c08_example : exists (md : mcdata K64) d s,
  core_loop 200 20 md (initial_sim md d) (Ok s) /\
  map (fun r => bget (rp_balance r) EFission) (s_reports s) = [8; 10] /\
  map (fun r => bget (rp_balance r) EProduce) (s_reports s) = [21; 26].
Proof.
  destruct demo_exists as (md & d & s & Ed & _ & H & V). exists md, d, s. split; [exact H|].
  destruct (s_reports s) as [|a [|b [|c l]]] eqn:E; unfold demo_view in V; rewrite E in V;
    try discriminate. cbn [map] in V |- * . injection V; intros. split; congruence.
Qed.

(** ** C09: segments *)

(** The number of facet crossings printed by the benchmark report is the real one: the subtractions
    do not underflow, per cycle and for the whole run. *)
Theorem c09_segment_accounting : forall (K : FloatOps) fuel cfuel (md : mcdata K) d s,
  core_loop fuel cfuel md (initial_sim md d) (Ok s) ->
  exists evss,
    Forall2 (fun r evs =>
      (exists dom tracked kept, d_mesh dom = d_mesh d /\ all_valid tracked /\
         rounds_paths (mc_track md) dom tracked evs kept) /\
      reported_crossings (rp_balance r) = Ok (total is_crossing evs)) (s_reports s) evss /\
    reported_crossings (rs_balance (s_results s)) = Ok (total is_crossing (List.concat evss)).
Proof. exact @run_crossings. Qed.
Print Assumptions c09_segment_accounting.

Example c09_example : exists (md : mcdata K64) d s,
  core_loop 200 20 md (initial_sim md d) (Ok s) /\
  map (fun r => reported_crossings (rp_balance r)) (s_reports s) = [Ok 7; Ok 27].
Proof.
  destruct demo_exists as (md & d & s & Ed & _ & H & V). exists md, d, s. split; [exact H|].
  destruct (s_reports s) as [|a [|b [|c l]]] eqn:E; unfold demo_view in V; rewrite E in V;
    try discriminate. cbn [map] in V |- * . injection V; intros.
  unfold reported_crossings.
  repeat match goal with H : bget _ _ = _ |- _ => rewrite H; clear H end. reflexivity.
Qed.

(** ** C10: chaining of the cycles *)
Theorem c10_start_end_chaining : forall (K : FloatOps) fuel cfuel (md : mcdata K) d s,
  core_loop fuel cfuel md (initial_sim md d) (Ok s) ->
  map rp_cycle (s_reports s) = nrange 0 (N.to_nat (sp_n_steps (mc_params md))) /\
  chained 0 (map rp_balance (s_reports s)) /\
  forall k, bget (rs_balance (s_results s)) k = fold_right (fun r a => bget (rp_balance r) k + a) 0 (s_reports s).
Proof. exact @run_chained. Qed.
Print Assumptions c10_start_end_chaining.

Example c10_example : exists (md : mcdata K64) d s,
  core_loop 200 20 md (initial_sim md d) (Ok s) /\
  map (fun r => (bget (rp_balance r) EStart, bget (rp_balance r) EEnd)) (s_reports s) = [(0, 11); (11, 1)].
Proof.
  destruct demo_exists as (md & d & s & Ed & _ & H & V). exists md, d, s. split; [exact H|].
  destruct (s_reports s) as [|a [|b [|c l]]] eqn:E; unfold demo_view in V; rewrite E in V;
    try discriminate. cbn [map] in V |- * . injection V; intros. congruence.
Qed.

(** ** C11: containers *)

(** After any number of cycles nothing waits to be tracked, and every particle kept is valid and
    ended at census.  (That its remaining time is zero is part of C26.) *)
Theorem c11_containers_drained : forall (K : FloatOps) fuel cfuel (md : mcdata K) d n s,
  run_steps fuel cfuel md (initial_sim md d) n (Ok s) -> n <= sp_n_steps (mc_params md) ->
  processing (s_cont s) = [] /\ extra_particles (s_cont s) = [] /\
  Forall (fun p => p_species p = Known /\ p_last_event p = EvCensus) (processed (s_cont s)).
Proof. exact @run_drained. Qed.
Print Assumptions c11_containers_drained.

Example c11_example : exists (md : mcdata K64) d s,
  run_steps 200 20 md (initial_sim md d) 2 (Ok s) /\ 2 <= sp_n_steps (mc_params md).
Proof.
  destruct demo_exists as (md & d & s & Ed & _ & H & V).
  assert (E2 : sp_n_steps (mc_params md) = 2).
  { unfold demo_data in Ed. destruct demo_nuclear as [[nd mats]| |]; try discriminate.
    injection Ed as <-. reflexivity. }
  inversion H as [r Hp Hr E0|]; subst. destruct r as [s1| |]; try discriminate.
  rewrite E2 in Hr. exists md, d, s1. split; [exact Hr|]. rewrite E2. apply N.le_refl.
Qed.

(** ** C46: the fluence check *)

(** The fluence table stays empty, so that the check compares 0 with 6 whatever the run. *)
Theorem c46_fluence_check_vacuous : forall (K : FloatOps) fuel cfuel (md : mcdata K) d s,
  core_loop fuel cfuel md (initial_sim md d) (Ok s) ->
  rs_fluence (s_results s) = [] /\ fluence_test (rs_fluence (s_results s)) = fle f0 (flit (6 # 1) : F K).
Proof. split; [exact (run_fluence _ _ _ _ _ H)|exact (run_fluence_test _ _ _ _ _ H)]. Qed.
Print Assumptions c46_fluence_check_vacuous.

(** With binary64 the comparison holds: the check says PASS; the demonstration run does not use
    the standard benchmark, so that the fluence is computed. *)
Example c46_example : exists (md : mcdata K64) d s,
  core_loop 200 20 md (initial_sim md d) (Ok s) /\ sp_standard (mc_params md) = false /\
  fluence_test (rs_fluence (s_results s)) = true.
Proof.
  destruct demo_exists as (md & d & s & Ed & _ & H & V). exists md, d, s. split; [exact H|]. split.
  - unfold demo_data in Ed. destruct demo_nuclear as [[nd mats]| |]; try discriminate.
    injection Ed as <-. reflexivity.
  - rewrite (proj2 (c46_fluence_check_vacuous _ _ _ _ _ _ H)). vm_compute. reflexivity.
Qed.

(** ** C47: energy spectrum *)

(** At the end of a cycle the entry of each group grows by the number of particles in that group,
    and no entry is lost. *)
Theorem c47_spectrum_per_group : forall (K : FloatOps) (md : mcdata K) step s s',
  finish_cycle md step s = Ok s' -> sp_spectrum (mc_params md) = true ->
  List.length (rs_spectrum (s_results s')) = List.length (rs_spectrum (s_results s)) /\
  (forall g, nth g (rs_spectrum (s_results s')) 0
             = nth g (rs_spectrum (s_results s)) 0
               + group_count (N.of_nat g) (processing (s_cont s) ++ processed (s_cont s))) /\
  nsum (rs_spectrum (s_results s')) = nsum (rs_spectrum (s_results s))
     + N.of_nat (List.length (processing (s_cont s) ++ processed (s_cont s))).
Proof. exact @finish_spectrum. Qed.
Print Assumptions c47_spectrum_per_group.

(** Over a run, the total of the spectrum is the sum of the end counts of all cycles. *)
Theorem c47_spectrum_total : forall (K : FloatOps) fuel cfuel (md : mcdata K) d s,
  core_loop fuel cfuel md (initial_sim md d) (Ok s) -> sp_spectrum (mc_params md) = true ->
  nsum (rs_spectrum (s_results s)) = end_sum (s_reports s).
Proof. exact @run_spectrum. Qed.
Print Assumptions c47_spectrum_total.

Example c47_example : exists (md : mcdata K64) d s,
  core_loop 200 20 md (initial_sim md d) (Ok s) /\ sp_spectrum (mc_params md) = true /\
  rs_spectrum (s_results s) = [0; 0; 12; 0] /\ end_sum (s_reports s) = 12.
Proof.
  destruct demo_exists as (md & d & s & Ed & _ & H & V). exists md, d, s. split; [exact H|]. split.
  - unfold demo_data in Ed. destruct demo_nuclear as [[nd mats]| |]; try discriminate.
    injection Ed as <-. reflexivity.
  - unfold demo_view in V. injection V as _ V. split; [exact V|].
    rewrite <- (c47_spectrum_total _ _ _ _ _ _ H); [rewrite V; reflexivity|].
    unfold demo_data in Ed. destruct demo_nuclear as [[nd mats]| |]; try discriminate.
    injection Ed as <-. reflexivity.
Qed.
