(** C65: the weights of the particles, and the scalar flux. *)
From Coq Require Import NArith ZArith String List Bool Lia Reals Lra Permutation.
From Verif Require Import Float RealOps RngModel ParticleModel NuclearModel MeshTypes Balance TrackModel CycleModel GridModel MeshModel GridSpec MeshSpec
  TrackSpec CycleSpec PopSpec PopDemo SegmentSpec GeomSpec GeomDemo StaySpec StayRun StayDemo SpeedSpec ScheduleSpec RangeSpec QuietRun QuietSteps QuietTrack LifeDemo
  WeightSpec WeightFacts WeightRun FluxLog FluxRun WeightDemo.
Import ListNotations.
Local Open Scope R_scope.

(** In any arithmetic: a particle leaves a segment with the weight it had before, and so does each particle that is created. *)
Theorem c65_weight_kept : forall (K : FloatOps) td dom (p : particle K) e keep p' nx, seg_step td dom p e keep p' nx ->
  Forall (fun q => p_weight q = p_weight p) (p' :: nx).
Proof. exact @step_weight. Qed.
Print Assumptions c65_weight_kept.

(** Through the tracking of a cycle weight is neither lost nor made: what is tracked, and what reactions produce, is at the end in the next census, or
    was absorbed, or escaped, or ended in a fission, each counted with the weight of the particle to which it happens. *)
Theorem c65_cycle_balance : forall fuel cfuel (md : mcdata Rops) d n s hs s1 u c s2 hs',
  run_log fuel cfuel md d n s hs -> (n < sp_n_steps (mc_params md))%N ->
  cycle_sync md n s = Ok s1 -> population_phase md s1 = Ok (u, c) -> cycle_process fuel cfuel md s1 (Ok s2) ->
  rounds_log (mc_track md) (u_domain u) (processing c) hs' (processed (s_cont s2)) ->
  weights (processing c) + worths EProduce hs' = weights (processed (s_cont s2)) + worths EAbsorb hs' + worths EEscape hs' + worths EFission hs'.
Proof. exact cycle_balance. Qed.
Print Assumptions c65_cycle_balance.

(** The particles of the source share the emission of a time step: each has the emission of the whole mesh divided by a tenth of the target
    population, and together they have the emission, up to less than one particle for each cell. *)
Theorem c65_source_weight : forall (md : mcdata Rops) (s s1 : sim Rops) (xs : list R) u c new,
  prepare_cycle md s = Ok s1 -> source_now md (s_source_weight s1) (s_unit s1) (s_cont s1) = Ok (u, c) ->
  processing c = processing (s_cont s1) ++ new ->
  Forall2 (emits md) (d_cells (u_domain (s_unit s))) xs -> Forall (fun x => 0 <= x) xs -> 0 < Rsum xs ->
  (0 < sp_n_particles (mc_params md) < 2 ^ 64)%N ->
  Forall (fun p : particle Rops => p_weight p = Rsum xs / (real_of (sp_n_particles (mc_params md)) / 10)) new /\
  weights new <= Rsum xs < weights new + INR (List.length xs) * (Rsum xs / (real_of (sp_n_particles (mc_params md)) / 10)).
Proof. exact source_worth. Qed.
Print Assumptions c65_source_weight.

(** In a run all weights are positive, as long as something is emitted. *)
Theorem c65_run_weights_positive : forall fuel cfuel (md : mcdata Rops) dom n s hs xs, run_log fuel cfuel md dom n s hs -> (n <= sp_n_steps (mc_params md))%N ->
  ei_n_units (mc_exec md) = 1%N -> (10 <= sp_n_particles (mc_params md) < 2 ^ 64)%N ->
  Forall2 (emits md) (d_cells dom) xs -> 0 < Rsum xs ->
  Forall happens_weighty hs /\ Forall (fun p : particle Rops => 0 < p_weight p) (processed (s_cont s)).
Proof. intros fuel cfuel md dom n s hs xs H Hn Hu Hp Hx Hpos. exact (proj2 (run_weighty fuel cfuel md dom n s hs xs H Hn Hu Hp Hx Hpos)). Qed.
Print Assumptions c65_run_weights_positive.

(** At the end of a cycle the entry of the flux array for a cell and an energy group is the sum of length times weight over the segments that
    start in that cell with an energy of that group; the scalar flux in the row of the cycle is that sum over all the segments of the cycle, whatever the
    policy, the chunks and the interleaving of the threads. *)
Theorem c65_flux_cycle : forall fuel cfuel (md : mcdata Rops) d n s hs0 s1 s2,
  energies_bounded md -> threads_ok md -> implemented md -> sound_problem md d -> (n < sp_n_steps (mc_params md))%N ->
  run_log fuel cfuel md d n s hs0 -> cycle_sync md n s = Ok s1 -> cycle_process fuel cfuel md s1 (Ok s2) ->
  exists born hs, run_log fuel cfuel md d (N.succ n) s2 (hs0 ++ map Born born ++ hs) /\ s_reports s2 = s_reports s1 /\
    (forall cell g, in_range (u_domain (s_unit s2)) (sp_n_groups (mc_params md)) cell g ->
      nth_error (m_flux (u_mem (s_unit s2))) (N.to_nat (slot (sp_n_groups (mc_params md)) cell g)) = Some (Rsum (map weighted_length (filter (flies_in cell g) hs)))) /\
    fsum (m_flux (u_mem (s_unit s2))) = Rsum (map weighted_length hs) /\
    (forall s3, cycle_sync md (N.succ n) s2 = Ok s3 ->
      exists rep, s_reports s3 = s_reports s2 ++ [rep] /\ rp_cycle rep = n /\ rp_flux rep = Rsum (map weighted_length hs)).
Proof. exact cycle_row. Qed.
Print Assumptions c65_flux_cycle.

(** The scalar fluxes of all the rows of a run add up to the sum of length times weight over all its segments. *)
Theorem c65_flux_run : forall fuel cfuel (md : mcdata Rops) d s',
  energies_bounded md -> threads_ok md -> implemented md -> sound_problem md d -> (0 < sp_n_steps (mc_params md))%N ->
  core_loop fuel cfuel md (initial_sim md d) (Ok s') ->
  exists s hs, run_log fuel cfuel md d (sp_n_steps (mc_params md)) s hs /\ cycle_sync md (sp_n_steps (mc_params md)) s = Ok s' /\
    Rsum (map (@rp_flux Rops) (s_reports s')) = Rsum (map weighted_length hs).
Proof. exact run_total. Qed.
Print Assumptions c65_flux_run.

(** No segment counts negatively. *)
Theorem c65_flux_not_negative : forall fuel cfuel (md : mcdata Rops) dom n s hs xs, run_log fuel cfuel md dom n s hs -> (n <= sp_n_steps (mc_params md))%N ->
  ei_n_units (mc_exec md) = 1%N -> (10 <= sp_n_particles (mc_params md) < 2 ^ 64)%N -> Forall2 (emits md) (d_cells dom) xs -> 0 < Rsum xs ->
  Forall forward hs /\ Forall (fun h => 0 <= weighted_length h) hs.
Proof. exact run_flux_positive. Qed.
Print Assumptions c65_flux_not_negative.

(** The length that is counted is the distance that is flown: between the ends of the segment, as long as nothing happened on an edge, and nothing but
    crossings and reflections on a face. *)
Theorem c65_flux_measures_distance : forall g bc pt geoms mats dom fuel cfuel (md : mcdata Rops) n s hs,
  built_domain g bc pt geoms mats dom -> sized g -> fits g -> 0 <= td_dt (mc_track md) ->
  run_log fuel cfuel md dom n s hs -> (n <= sp_n_steps (mc_params md))%N ->
  (forall hs1 h hs2, hs = hs1 ++ h :: hs2 -> Forall (clean g) hs1 -> measured h) /\
  (Forall (clean g) hs -> Rsum (map weighted_length hs) = Rsum (map weighted_distance hs)).
Proof. exact run_distance. Qed.
Print Assumptions c65_flux_measures_distance.

(** A fission out of which two or more particles come. *)
Example c65_weight_kept_case : exists dom p r n p' q nx, seg_step late_td dom p (SegCollision r n) true p' (q :: nx).
Proof. destruct late_fission as (pt & dom & p & r & n & p' & q & nx & q' & _ & _ & _ & _ & _ & H & _). exists dom, p, r, n, p', q, nx. exact H. Qed.

(** A run to its end, of one cycle: in the box of 2x3x4 cells one particle is created in each cell and split. *)
Example c65_run_case : exists pt dom s1 s2 s3 xs, built_domain box "octant" pt box_geoms box_mats dom /\ sized box /\ fits box /\
  core_loop 1 0 quiet_md (initial_sim quiet_md dom) (Ok s3) /\ run_log 1 0 quiet_md dom 0 (initial_sim quiet_md dom) [] /\
  cycle_sync quiet_md 0 (initial_sim quiet_md dom) = Ok s1 /\ cycle_process 1 0 quiet_md s1 (Ok s2) /\ cycle_sync quiet_md 1 s2 = Ok s3 /\
  energies_bounded quiet_md /\ threads_ok quiet_md /\ implemented quiet_md /\ sound_problem quiet_md dom /\ (0 < sp_n_steps (mc_params quiet_md))%N /\
  ei_n_units (mc_exec quiet_md) = 1%N /\ (10 <= sp_n_particles (mc_params quiet_md) < 2 ^ 64)%N /\ 0 <= td_dt (mc_track quiet_md) /\
  Forall2 (emits quiet_md) (d_cells dom) xs /\ Forall (fun x => 0 <= x) xs /\ 0 < Rsum xs.
Proof.
  destruct quiet_whole as (pt & dom & s1 & s2 & s3 & D & H1 & H2 & H3 & H4 & H5). destruct (quiet_emits pt dom D) as (xs & X1 & X2 & X3 & _).
  exists pt, dom, s1, s2, s3, xs. split; [exact D|]. split; [exact box_sized|]. split; [exact box_fits|]. split; [exact H1|]. split; [exact H2|]. split; [exact H3|].
  split; [exact H4|]. split; [exact H5|]. split; [exact quiet_bounded|]. split; [intros [E|E]; discriminate E|]. split; [left; reflexivity|].
  split; [exact (quiet_sound pt dom D)|]. split; [reflexivity|]. split; [reflexivity|]. split; [split; [vm_compute; discriminate|reflexivity]|].
  split; [apply Rlt_le, quiet_dt_small|]. split; [exact X1|]. split; [exact X2|exact X3].
Qed.
(** The log of such a run, where nothing happens on a face. *)
Example c65_log_case : exists pt dom s hs, built_domain box "octant" pt box_geoms box_mats dom /\ run_log 1 0 quiet_md dom 1 s hs /\
  Forall (clean box) hs /\ (48 <= List.length hs)%nat /\ (24 <= List.length (processed (s_cont s)))%nat.
Proof.
  destruct box_init as (pt & dom & _ & D). destruct (quiet_run 0 0 pt dom D) as (s & hs & H1 & H2 & H3 & H4 & _). exists pt, dom, s, hs.
  split; [exact D|]. split; [exact H1|]. split; [exact H2|]. split; [exact H3|exact H4].
Qed.
(** The source of the first cycle of that run. *)
Example c65_source_case : exists pt dom s1 u c xs, built_domain box "octant" pt box_geoms box_mats dom /\ prepare_cycle quiet_md (initial_sim quiet_md dom) = Ok s1 /\
  source_now quiet_md (s_source_weight s1) (s_unit s1) (s_cont s1) = Ok (u, c) /\ processing c = processing (s_cont s1) ++ processing c /\ List.length (processing c) = 24%nat /\
  Forall2 (emits quiet_md) (d_cells (u_domain (s_unit (initial_sim quiet_md dom)))) xs /\ Forall (fun x => 0 <= x) xs /\ 0 < Rsum xs.
Proof.
  destruct box_init as (pt & dom & _ & D). destruct (quiet_source pt dom D) as (s1 & u0 & c0 & Hsync & Hsrc & Econt & _ & _ & Hl & _).
  destruct (quiet_emits pt dom D) as (xs & X1 & X2 & X3 & _). exists pt, dom, s1, u0, c0, xs. split; [exact D|]. split; [exact Hsync|]. split; [exact Hsrc|].
  split; [rewrite Econt; reflexivity|]. split; [exact Hl|]. split; [exact X1|]. split; [exact X2|exact X3].
Qed.
