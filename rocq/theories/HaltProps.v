(** C67: tracks end.  In exact arithmetic the number of segments that a particle and its descendants go through before the end of the cycle is bounded by the time
    that is left, the sides of the cells and the largest cross-section; with that much fuel tracking returns, and the rounds of tracking of a cycle are as few. *)
From Coq Require Import NArith ZArith QArith String List Bool Reals Lra Lia Psatz Permutation.
From Verif Require Import Float RealOps RngModel ParticleModel NuclearModel MeshTypes Balance TrackModel CycleModel GridModel MeshModel GridSpec GridLemmas FloodLemmas MeshFacts MeshFacts MeshSpec MeshTheorems WellBuilt
  TrackSpec TrackAccount PopSpec PopDemo SegmentSpec SegmentFacts NuclearSpec GeomSpec GeomLemmas SourcePoint GeomDemo StaySpec StayLemmas StayRun StayDemo SpeedSpec SpeedFacts LifeSpec LifeDemo
  ScheduleSpec ScheduleFacts RangeSpec HaltSpec HaltRng HaltGap HaltSteps HaltWays HaltLine HaltEnds HaltRounds HaltDemo.
Import ListNotations.
Local Open Scope R_scope.

(** A number of mean free paths that was just drawn, and drawn again if it was zero, is at least 2^-53: the generator does not give the two extreme
    numbers one after the other. *)
Theorem c67_paths : forall (p : particle Rops) n, paths_left (sample_num_mfp p) n -> / 2 ^ 53 <= n.
Proof. exact sampled_paths. Qed.
Example c67_paths_case : exists (p : particle Rops) n, paths_left (sample_num_mfp p) n.
Proof. exists (late 0). apply paths_exist. Qed.
Print Assumptions c67_paths.

(** The way of a line is not longer than that of light in the time that went by. *)
Theorem c67_path : forall g bc pt td (dom : domain Rops) X hs p q, built g bc pt (d_mesh dom) -> sized g -> fits g -> heavy td -> 0 <= td_dt td ->
  no_denser td dom X -> 1 <= X -> line td dom p hs q -> flying g pt p -> 0 < p_kinetic_energy p -> Forall (regular g) hs ->
  0 <= path hs <= light_speed (K := Rops) * (p_time_to_census p - p_time_to_census q).
Proof. exact path_bound. Qed.
Print Assumptions c67_path.

(** Within a distance [D] there are at most 1 + 2^53 X D collisions if no cross-section is above [X]. *)
Theorem c67_collisions : forall g bc pt td (dom : domain Rops) X hs p q, built g bc pt (d_mesh dom) -> sized g -> fits g -> heavy td -> 0 <= td_dt td ->
  no_denser td dom X -> 1 <= X -> line td dom p hs q -> flying g pt p -> 0 < p_kinetic_energy p -> Forall (regular g) hs ->
  INR (collisions hs) <= most_collisions X (path hs).
Proof. exact collisions_bound. Qed.
Print Assumptions c67_collisions.

(** Between two collisions, as many crossings and reflections as cells fit on the way, and three. *)
Theorem c67_crossings : forall g bc pt td (dom : domain Rops) X hs p q, built g bc pt (d_mesh dom) -> sized g -> fits g -> heavy td -> 0 <= td_dt td ->
  no_denser td dom X -> 1 <= X -> line td dom p hs q -> flying g pt p -> 0 < p_kinetic_energy p -> Forall (regular g) hs ->
  INR (crossings hs) <= cells_within g (path hs) + 3 * (INR (collisions hs) + 1).
Proof. exact crossings_bound. Qed.
Print Assumptions c67_crossings.

(** All the segments of a particle and of one of its descendants after it. *)
Theorem c67_segments : forall g bc pt td (dom : domain Rops) X hs p q, built g bc pt (d_mesh dom) -> sized g -> fits g -> heavy td -> 0 <= td_dt td ->
  no_denser td dom X -> 1 <= X -> line td dom p hs q -> flying g pt p -> 0 < p_kinetic_energy p -> Forall (regular g) hs ->
  INR (length hs) <= most_segments g X (p_time_to_census p).
Proof. exact segments_bound. Qed.
(** A fission, after which one follows one of the new particles. *)
Example c67_line_case : exists pt dom p h q, built_domain box "octant" pt box_geoms box_mats dom /\ built box "octant" pt (d_mesh dom) /\ sized box /\ fits box /\ heavy late_td /\ 0 <= td_dt late_td /\
  no_denser late_td dom 1 /\ line late_td dom p [h] q /\ flying box pt p /\ 0 < p_kinetic_energy p /\ Forall (regular box) [h] /\ at_collision h = true.
Proof.
  destruct soon_fission as (pt & dom & p & r & n & p' & q & nx & q' & D & Fl & He & St & Rg & Ex & Hp). exists pt, dom, p, (Flew p (SegCollision r n) p'), q'.
  split; [exact D|]. split; [exact (domain_mesh _ _ _ _ _ _ D)|]. split; [exact box_sized|]. split; [exact box_fits|]. split; [exact late_heavy|]. split; [cbn; lra|].
  split; [exact (late_no_denser _ _ D)|]. split; [eapply line_child; [exact St|exact Ex|left; reflexivity|exact Hp|constructor]|]. split; [exact Fl|]. split; [exact He|].
  split; [constructor; [exact Rg|constructor]|reflexivity].
Qed.
Print Assumptions c67_segments.

(** Tracking a particle ends within that many segments, and the search for the partner of a collision within two passes, unless on one of its lines
    something happens on an edge or a collision at the very end of the cycle. *)
Theorem c67_track_ends : forall g bc pt td (dom : domain Rops) X fuel cf p, built g bc pt (d_mesh dom) -> sized g -> fits g -> heavy td -> 0 <= td_dt td ->
  no_denser td dom X -> 1 <= X -> answered td dom -> (2 <= cf)%nat -> flying g pt p -> 0 < p_kinetic_energy p ->
  most_segments g X (p_time_to_census p) < INR fuel ->
  solo_track fuel cf td dom p <> NoFuel \/ exists hs q, line td dom p hs q /\ ~ Forall (regular g) hs.
Proof. exact track_ends. Qed.
Example c67_track_case : exists pt dom p fuel, built box "octant" pt (d_mesh dom) /\ sized box /\ fits box /\ heavy late_td /\ 0 <= td_dt late_td /\
  no_denser late_td dom 1 /\ answered late_td dom /\ flying box pt p /\ 0 < p_kinetic_energy p /\ most_segments box 1 (p_time_to_census p) < INR fuel.
Proof.
  destruct box_first as (pt & dom & i0 & D & B & L0). destruct (whole_above (most_segments box 1 (p_time_to_census (soon i0)))) as (fuel & Hf). exists pt, dom, (soon i0), fuel.
  split; [exact B|]. split; [exact box_sized|]. split; [exact box_fits|]. split; [exact late_heavy|]. split; [cbn; lra|]. split; [exact (late_no_denser _ _ D)|].
  split; [exact (late_answered _ _ D)|]. split; [exact (soon_flying _ _ L0)|]. split; [change (0 < 2); lra|exact Hf].
Qed.
Print Assumptions c67_track_ends.

(** The rounds of tracking of a cycle: as long as particles are left, the number of rounds done is at most that bound, under every policy and every
    interleaving; and with that much fuel they are not cut short. *)
Theorem c67_phase_ends : forall ok (md : mcdata Rops) g bc pt X T fuel cf u c, safe_energies (K := Rops) md ok -> run_ok md -> rested ok md u c ->
  built g bc pt (d_mesh (u_domain u)) -> sized g -> fits g -> heavy (mc_track md) -> 0 <= td_dt (mc_track md) ->
  no_denser (mc_track md) (u_domain u) X -> 1 <= X -> answered (mc_track md) (u_domain u) -> (2 <= cf)%nat ->
  (forall p p', In p (processing c) -> prepare_particle (mc_track md) p = Ok p' ->
     flying g pt p' /\ 0 < p_kinetic_energy p' /\ most_segments g X (p_time_to_census p') <= T /\
     forall hs q, line (mc_track md) (u_domain u) p' hs q -> Forall (regular g) hs) ->
  (forall n u' c', after_rounds fuel cf md n u c u' c' -> is_done_processing c' = false -> INR n <= T) /\
  (T < INR fuel -> forall r, tracking_rounds fuel cf md u c r -> r <> NoFuel).
Proof. exact rounds_end. Qed.
(** One particle, half a mean free path from the end of the cycle, tracked by four threads. *)
Example c67_phase_case : exists pt dom i0 T, safe_energies (K := Rops) late_md (fun e : R => 0 <= e <= 20) /\ run_ok late_md /\
  rested (fun e : R => 0 <= e <= 20) late_md (brief_unit dom) (brief_cont i0) /\ built box "octant" pt (d_mesh dom) /\ sized box /\ fits box /\ heavy late_td /\ 0 <= td_dt late_td /\
  no_denser late_td dom 1 /\ answered late_td dom /\ is_done_processing (brief_cont i0) = false /\
  (forall p p', In p (processing (brief_cont i0)) -> prepare_particle late_td p = Ok p' ->
     flying box pt p' /\ 0 < p_kinetic_energy p' /\ most_segments box 1 (p_time_to_census p') <= T /\
     forall hs q, line late_td dom p' hs q -> Forall (regular box) hs).
Proof.
  destruct box_first as (pt & dom & i0 & D & B & L0). exists pt, dom, i0, (most_segments box 1 (p_time_to_census (brief i0))).
  pose proof (built_domain_parts _ _ _ _ _ _ D) as (_ & _ & Lc & _). destruct (built_complete _ _ _ _ B) as (_ & Ln). change (N.to_nat (total_cells (g_dims box))) with 24%nat in Ln.
  assert (Hi : (i0 < 24)%nat).
  { destruct (built_mesh_is _ _ _ _ B) as (cs & boundary & Pc & Nc & _). pose proof L0 as L1. unfold local_to_global in L1. rewrite (cells_keys _ _ Nc) in L1.
    apply Permutation_length in Pc. assert (El : length cs = 24%nat) by (rewrite Pc; reflexivity). rewrite <- El.
    apply nth_error_Some. intros C. pose proof (eq_trans (eq_sym L1) C) as X0. discriminate X0. }
  split; [exact late_bounded|]. split; [exact late_run|]. split; [exact (brief_rested pt dom i0 D Hi (eq_trans Lc Ln))|]. split; [exact B|]. split; [exact box_sized|]. split; [exact box_fits|].
  split; [exact late_heavy|]. split; [cbn; lra|]. split; [exact (late_no_denser _ _ D)|]. split; [exact (late_answered _ _ D)|]. split; [reflexivity|].
  intros p p' [<-|[]] Hp. destruct (brief_lines pt dom i0 p' D L0 Hp) as (Fl & He & Et & Hl). split; [exact Fl|]. split; [exact He|]. rewrite Et. split; [apply Rle_refl|].
  intros hs q H. rewrite (Hl _ _ H). constructor.
Qed.
Print Assumptions c67_phase_ends.
