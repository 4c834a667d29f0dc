(** Claims about lifetimes (C64), in exact arithmetic. *)
From Coq Require Import NArith ZArith List Bool String Reals Lra Lia.
From Verif Require Import Float RealOps RngModel ParticleModel NuclearModel MeshTypes Balance TrackModel CycleModel GridModel MeshModel
  GridSpec MeshSpec TrackSpec CycleSpec PopSpec SegmentSpec GeomSpec GeomDemo PopDemo SegmentFacts SegmentDemo StaySpec StayRun StayDemo QuietRun QuietTrack
  SpeedSpec SpeedFacts LifeSpec LifeRun LifeDemo.
Import ListNotations.
Local Open Scope R_scope.

(** Each run has a history: its births are the particles that the source creates, each with the cycle of its creation. *)
Theorem c64_run_history : forall fuel cfuel (md : mcdata Rops) d n s hs, run_log fuel cfuel md d n s hs ->
  exists bs, run_history fuel cfuel md d n s bs hs /\
    (forall c b, In (c, b) bs -> (c < n)%N /\ In (Born b) hs) /\ (forall b, In (Born b) hs -> exists c, In (c, b) bs).
Proof.
  intros fuel cfuel md d n s hs H. destruct (log_history _ _ _ _ _ _ _ H) as (bs & Hb). exists bs. split; [exact Hb|].
  exact (history_births _ _ _ _ _ _ _ _ Hb).
Qed.
Print Assumptions c64_run_history.

(** After [n] cycles each particle kept for the next cycle is as old as the time that went by since the source created a particle, its ancestor: splits,
    collisions, fissions and the passing of a census neither add nor lose time. *)
Theorem c64_ages : forall g bc pt geoms mats dom fuel cfuel (md : mcdata Rops) n s bs hs,
  built_domain g bc pt geoms mats dom -> sized g -> 0 <= td_dt (mc_track md) -> heavy (mc_track md) ->
  0 < sp_e_min (mc_params md) <= sp_e_max (mc_params md) ->
  run_history fuel cfuel md dom n s bs hs -> (n <= sp_n_steps (mc_params md))%N -> Forall in_time hs ->
  Forall (as_old_as (td_dt (mc_track md)) n bs) (processed (s_cont s)).
Proof. exact run_ages. Qed.
Print Assumptions c64_ages.

(** In particular no particle is older than the run. *)
Theorem c64_no_older_than_run : forall g bc pt geoms mats dom fuel cfuel (md : mcdata Rops) n s bs hs,
  built_domain g bc pt geoms mats dom -> sized g -> 0 <= td_dt (mc_track md) -> heavy (mc_track md) ->
  0 < sp_e_min (mc_params md) <= sp_e_max (mc_params md) ->
  run_history fuel cfuel md dom n s bs hs -> (n <= sp_n_steps (mc_params md))%N -> Forall in_time hs ->
  Forall (fun p : particle Rops => 0 <= p_age p <= real_of n * td_dt (mc_track md)) (processed (s_cont s)).
Proof. exact run_young. Qed.
Print Assumptions c64_no_older_than_run.

(** When moreover nothing happened on an edge, and nothing but crossings and reflections on a face, the particle is no further from the place of that
    creation than light gets in the time since. *)
Theorem c64_ancestors : forall g bc pt geoms mats dom fuel cfuel (md : mcdata Rops) n s bs hs,
  built_domain g bc pt geoms mats dom -> sized g -> fits g -> 0 <= td_dt (mc_track md) -> heavy (mc_track md) ->
  0 < sp_e_min (mc_params md) <= sp_e_max (mc_params md) ->
  run_history fuel cfuel md dom n s bs hs -> (n <= sp_n_steps (mc_params md))%N -> Forall in_time hs -> Forall (clean g) hs ->
  Forall (comes_from (td_dt (mc_track md)) n bs) (processed (s_cont s)).
Proof. exact run_reaches. Qed.
Print Assumptions c64_ancestors.

(** A run of one cycle: in the box of 2x3x4 cells one particle is created in each cell and split, each copy flies to census. *)
Example c64_run_case : exists pt dom s bs hs, built_domain box "octant" pt box_geoms box_mats dom /\ run_history 1 0 quiet_md dom 1 s bs hs /\
  Forall in_time hs /\ Forall (clean box) hs /\ (24 <= List.length (processed (s_cont s)))%nat /\
  0 <= td_dt (mc_track quiet_md) /\ heavy (mc_track quiet_md) /\
  0 < sp_e_min (mc_params quiet_md) <= sp_e_max (mc_params quiet_md) /\ (1 <= sp_n_steps (mc_params quiet_md))%N /\ sized box /\ fits box.
Proof.
  destruct box_init as (pt & dom & _ & D). destruct (quiet_run 0 0 pt dom D) as (s & hs & H1 & H2 & H3 & H4 & _ & _ & ps & _ & _ & H5).
  destruct (log_history _ _ _ _ _ _ _ H1) as (bs & Hb). exists pt, dom, s, bs, hs.
  split; [exact D|]. split; [exact Hb|]. split.
  { apply Forall_forall. intros [p|p e q] Hin; [exact I|]. rewrite (H5 _ _ _ Hin). exact I. }
  split; [exact H2|]. split; [exact H4|].
  split; [apply Rlt_le, quiet_dt_small|]. split; [constructor; [cbn [mat_mass]; lra|constructor]|].
  split; [cbn [mc_params quiet_md sp_e_min sp_e_max]; lra|]. split; [vm_compute; discriminate|]. split; [exact box_sized|exact box_fits].
Qed.

(** The condition on collisions is needed: when a fission happens at the very end of the cycle, the particle keeps its clock, but the particles that
    it creates are tracked as if they had passed the census, and get the time of a whole cycle more. *)
Theorem c64_late_fission_refuted : exists td pt dom p r n p' q nx q', built_domain box "octant" pt box_geoms box_mats dom /\ heavy td /\ 0 < td_dt td /\
  flying box pt p /\ 0 < p_kinetic_energy p /\ seg_step td dom p (SegCollision r n) true p' (q :: nx) /\ clean box (Flew p (SegCollision r n) p') /\
  prepare_particle td q = Ok q' /\ age_at_census p' = age_at_census p /\ age_at_census q' = age_at_census p + td_dt td.
Proof. exists late_td. exact late_fission. Qed.
Print Assumptions c64_late_fission_refuted.
