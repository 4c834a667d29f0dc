(** Claims about speeds, distances and energies (C63), in exact arithmetic. *)
From Coq Require Import NArith ZArith List Bool String Reals Lra Lia.
From Verif Require Import Float RealOps RngModel ParticleModel NuclearModel MeshTypes Balance TrackModel CycleModel GridModel MeshModel
  GridSpec MeshSpec TrackSpec CycleSpec PopSpec SegmentSpec GeomSpec GeomDemo PopDemo SegmentFacts SegmentDemo StaySpec StayRun StayDemo QuietRun QuietTrack SpeedSpec SpeedFacts.
Import ListNotations.
Local Open Scope R_scope.

(** The speed is the relativistic speed of a neutron of that kinetic energy: the total energy times [sqrt (1 - (v/c)^2)] is the rest energy,
    939.565 MeV.  It is below the speed of light, positive for a positive energy, and grows with the energy. *)
Theorem c63_speed : forall p : particle Rops, 0 <= p_kinetic_energy p ->
  (p_kinetic_energy p + 939565 / 1000) * sqrt (1 - get_speed p / light_speed (K := Rops) * (get_speed p / light_speed (K := Rops))) = 939565 / 1000 /\
  0 <= get_speed p < light_speed (K := Rops) /\ (0 < p_kinetic_energy p -> 0 < get_speed p) /\
  forall q : particle Rops, p_kinetic_energy p < p_kinetic_energy q -> get_speed p < get_speed q.
Proof.
  intros p H. split; [exact (relativity p H)|]. split; [split; [exact (speed_nonneg p)|exact (below_light p H)]|].
  split; [exact (speed_pos p)|]. intros q. exact (faster p q H).
Qed.
Print Assumptions c63_speed.
(** A particle at rest does not move, one of 1 MeV does. *)
Example c63_speed_case : exists p q : particle Rops, 0 <= p_kinetic_energy p /\ p_kinetic_energy p < p_kinetic_energy q /\ get_speed p = 0 /\ 0 < get_speed q.
Proof.
  exists (set_kinetic_energy start (0 : R)), (set_kinetic_energy start (1 : R)). cbn [p_kinetic_energy set_kinetic_energy].
  split; [lra|]. split; [lra|]. split; [|apply speed_pos; cbn [p_kinetic_energy set_kinetic_energy]; lra].
  rewrite speed_form by (cbn [p_kinetic_energy set_kinetic_energy]; lra). cbn [p_kinetic_energy set_kinetic_energy].
  replace (1 - _) with 0 by field. rewrite sqrt_0. lra.
Qed.

(** A segment is flown straight, at the speed of the particle, for the time by which it ages: the particle, and each particle that is created at the end of
    the segment, is at that distance from the start of the segment. *)
Theorem c63_segment : forall g bc pt td (dom : domain Rops) p e keep p' nx,
  built g bc pt (d_mesh dom) -> sized g -> fits g -> flying g pt p -> 0 < p_kinetic_energy p ->
  seg_step td dom p e keep p' nx -> Forall (flew_to p) (p' :: nx).
Proof. intros g bc pt td dom p e keep p' nx B Hs Hf Hp He H. exact (step_flew g bc pt dom B Hs Hf td p e keep p' nx H Hp He). Qed.
Print Assumptions c63_segment.

(** Along a track no particle gets further from the start of the track than light does, and no particle gets younger. *)
Theorem c63_track : forall g bc pt td (dom : domain Rops) p hs p' nx,
  built g bc pt (d_mesh dom) -> sized g -> fits g -> heavy td -> flying g pt p -> 0 < p_kinetic_energy p ->
  track_log td dom p hs p' nx -> Forall (clean g) hs ->
  Forall happens_swiftly hs /\ Forall (within_light p) (p' :: nx).
Proof. intros g bc pt td dom p hs p' nx B Hs Hf Hh Hp He H Hc. exact (track_light g bc pt td dom p hs p' nx B Hs Hf Hh H Hp He Hc). Qed.
Print Assumptions c63_track.

(** A track that crosses a face and ends inside the next cell. *)
Example c63_track_case : exists pt dom p p1 p2, built_domain box "octant" pt box_geoms box_mats dom /\ flying box pt p /\
  0 < p_kinetic_energy p /\ heavy quiet_td /\
  track_log quiet_td dom p [Flew p (SegFacet TransitOnProcessor) p1; Flew p1 SegCensus p2] p2 [] /\
  Forall (clean box) [Flew p (SegFacet TransitOnProcessor) p1; Flew p1 SegCensus p2].
Proof.
  destruct (straight_track quiet_td) as (pt & dom & p & p1 & p2 & D & Hf & H & Hc & He). exists pt, dom, p, p1, p2.
  split; [exact D|]. split; [exact Hf|]. split; [rewrite He, neutron_R; lra|]. split; [|split; [exact H|exact Hc]].
  constructor; [|constructor]. cbn [mat_mass]. lra.
Qed.
Example c63_box : sized box /\ fits box.
Proof. split; [exact box_sized|exact box_fits]. Qed.

(** In a run all energies are positive, and none is above the largest energy of the source and 20 MeV, the largest energy of a particle from a
    fission. *)
Theorem c63_run_energy : forall g bc pt geoms mats dom fuel cfuel (md : mcdata Rops) n s hs,
  built_domain g bc pt geoms mats dom -> sized g -> 0 <= td_dt (mc_track md) -> heavy (mc_track md) ->
  0 < sp_e_min (mc_params md) <= sp_e_max (mc_params md) ->
  run_log fuel cfuel md dom n s hs -> (n <= sp_n_steps (mc_params md))%N ->
  let top := Rmax (sp_e_max (mc_params md)) 20 in
  Forall (happens_lively top) hs /\ Forall (lively top) (processed (s_cont s)).
Proof. exact run_lively. Qed.
Print Assumptions c63_run_energy.

(** In a run each segment is flown straight, at the speed of the particle, for the time by which it ages, as long as nothing happened on an
    edge, and nothing but crossings and reflections on a face.  When that holds to the end, each particle of the next census is no further from the
    place where the source created a particle than light gets in the age of the particle. *)
Theorem c63_run_light : forall g bc pt geoms mats dom fuel cfuel (md : mcdata Rops) n s hs,
  built_domain g bc pt geoms mats dom -> sized g -> fits g -> 0 <= td_dt (mc_track md) -> heavy (mc_track md) ->
  0 < sp_e_min (mc_params md) <= sp_e_max (mc_params md) ->
  run_log fuel cfuel md dom n s hs -> (n <= sp_n_steps (mc_params md))%N ->
  (forall hs1 h hs2, hs = hs1 ++ h :: hs2 -> Forall (clean g) hs1 -> happens_swiftly h) /\
  (Forall (clean g) hs -> Forall (reached_from hs) (processed (s_cont s))).
Proof. exact run_light. Qed.
Print Assumptions c63_run_light.

(** A run of one cycle: in the box of 2x3x4 cells one particle is created in each cell and split, each copy flies to census, nothing happens on a
    face. *)
Example c63_run_case : exists pt dom s hs, built_domain box "octant" pt box_geoms box_mats dom /\ run_log 1 0 quiet_md dom 1 s hs /\
  Forall (clean box) hs /\ (48 <= List.length hs)%nat /\ (24 <= List.length (processed (s_cont s)))%nat /\
  0 <= td_dt (mc_track quiet_md) /\ heavy (mc_track quiet_md) /\
  0 < sp_e_min (mc_params quiet_md) <= sp_e_max (mc_params quiet_md) /\ (1 <= sp_n_steps (mc_params quiet_md))%N.
Proof.
  destruct box_init as (pt & dom & _ & D). destruct (quiet_run 0 0 pt dom D) as (s & hs & H1 & H2 & H3 & H4 & _). exists pt, dom, s, hs.
  split; [exact D|]. split; [exact H1|]. split; [exact H2|]. split; [exact H3|]. split; [exact H4|].
  split; [apply Rlt_le, quiet_dt_small|]. split; [constructor; [cbn [mat_mass]; lra|constructor]|].
  split; [cbn [mc_params quiet_md sp_e_min sp_e_max]; lra|vm_compute; discriminate].
Qed.
