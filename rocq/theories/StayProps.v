(** Claims about where particles are (C59), in exact arithmetic. *)
From Coq Require Import NArith ZArith List Bool String Reals Lra Lia.
From Verif Require Import Float RealOps RngModel ParticleModel NuclearModel MeshTypes Balance TrackModel CycleModel GridModel MeshModel
  GridSpec MeshSpec TrackSpec CycleSpec PopSpec SegmentSpec GeomSpec GeomDemo PopDemo SegmentDemo StaySpec StayRun StayDemo QuietRun QuietTrack.
Import ListNotations.
Local Open Scope R_scope.

(** A particle that is in its cell and not about to leave it is in its cell at the end of each segment of its track, as long as no
    collision or census happened on a face and no crossing or reflection on an edge.  When none did in the whole track, the particle, if it is
    still tracked, and the particles created on the way are in their cells, not about to leave them. *)
Theorem c59_track_stays : forall g bc pt td (dom : domain Rops) p hs p' nx,
  built g bc pt (d_mesh dom) -> sized g -> fits g -> flying g pt p -> track_log td dom p hs p' nx ->
  (forall hs1 h hs2, hs = hs1 ++ h :: hs2 -> Forall (clean g) hs1 -> happens_at_home g pt h) /\
  (Forall (clean g) hs -> (is_valid p' = true -> flying g pt p') /\ Forall (flying g pt) nx).
Proof. exact track_stays. Qed.
Print Assumptions c59_track_stays.

(** A track that crosses a face and ends inside the next cell. *)
Example c59_track_case : forall td, exists pt dom p p1 p2, built_domain box "octant" pt box_geoms box_mats dom /\ flying box pt p /\
  track_log td dom p [Flew p (SegFacet TransitOnProcessor) p1; Flew p1 SegCensus p2] p2 [] /\
  Forall (clean box) [Flew p (SegFacet TransitOnProcessor) p1; Flew p1 SegCensus p2] /\ p_kinetic_energy p = neutron_mass_energy (K := Rops).
Proof. exact straight_track. Qed.
Example c59_box : sized box /\ fits box.
Proof. split; [exact box_sized|exact box_fits]. Qed.

(** The log of a run exists: the particles created by the source, and each segment of each track. *)
Theorem c59_run_logged : forall fuel cfuel (md : mcdata Rops) d n s,
  run_steps fuel cfuel md (initial_sim md d) n (Ok s) -> (n <= sp_n_steps (mc_params md))%N ->
  exists hs, run_log fuel cfuel md d n s hs.
Proof. intros fuel cfuel md d n s H Hn. exact (run_has_log _ _ _ _ _ _ H _ eq_refl Hn). Qed.
Print Assumptions c59_run_logged.

(** In a run, everything happens in the cell of the particle, as long as nothing happened on an edge, and nothing but crossings and
    reflections on a face. *)
Theorem c59_run_stays : forall g bc pt, sized g -> fits g ->
  forall geoms mats dom fuel cfuel (md : mcdata Rops) n s hs, built_domain g bc pt geoms mats dom -> 0 <= td_dt (mc_track md) ->
  (n <= sp_n_steps (mc_params md))%N -> run_log fuel cfuel md dom n s hs ->
  (forall hs1 h hs2, hs = hs1 ++ h :: hs2 -> Forall (clean g) hs1 -> happens_at_home g pt h) /\
  (Forall (clean g) hs -> Forall (at_home g pt) (processed (s_cont s))).
Proof. exact run_stays. Qed.
Print Assumptions c59_run_stays.

(** A run of one cycle: in the box of 2x3x4 cells one particle is created in each cell and split, each copy flies to census, nothing happens on a
    face. *)
Example c59_run_case : exists pt dom s hs, built_domain box "octant" pt box_geoms box_mats dom /\ run_log 1 0 quiet_md dom 1 s hs /\
  Forall (clean box) hs /\ (48 <= List.length hs)%nat /\ (24 <= List.length (processed (s_cont s)))%nat /\
  0 <= td_dt (mc_track quiet_md) /\ (1 <= sp_n_steps (mc_params quiet_md))%N.
Proof.
  destruct box_init as (pt & dom & _ & D). destruct (quiet_run 0 0 pt dom D) as (s & hs & H1 & H2 & H3 & H4 & _). exists pt, dom, s, hs.
  split; [exact D|]. split; [exact H1|]. split; [exact H2|]. split; [exact H3|]. split; [exact H4|].
  split; [apply Rlt_le, quiet_dt_small|vm_compute; discriminate].
Qed.

(** The condition on edges is needed: a particle that is in its cell and not about to leave it crosses a face at an edge, is then in
    the next cell, and is outside of its cell at the end of the second segment.  It flies so close to the direction of the edge's other face
    that the facet ahead is accepted, by the tolerance of the test, although the point where it is hit is outside of the facet. *)
Theorem c59_past_an_edge_refuted : forall td, exists pt dom p p1 p2, built_domain box "octant" pt box_geoms box_mats dom /\ flying box pt p /\
  track_log td dom p [Flew p (SegFacet TransitOnProcessor) p1; Flew p1 SegCensus p2] p2 [] /\ at_home box pt p1 /\ ~ at_home box pt p2.
Proof. exact leaning_track. Qed.
Print Assumptions c59_past_an_edge_refuted.
