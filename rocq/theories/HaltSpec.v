(** Vocabulary for the claims about the length of tracks (C67), in exact arithmetic. *)
From Coq Require Import NArith ZArith List Bool Reals.
From Verif Require Import Float RealOps RngModel ParticleModel NuclearModel MeshTypes TrackModel CycleModel GridModel TrackSpec PopSpec SegmentSpec NuclearSpec GeomSpec StaySpec SpeedSpec LifeSpec ScheduleSpec RangeSpec.
Import ListNotations.
Local Open Scope R_scope.

(** What a particle and, after it, one of its descendants go through: after each segment one follows the particle, if it is still tracked, or one of the
    particles that the segment created.  The cross-section with which a segment is flown is that of the cell and of the group. *)
Inductive line (td : track_data Rops) (dom : domain Rops) : particle Rops -> list happening -> particle Rops -> Prop :=
| line_here : forall p, line td dom p [] p
| line_on : forall p e p1 nx hs q, seg_step td dom p e true p1 nx ->
    cell_cross_section td dom (p_cell p) (p_energy_group p) = Ok (p_total_cross_section p1) ->
    line td dom p1 hs q -> line td dom p (Flew p e p1 :: hs) q
| line_child : forall p e keep p1 nx c c' hs q, seg_step td dom p e keep p1 nx ->
    cell_cross_section td dom (p_cell p) (p_energy_group p) = Ok (p_total_cross_section p1) ->
    In c nx -> prepare_particle td c = Ok c' -> line td dom c' hs q -> line td dom p (Flew p e p1 :: hs) q.

(** The distance flown. *)
Definition flight (h : happening) : R :=
  match h with Born _ => 0 | Flew p _ p' => apart (p_coordinate p) (p_coordinate p') end.
Fixpoint path (hs : list happening) : R := match hs with [] => 0 | h :: hs => flight h + path hs end.

(** The number of crossings and reflections; of collisions. *)
Definition at_facet (h : happening) : bool := match h with Flew _ (SegFacet _) _ => true | _ => false end.
Definition at_collision (h : happening) : bool := match h with Flew _ (SegCollision _ _) _ => true | _ => false end.
Definition crossings (hs : list happening) : nat := length (filter at_facet hs).
Definition collisions (hs : list happening) : nat := length (filter at_collision hs).

(** No cross-section is above [X]. *)
Definition no_denser (td : track_data Rops) (dom : domain Rops) (X : R) : Prop :=
  forall cell group xs, cell_cross_section td dom cell group = Ok xs -> 0 <= xs <= X.

(** The number of cells that fit on a way of length [D], in the three directions. *)
Definition cells_within (g : grid Rops) (D : R) : R := D / g_dx g + D / g_dy g + D / g_dz g.
(** The number of collisions within a distance [D] is at most this. *)
Definition most_collisions (X D : R) : R := 1 + 2 ^ 53 * (X * D).
(** The number of segments within a time [T] is at most this: the distance is that of light. *)
Definition most_segments (g : grid Rops) (X T : R) : R :=
  let D := light_speed (K := Rops) * T in
  let C := most_collisions X D in
  cells_within g D + 3 * (C + 1) + C.

(** Every collision finds its partner: there are energy groups, and every cell holds a material whose cross-sections are given, not negative, and not all zero. *)
Record answered (td : track_data Rops) (dom : domain Rops) : Prop := {
  an_groups : (2 <= length (nd_energies (td_nuclear td)))%nat;
  an_cells : forall cell cs group xs, vec_get (d_cells dom) cell = Ok cs -> cell_cross_section td dom cell group = Ok xs ->
    0 < xs /\ cs_number_density cs <> 0 /\
    exists mat, vec_get (td_mats td) (cs_material cs) = Ok mat /\ material_data (td_nuclear td) group (mat_iso mat) /\
      Forall (fun pr => 0 <= sigma (cs_number_density cs) group pr) (partners (td_nuclear td) (mat_iso mat))
}.
(** Nothing happens on an edge between faces, and no collision at the very end of the cycle. *)
Definition regular (g : grid Rops) (h : happening) : Prop := clean g h /\ in_time h.

(** [n] rounds of tracking have been done (main.rs lines 328-341): in each the particles of the container are tracked, and those they create are the next ones. *)
Inductive after_rounds (fuel cfuel : nat) (md : mcdata Rops) : nat -> unit_state Rops -> container Rops -> unit_state Rops -> container Rops -> Prop :=
| ar_none : forall u c, after_rounds fuel cfuel md 0 u c u c
| ar_more : forall n u c u1 c1 u' c', is_done_processing c = false ->
    process_particles fuel cfuel md u (sort_processing c) (Ok (u1, c1)) ->
    after_rounds fuel cfuel md n u1 (clean_extra_vaults c1) u' c' ->
    after_rounds fuel cfuel md (S n) u c u' c'.

(** At the start of a round: a sound problem, particles in its cells with energies that are fine ([ok]), right arrays, and no particle waiting. *)
Record rested (ok : R -> Prop) (md : mcdata Rops) (u : unit_state Rops) (c : container Rops) : Prop := {
  re_sound : sound_problem md (u_domain u);
  re_placed : Forall (placed (K := Rops) ok (u_domain u)) (processing c);
  re_mem : sound_mem (mc_track md) (u_domain u) (sp_n_groups (mc_params md)) (u_mem u);
  re_extra : extra_particles c = []
}.
