(** Vocabulary for the claims about where particles are (C59), in exact arithmetic. *)
From Coq Require Import NArith ZArith List Bool Reals Permutation.
From Verif Require Import Float RealOps RngModel ParticleModel NuclearModel MeshTypes TrackModel CycleModel GridModel MeshModel
  GridSpec MeshSpec TrackSpec CycleSpec PopSpec SegmentSpec GeomSpec.
Import ListNotations.
Local Open Scope R_scope.

(** The cells are not as large as the distance that stands for "none". *)
Definition fits (g : grid Rops) : Prop := g_dx g + g_dy g + g_dz g < huge.

(** The point is on a plane of the grid orthogonal to an axis. *)
Definition on_x_plane (g : grid Rops) (r : vec Rops) : Prop := exists n : N, vx r = real_of n * g_dx g.
Definition on_y_plane (g : grid Rops) (r : vec Rops) : Prop := exists n : N, vy r = real_of n * g_dy g.
Definition on_z_plane (g : grid Rops) (r : vec Rops) : Prop := exists n : N, vz r = real_of n * g_dz g.
(** On no face of a cell; on no edge of a cell. *)
Definition off_faces (g : grid Rops) (r : vec Rops) : Prop := ~ on_x_plane g r /\ ~ on_y_plane g r /\ ~ on_z_plane g r.
Definition off_edges (g : grid Rops) (r : vec Rops) : Prop :=
  ~ (on_x_plane g r /\ on_y_plane g r) /\ ~ (on_x_plane g r /\ on_z_plane g r) /\ ~ (on_y_plane g r /\ on_z_plane g r).

(** The particle is in the cell it says, faces included. *)
Definition at_home (g : grid Rops) (pt : partition) (p : particle Rops) : Prop :=
  exists c, local_to_global pt (N.to_nat (p_cell p)) c /\ in_cell g (cell_idx_to_tuple (g_dims g) c) (p_coordinate p).
(** Flying along [u] from [x] does not leave the cell at once. *)
Definition stays_a_while (g : grid Rops) (t : N * N * N) (x u : vec Rops) : Prop :=
  forall f, (f < 6)%nat -> beyond g t f x = 0 -> dot u (outward f) <= 0.
(** In its cell, not about to leave it, with a unit direction and a time and a number of mean free paths that are not negative. *)
Definition flying (g : grid Rops) (pt : partition) (p : particle Rops) : Prop :=
  (exists c, local_to_global pt (N.to_nat (p_cell p)) c /\ in_cell g (cell_idx_to_tuple (g_dims g) c) (p_coordinate p) /\
     stays_a_while g (cell_idx_to_tuple (g_dims g) c) (p_coordinate p) (p_direction p)) /\
  unit_vec (p_direction p) /\ on_time p.

(** The particle reaches face [f] of the cell [t] and no other before. *)
Definition leaves_by (g : grid Rops) (t : N * N * N) (x u : vec Rops) (f : nat) (d : R) : Prop :=
  (f < 6)%nat /\ 0 < dot u (outward f) /\ beyond g t f (along x u d) = 0 /\
  forall d', 0 <= d' <= d -> in_cell g t (along x u d').

(** ** The history of a run *)

(** What happens: a particle is created by the source, or flies a segment that ends with an event. *)
Inductive happening : Type :=
| Born : particle Rops -> happening
| Flew : particle Rops -> seg_event -> particle Rops -> happening.

(** Nothing happens on an edge, and nothing but crossings and reflections on a face. *)
Definition clean (g : grid Rops) (h : happening) : Prop :=
  match h with
  | Born p => off_faces g (p_coordinate p)
  | Flew _ (SegFacet _) p' => off_edges g (p_coordinate p')
  | Flew _ _ p' => off_faces g (p_coordinate p')
  end.
(** What happens, happens in the cell of the particle. *)
Definition happens_at_home (g : grid Rops) (pt : partition) (h : happening) : Prop :=
  match h with Born p => at_home g pt p | Flew p _ p' => at_home g pt p /\ at_home g pt p' end.

(** The segments of a track, and of all the tracks of a cycle. *)
Inductive track_log (td : track_data Rops) (dom : domain Rops)
  : particle Rops -> list happening -> particle Rops -> list (particle Rops) -> Prop :=
| tl_last : forall p e p' nx, seg_step td dom p e false p' nx -> track_log td dom p [Flew p e p'] p' nx
| tl_more : forall p e p1 nx1 hs p' nx2, seg_step td dom p e true p1 nx1 -> track_log td dom p1 hs p' nx2 ->
    track_log td dom p (Flew p e p1 :: hs) p' (nx1 ++ nx2).
Inductive slice_log (td : track_data Rops) (dom : domain Rops)
  : list (particle Rops) -> list happening -> list (particle Rops) -> list (particle Rops) -> Prop :=
| sl_nil : slice_log td dom [] [] [] []
| sl_cons : forall p q p' ps ps' h hs nx nxs, prepare_particle td p = Ok q -> track_log td dom q h p' nx ->
    slice_log td dom ps hs ps' nxs -> slice_log td dom (p :: ps) (h ++ hs) (p' :: ps') (nx ++ nxs).
Inductive rounds_log (td : track_data Rops) (dom : domain Rops)
  : list (particle Rops) -> list happening -> list (particle Rops) -> Prop :=
| rl_done : rounds_log td dom [] [] []
| rl_more : forall ps ps0 ps1 h nxs next hs kept, Permutation ps ps0 -> slice_log td dom ps0 h ps1 nxs ->
    Permutation next nxs -> rounds_log td dom next hs kept ->
    rounds_log td dom ps (h ++ hs) (filter is_valid ps1 ++ kept).

(** The log of the first [n] cycles of a run: at each cycle the particles created by the source, then the tracks of the particles
    that population control leaves. *)
Inductive run_log (fuel cfuel : nat) (md : mcdata Rops) (d : domain Rops) : N -> sim Rops -> list happening -> Prop :=
| lg_start : run_log fuel cfuel md d 0 (initial_sim md d) []
| lg_cycle : forall n s hs s1 u0 c0 born u c hs' s2, run_log fuel cfuel md d n s hs ->
    cycle_sync md n s = Ok s1 ->
    source_now md (s_source_weight s1) (s_unit s1) (s_cont s1) = Ok (u0, c0) ->
    processing c0 = processing (s_cont s1) ++ born ->
    population_phase md s1 = Ok (u, c) ->
    cycle_process fuel cfuel md s1 (Ok s2) ->
    rounds_log (mc_track md) (u_domain u) (processing c) hs' (processed (s_cont s2)) ->
    run_log fuel cfuel md d (N.succ n) s2 (hs ++ map Born born ++ hs').
