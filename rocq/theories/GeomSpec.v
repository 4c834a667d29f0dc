(** Vocabulary for the claims about geometry, in exact arithmetic. *)
From Coq Require Import NArith ZArith List Bool Reals.
From Verif Require Import Float RealOps RngModel ParticleModel NuclearModel MeshTypes TrackModel CycleModel GridModel MeshModel GridSpec MeshSpec SegmentSpec.
Import ListNotations.
Local Open Scope R_scope.

Definition real_of (n : N) : R := IZR (Z.of_N n).

(** The cells have positive sizes. *)
Definition sized (g : grid Rops) : Prop := 0 < g_dx g /\ 0 < g_dy g /\ 0 < g_dz g.

(** A point given in units of the sides of a cell. *)
Definition grid_point (g : grid Rops) (a b c : R) : vec Rops := mkVec (K := Rops) (a * g_dx g) (b * g_dy g) (c * g_dz g).

(** The point is in the cell, faces included or not. *)
Definition in_cell (g : grid Rops) (t : N * N * N) (r : vec Rops) : Prop :=
  let '(x, y, z) := t in
  real_of x * g_dx g <= vx r <= (real_of x + 1) * g_dx g /\
  real_of y * g_dy g <= vy r <= (real_of y + 1) * g_dy g /\
  real_of z * g_dz g <= vz r <= (real_of z + 1) * g_dz g.
(** From its lower faces, included, to its upper faces. *)
Definition in_cell_half_open (g : grid Rops) (t : N * N * N) (r : vec Rops) : Prop :=
  let '(x, y, z) := t in
  real_of x * g_dx g <= vx r < (real_of x + 1) * g_dx g /\
  real_of y * g_dy g <= vy r < (real_of y + 1) * g_dy g /\
  real_of z * g_dz g <= vz r < (real_of z + 1) * g_dz g.

(** The middle of a cell. *)
Definition middle_of (g : grid Rops) (t : N * N * N) : vec Rops :=
  let '(x, y, z) := t in grid_point g (real_of x + / 2) (real_of y + / 2) (real_of z + / 2).

(** The 14 points of a cell, in halves of its sides: 8 corners and the centers of the 6 faces. *)
Definition cell_halves : list (N * N * N) :=
  [(0, 0, 0); (2, 0, 0); (0, 2, 0); (2, 2, 0); (0, 0, 2); (2, 0, 2); (0, 2, 2); (2, 2, 2);
   (2, 1, 1); (0, 1, 1); (1, 2, 1); (1, 0, 1); (1, 1, 2); (1, 1, 0)]%N.
Definition cell_point (g : grid Rops) (t : N * N * N) (j : nat) : vec Rops :=
  let '(x, y, z) := t in
  let '(a, b, c) := nth j cell_halves (0, 0, 0)%N in
  grid_point g (real_of x + real_of a / 2) (real_of y + real_of b / 2) (real_of z + real_of c / 2).

(** How far a point is beyond the face [f] of a cell (negative inside). *)
Definition beyond (g : grid Rops) (t : N * N * N) (f : nat) (r : vec Rops) : R :=
  let '(x, y, z) := t in
  match f with
  | 0%nat => vx r - (real_of x + 1) * g_dx g
  | 1%nat => real_of x * g_dx g - vx r
  | 2%nat => vy r - (real_of y + 1) * g_dy g
  | 3%nat => real_of y * g_dy g - vy r
  | 4%nat => vz r - (real_of z + 1) * g_dz g
  | _ => real_of z * g_dz g - vz r
  end.
(** The outward unit normal of a face. *)
Definition outward (f : nat) : vec Rops :=
  match f with
  | 0%nat => mkVec (K := Rops) 1 0 0 | 1%nat => mkVec (K := Rops) (-1) 0 0
  | 2%nat => mkVec (K := Rops) 0 1 0 | 3%nat => mkVec (K := Rops) 0 (-1) 0
  | 4%nat => mkVec (K := Rops) 0 0 1 | _ => mkVec (K := Rops) 0 0 (-1)
  end.

Definition dot (u v : vec Rops) : R := vx u * vx v + vy u * vy v + vz u * vz v.
Definition unit_vec (u : vec Rops) : Prop := dot u u = 1.
(** The part of [u] orthogonal to the unit vector [n]. *)
Definition tangential (n u : vec Rops) : vec Rops :=
  mkVec (K := Rops) (vx u - dot u n * vx n) (vy u - dot u n * vy n) (vz u - dot u n * vz n).

(** [r] is in the tetrahedron with these corners. *)
Definition in_tetrahedron (q0 q1 q2 q3 r : vec Rops) : Prop :=
  exists a b c d : R, 0 <= a /\ 0 <= b /\ 0 <= c /\ 0 <= d /\ a + b + c + d = 1 /\
    r = mkVec (K := Rops) (a * vx q0 + b * vx q1 + c * vx q2 + d * vx q3)
              (a * vy q0 + b * vy q1 + c * vy q2 + d * vy q3) (a * vz q0 + b * vz q1 + c * vz q2 + d * vz q3).

(** The domain built by the initialisation of one processor on grid [g]. *)
Definition built_domain {K : FloatOps} (g : grid K) (bc : String.string) (p : partition) (geoms : list (geometry_params K))
    (mats : list (material K)) (dom : domain K) : Prop :=
  partitioned g p /\ domain_new p g bc geoms mats = Ok dom.

(** Cell [i] of the domain. *)
Definition cell_at {K : FloatOps} (dom : domain K) (i : nat) (cs : cell_state K) : Prop := nth_error (d_cells dom) i = Some cs.

(** Square of the distance of two points. *)
Definition dist2 (u v : vec Rops) : R :=
  (vx u - vx v) * (vx u - vx v) + (vy u - vy v) * (vy u - vy v) + (vz u - vz v) * (vz u - vz v).
(** Center [i] is at minimal distance of [r]. *)
Definition is_nearest (centers : list (vec Rops)) (r : vec Rops) (i : N) : Prop :=
  exists c, nth_error centers (N.to_nat i) = Some c /\ forall c', In c' centers -> dist2 r c <= dist2 r c'.

(** Three points that define a plane. *)
Definition not_aligned (r0 r1 r2 : vec Rops) : Prop :=
  vcross (vsub r1 r0) (vsub r2 r0) <> mkVec (K := Rops) 0 0 0.
(** The normal of a plane. *)
Definition normal_of (pl : plane Rops) : vec Rops := mkVec (K := Rops) (pl_a pl) (pl_b pl) (pl_c pl).
(** Sine of the angle of a direction with the z axis. *)
Definition off_axis (u : vec Rops) : R := sqrt (1 - vz u * vz u).

(** [p] has just been created in its cell. *)
Definition starts_inside (g : grid Rops) (pt : partition) (md : mcdata Rops) (p : particle Rops) : Prop :=
  exists c r1 r2, local_to_global pt (N.to_nat (p_cell p)) c /\ in_cell g (cell_idx_to_tuple (g_dims g) c) (p_coordinate p) /\
    unit_vec (p_direction p) /\ 0 <= r1 <= 1 /\ 0 <= r2 <= 1 /\
    p_kinetic_energy p = r1 * (sp_e_max (mc_params md) - sp_e_min (mc_params md)) + sp_e_min (mc_params md) /\
    p_time_to_census p = td_dt (mc_track md) * r2 /\ p_domain p = 0%N /\ p_age p = 0.

(** The sides of the grid. *)
Definition box_ok (l : R) : Prop := 0 < l < IZR (2 ^ 64).
(** The three draws that place the center are below 1. *)
Definition center_draws_below_1 (seed : N) : Prop :=
  fsample (f := Rops) (rng_next (seed + 1)) < 1 /\ fsample (f := Rops) (rng_next (rng_next (seed + 1))) < 1 /\
  fsample (f := Rops) (rng_next (rng_next (rng_next (seed + 1)))) < 1.
(** Every cell has a known material. *)
Definition material_everywhere (d : dims) (lx ly lz : R) (geoms : list (geometry_params Rops)) (mats : list (material Rops)) : Prop :=
  forall t, cell_in d t -> exists name, find_material geoms (middle_of (grid_new (K := Rops) d lx ly lz) t) = Ok name /\ find_material_idx mats name <> None.
(** No two points of the list are further apart than [X] along an axis. *)
Definition spread (l : list (vec Rops)) (X : R) : Prop :=
  forall u v, In u l -> In v l -> vx u - vx v <= X /\ vy u - vy v <= X /\ vz u - vz v <= X.
