(** Vocabulary for the claims about one segment: the facet ahead, the next event, the clock of a particle. *)
From Coq Require Import NArith ZArith QArith List Bool Reals.
From Verif Require Import Float RealOps RngModel ParticleModel NuclearModel MeshTypes Balance TrackModel CycleModel TrackSpec PopSpec.
Import ListNotations.
Local Open Scope N_scope.

Section Any.
Context {K : FloatOps}.

(** The tolerance on the position with respect to a plane (mct.rs lines 134-139). *)
Definition plane_tolerance (p : particle K) : F K :=
  let x := p_coordinate p in
  fmul (flit (1 # 10000000000000000)) (fadd (fadd (fmul (vx x) (vx x)) (fmul (vy x) (vy x))) (fmul (vz x) (vz x))).
(** The distances of a particle to the facets of its cell, from where it is. *)
Definition distances_now (m : mesh K) (p : particle K) (ds : list (F K)) : Prop :=
  exists planes, vec_get (me_geom m) (p_cell p) = Ok planes /\
    facet_distances m (p_cell p) (p_coordinate p) (p_direction p) (plane_tolerance p) 0 planes = Ok ds.
(** Two particles that differ at most by their position. *)
Definition same_but_place (p q : particle K) : Prop := exists x, q = set_coordinate p x.

(** The cross section found for a segment: that of the cache when there is one, or a new one. *)
Definition xs_found (td : track_data K) (dom : domain K) (ng : N) (m : mem K) (p : particle K) (xs : F K) : Prop :=
  exists v, nth_error (m_cache m) (N.to_nat (slot ng (p_cell p) (p_energy_group p))) = Some v /\
    if flt f0 v then xs = v else cell_cross_section td dom (p_cell p) (p_energy_group p) = Ok xs.

(** Every cell has the planes of its 24 facets. *)
Definition complete_geometry (m : mesh K) : Prop :=
  complete_mesh m /\ length (me_geom m) = length (me_conn m) /\ Forall (fun planes => length planes = 24%nat) (me_geom m).

End Any.

Local Open Scope R_scope.

Definition huge : R := @fhuge Rops.
Definition tiny : R := @ftiny Rops.

(** ** Facets (exact arithmetic) *)

(** [a x + b y + c z + d]: negative on the inner side of a facet of a convex cell. *)
Definition plane_value (pl : plane Rops) (x : vec Rops) : R :=
  pl_a pl * vx x + pl_b pl * vy x + pl_c pl * vz x + pl_d pl.
Definition normal_speed (pl : plane Rops) (u : vec Rops) : R := pl_a pl * vx u + pl_b pl * vy u + pl_c pl * vz u.
(** The point at distance [d] along [u]. *)
Definition along (x u : vec Rops) (d : R) : vec Rops :=
  mkVec (K := Rops) (vx x + vx u * d) (vy x + vy u * d) (vz x + vz u * d).

(** The facet with corners [fc] in the plane [pl] is hit at distance [d]: the particle flies out through
    the plane, it is not outside by more than the tolerance, and it meets the plane within the facet. *)
Definition hits (tol : R) (x u : vec Rops) (pl : plane Rops) (fc : vec Rops * vec Rops * vec Rops) (d : R) : Prop :=
  0 < normal_speed pl u /\
  (plane_value pl x <= 0 \/ plane_value pl x * plane_value pl x <= tol) /\
  plane_value pl (along x u d) = 0 /\
  dist_to_segment (along x u d) pl fc = true.

(** The nearest facet ahead given the distances [ds]: the last of those at the smallest positive
    distance; failing that, the first of those at the largest non positive distance, and the distance is
    taken as 0; failing that none, and the distance is huge. *)
Definition facet_choice (ds : list R) (i : N) (d : R) : Prop :=
  let at_ (j : N) (x : R) := nth_error ds (N.to_nat j) = Some x in
  (at_ i d /\ 0 < d < huge /\ (forall j x, at_ j x -> 0 < x -> d <= x) /\ (forall j, at_ j d -> (j <= i)%N)) \/
  ((forall j x, at_ j x -> 0 < x -> huge <= x) /\ d = 0 /\
   exists y, at_ i y /\ - huge < y <= 0 /\ (forall j x, at_ j x -> x <= 0 -> x <= y) /\ (forall j, at_ j y -> (i <= j)%N)) \/
  ((forall j x, at_ j x -> huge <= x \/ x <= - huge) /\ d = huge).

(** The barycentric coordinates of a point of the plane of a triangle. *)
Definition barycentric (q0 q1 q2 pt : vec Rops) (l0 l1 l2 : R) : Prop :=
  l0 + l1 + l2 = 1 /\
  vx pt = l0 * vx q0 + l1 * vx q1 + l2 * vx q2 /\
  vy pt = l0 * vy q0 + l1 * vy q1 + l2 * vy q2 /\
  vz pt = l0 * vz q0 + l1 * vz q1 + l2 * vz q2.

(** ** The next event (exact arithmetic) *)

(** The number of mean free paths left, drawn again when it is zero. *)
Definition paths_left (p : particle Rops) (n : R) : Prop :=
  (p_num_mean_free_paths p <> 0 /\ n = p_num_mean_free_paths p) \/
  (p_num_mean_free_paths p = 0 /\ n = - ln (next_draw p)).
(** Mean free path for a cross section. *)
Definition mean_path (xs : R) : R := if Req_EM_T xs 0 then huge else 1 / xs.

(** The first of the three events at distances [dc] (collision), [dz] (census), [df] (facet); in case of
    a tie collision before census before facet. *)
Definition first_event (dc dz df : R) (o : segment_outcome) (d : R) : Prop :=
  match o with
  | OutCollision => d = dc /\ dc <= dz /\ dc <= df
  | OutCensus => d = dz /\ dz < dc /\ dz <= df
  | OutFacetCrossing => d = df /\ df < dc /\ df < dz
  end.

(** ** The clock of a particle (exact arithmetic) *)

(** The time that will have passed for the particle at census. *)
Definition age_at_census (p : particle Rops) : R := p_age p + p_time_to_census p.
(** A particle that can be tracked: the remaining time and the number of mean free paths are not negative. *)
Definition on_time (p : particle Rops) : Prop := 0 <= p_time_to_census p /\ 0 <= p_num_mean_free_paths p.
(** From [p] to [q] no time was given back and none was added. *)
Definition later (p q : particle Rops) : Prop :=
  p_time_to_census q <= p_time_to_census p /\ p_age p <= p_age q /\ age_at_census q <= age_at_census p.
(** All the materials are heavier than a neutron: scattering never takes all the energy. *)
Definition heavy (td : track_data Rops) : Prop := Forall (fun mat : material Rops => 1 < mat_mass mat) (td_mats td).
