(** Data types of /repo/fastiron/src/geometry: facets.rs, mc_location.rs, mc_domain.rs,
    mc_cell_state.rs, and the accessors used while tracking. *)
From Coq Require Import NArith QArith List Bool.
From Verif Require Import Float ParticleModel.
Import ListNotations.
Local Open Scope N_scope.
Local Open Scope float_scope.

(** facets.rs lines 98-115, [MCSubfacetAdjacencyEvent]. *)
Inductive adj_event : Set :=
| AdjacencyUndefined | BoundaryEscape | BoundaryReflection | TransitOnProcessor | TransitOffProcessor.

(** mc_location.rs lines 10-18, [MCLocation]. *)
Record location : Set := mkLocation {
  loc_domain : option N; loc_cell : option N; loc_facet : option N }.

(** facets.rs lines 122-135 and 139-145, [SubfacetAdjacency] and [MCFacetAdjacency]
    (the latter is the former plus the three point indices). *)
Record facet_adj : Set := mkFacetAdj {
  fa_event : adj_event;
  fa_current : location;
  fa_adjacent : location;
  fa_neighbor_index : option N;
  fa_neighbor_global_domain : option N;
  fa_neighbor_foreman : option N;
  fa_point : N * N * N
}.

(** facets.rs lines 149-152, [MCFacetAdjacencyCell]; the arrays of 24 facets and
    14 points are lists. *)
Record cell_conn : Set := mkCellConn { cc_facet : list facet_adj; cc_point : list N }.

(** mod.rs lines 29-34. *)
Definition N_FACETS_OUT : N := 24.
Definition N_POINTS_INTERSEC : N := 14.

Section MeshTypes.
Context {K : FloatOps}.

(** facets.rs lines 18-27, [MCGeneralPlane]. *)
Record plane : Type := mkPlane { pl_a : F K; pl_b : F K; pl_c : F K; pl_d : F K }.

(** facets.rs lines 32-58, [MCGeneralPlane::new]; the slice has three points
    (array of 3 at the only call, line 160-161), so the assertion of line 34 holds. *)
Definition plane_new (r0 r1 r2 : vec K) : plane :=
  let a := ((vy r1 -. vy r0) *. (vz r2 -. vz r0)) -. ((vz r1 -. vz r0) *. (vy r2 -. vy r0)) in
  let b := ((vz r1 -. vz r0) *. (vx r2 -. vx r0)) -. ((vx r1 -. vx r0) *. (vz r2 -. vz r0)) in
  let c := ((vx r1 -. vx r0) *. (vy r2 -. vy r0)) -. ((vy r1 -. vy r0) *. (vx r2 -. vx r0)) in
  let d := (-. f1) *. (a *. vx r0 +. b *. vy r0 +. c *. vz r0) in
  let magnitude := fsqrt (a *. a +. b *. b +. c *. c) in
  if magnitude ==. f0 then mkPlane f1 b c d
  else mkPlane (a /. magnitude) (b /. magnitude) (c /. magnitude) (d /. magnitude).

(** mc_domain.rs lines 70-83, [MCMeshDomain]; [nbr_domain_gid] and [nbr_rank] are
    written by the constructor and never read afterwards, they are left out. *)
Record mesh : Type := mkMesh {
  me_domain_gid : N;
  me_node : list (vec K);
  me_conn : list cell_conn;
  me_geom : list (list plane)
}.

(** mc_cell_state.rs lines 11-22, [MCCellState]. *)
Record cell_state : Type := mkCellState {
  cs_material : N;
  cs_volume : F K;
  cs_number_density : F K;
  cs_id : N;
  cs_source_tally : N
}.

(** mc_domain.rs lines 150-157, [MCDomain]. *)
Record domain : Type := mkDomain {
  d_global_domain : N;
  d_cells : list cell_state;
  d_mesh : mesh
}.

(** mc_domain.rs lines 134-145, [get_facet_coords]. *)
Definition get_facet_coords (m : mesh) (cell_idx facet_idx : N) : result (vec K * vec K * vec K) :=
  do conn <- vec_get (me_conn m) cell_idx ;
  do fa <- vec_get (cc_facet conn) facet_idx ;
  let '(i0, i1, i2) := fa_point fa in
  do p0 <- vec_get (me_node m) i0 ;
  do p1 <- vec_get (me_node m) i1 ;
  do p2 <- vec_get (me_node m) i2 ;
  Ok (p0, p1, p2).

(** mct.rs lines 90-100, [cell_position_3dg]. *)
Definition cell_position_3dg (m : mesh) (cell_idx : N) : result (vec K) :=
  do conn <- vec_get (me_conn m) cell_idx ;
  do pts <- rmap (fun i => vec_get (me_node m) i) (cc_point conn) ;
  vdiv (vsum pts) (fof_N N_POINTS_INTERSEC).

End MeshTypes.
Arguments plane : clear implicits.
Arguments mesh : clear implicits.
Arguments cell_state : clear implicits.
Arguments domain : clear implicits.
