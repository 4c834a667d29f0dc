(** Model of the construction of the mesh: /repo/fastiron/src/geometry/mesh_partition.rs,
    mc_domain.rs and the mesh part of init.rs. *)
From Coq Require Import NArith ZArith QArith List Bool String.
From Verif Require Import Float RngModel ParticleModel NuclearModel MeshTypes CycleModel GridModel AssignModel.
Import ListNotations.
Local Open Scope N_scope.
Local Open Scope float_scope.

(** mc_domain.rs lines 37-62, [NODE_INDIRECT]. *)
Definition NODE_INDIRECT : list (N * N * N) :=
  [(1, 3, 8); (3, 7, 8); (7, 5, 8); (5, 1, 8);
   (0, 4, 9); (4, 6, 9); (6, 2, 9); (2, 0, 9);
   (3, 2, 10); (2, 6, 10); (6, 7, 10); (7, 3, 10);
   (0, 1, 11); (1, 5, 11); (5, 4, 11); (4, 0, 11);
   (4, 5, 12); (5, 7, 12); (7, 6, 12); (6, 4, 12);
   (0, 2, 13); (2, 3, 13); (3, 1, 13); (1, 0, 13)].

(** mc_domain.rs lines 64-66, [OPPOSING_FACET]. *)
Definition OPPOSING_FACET : list N :=
  [7; 6; 5; 4; 3; 2; 1; 0; 12; 15; 14; 13; 8; 11; 10; 9; 20; 23; 22; 21; 16; 19; 18; 17].

(** mesh_partition.rs lines 160-190, [NBR_COORDS]. *)
Definition NBR_COORDS : list (Z * Z * Z) :=
  [(-1, -1, -1); (-1, -1, 0); (-1, -1, 1); (-1, 0, -1); (-1, 0, 0); (-1, 0, 1); (-1, 1, -1); (-1, 1, 0); (-1, 1, 1);
   (0, -1, -1); (0, -1, 0); (0, -1, 1); (0, 0, -1); (0, 0, 1); (0, 1, -1); (0, 1, 0); (0, 1, 1);
   (1, -1, -1); (1, -1, 0); (1, -1, 1); (1, 0, -1); (1, 0, 0); (1, 0, 1); (1, 1, -1); (1, 1, 0); (1, 1, 1)]%Z.

(** A hash map with usize keys (FxHashMap<usize, _>): an association list with distinct keys. *)
Fixpoint assoc {A} (m : list (N * A)) (key : N) : option A :=
  match m with
  | [] => None
  | (k, v) :: m => if k =? key then Some v else assoc m key
  end.
(** [map.entry(key).or_insert(v)]. *)
Definition or_insert {A} (m : list (N * A)) (key : N) (v : A) : list (N * A) :=
  match assoc m key with Some _ => m | None => m ++ [(key, v)] end.
(** [set.contains(&x)]. *)
Definition mem_N (x : N) (l : list N) : bool := existsb (N.eqb x) l.

(** mesh_partition.rs lines 20-30, [CellInfo]. *)
Record cell_info : Set := mkCellInfo {
  ci_domain_gid : option N; ci_foreman : option N; ci_domain_index : option N; ci_cell_index : option N }.

(** mesh_partition.rs lines 36-45, [MeshPartition].  The map is the list of its entries in the
    order in which the hash map iterates over them. *)
Record partition : Set := mkPartition {
  pt_domain_gid : N;
  pt_foreman : N;
  pt_cells : list (N * cell_info);
  pt_nbr_domains : list N
}.

(** mesh_partition.rs lines 203-209. *)
Definition flood_push (st : list N * list N) (nbr : N) : list N * list N :=
  let (queue, wet) := st in
  if mem_N nbr wet then (queue, wet) else (queue ++ [nbr], nbr :: wet).
(** mesh_partition.rs lines 153-209, [add_nbrs_to_flood], on the queue and the wet set. *)
Definition add_nbrs_to_flood (d : dims) (cell_idx : N) (st : list N * list N) : result (list N * list N) :=
  do nbrs <- rmap (offset_cell d (cell_idx_to_tuple d cell_idx)) NBR_COORDS ;
  Ok (fold_left flood_push nbrs st).

(** mesh_partition.rs lines 117-131: local numbering, in iteration order.  The
    other branch (lines 132-150) collects the cells to send to other partitions; it is left out, since
    with one unit every cell is local ([MeshFacts.one_center_local]). *)
Fixpoint build_cell_idx_map (gid foreman n : N) (m : list (N * N)) : list (N * cell_info) :=
  match m with
  | [] => []
  | (cell, dom) :: m =>
      if dom =? gid
      then (cell, mkCellInfo (Some dom) (Some foreman) (Some gid) (Some n)) :: build_cell_idx_map gid foreman (n + 1) m
      else (cell, mkCellInfo (Some dom) None None None) :: build_cell_idx_map gid foreman n m
  end.

(** mc_domain.rs lines 256-291, [bootstrap_node_map]: [or_insert_with(|| len)]. *)
Definition number_node (m : list (N * N)) (gid : N) : list (N * N) := or_insert m gid (N.of_nat (List.length m)).
Fixpoint bootstrap_loop (d : dims) (gid : N) (cells : list (N * cell_info)) (corners faces : list (N * N))
  : result (list (N * N) * list (N * N)) :=
  match cells with
  | [] => Ok (corners, faces)
  | (k, v) :: cells =>
      do dg <- unwrap (ci_domain_gid v) ;
      if negb (dg =? gid) then bootstrap_loop d gid cells corners faces
      else
        let gids := get_node_gids d k in
        bootstrap_loop d gid cells (fold_left number_node (firstn 8 gids) corners)
                                   (fold_left number_node (skipn 8 gids) faces)
  end.
(** lines 281-290; [extend] inserts every entry, replacing the value of
    a key already present ([MeshFacts] shows that none is).  Here the entries are appended, which is
    the same when the keys are distinct. *)
Definition bootstrap_node_map (d : dims) (p : partition) : result (list (N * N)) :=
  do (corners, faces) <- bootstrap_loop d (pt_domain_gid p) (pt_cells p) [] [] ;
  let n := N.of_nat (List.length corners) in
  Ok (corners ++ map (fun e => (fst e, snd e + n)) faces).

(** mc_domain.rs lines 27-35, [FaceInfo]. *)
Record face_info : Set := mkFaceInfo { fi_event : adj_event; fi_cell_info : cell_info; fi_nbr_idx : option N }.

(** mc_domain.rs lines 302-306, [nbr_domain_idx]: later insertions win. *)
Definition nbr_domain_idx (gid : N) (nbr_domain : list N) (dom : N) : result (option N) :=
  if dom =? gid then Ok None
  else do i <- unwrap (assoc (rev (combine nbr_domain (nrange 0 (List.length nbr_domain)))) dom) ; Ok (Some i).

Definition opt_N_eqb (a b : option N) : bool :=
  match a, b with Some x, Some y => x =? y | None, None => true | _, _ => false end.

(** mc_domain.rs lines 327-340: one face of a cell. *)
Definition make_face (p : partition) (boundary : list adj_event) (cell_gid : N) (info : cell_info) (ii nbr : N)
  : result face_info :=
  do fc <- unwrap (assoc (pt_cells p) nbr) ;
  do dg <- unwrap (ci_domain_gid fc) ;
  do idx <- nbr_domain_idx (pt_domain_gid p) (pt_nbr_domains p) dg ;
  do ev <- (if nbr =? cell_gid then vec_get boundary ii
            else if opt_N_eqb (ci_foreman fc) (ci_foreman info) then Ok TransitOnProcessor
            else Ok TransitOffProcessor) ;
  Ok (mkFaceInfo ev fc idx).

(** mc_domain.rs lines 366-393, [make_facet]. *)
Definition make_facet (dom_idx cell_idx : option N) (node_idx : list N) (faces : list face_info) (facet_id : N)
  : result facet_adj :=
  let face_id := facet_id / 4 in
  do (i0, i1, i2) <- vec_get NODE_INDIRECT facet_id ;
  do p0 <- vec_get node_idx i0 ;
  do p1 <- vec_get node_idx i1 ;
  do p2 <- vec_get node_idx i2 ;
  do fi <- vec_get faces face_id ;
  do opp <- vec_get OPPOSING_FACET facet_id ;
  let cur := mkLocation dom_idx cell_idx (Some facet_id) in
  let adj_facet := match fi_event fi with
                   | BoundaryReflection | BoundaryEscape => Some facet_id
                   | _ => Some opp
                   end in
  let adj := mkLocation (ci_domain_index (fi_cell_info fi)) (ci_cell_index (fi_cell_info fi)) adj_facet in
  Ok (mkFacetAdj (fi_event fi) cur adj (fi_nbr_idx fi) (ci_domain_gid (fi_cell_info fi))
                 (ci_foreman (fi_cell_info fi)) (p0, p1, p2)).

(** mc_domain.rs lines 316-360: one cell. *)
Definition build_cell (d : dims) (nodes : list (N * N)) (p : partition) (boundary : list adj_event)
    (cell_gid : N) (info : cell_info) : result cell_conn :=
  do point <- rmap (fun g => unwrap (assoc nodes g)) (get_node_gids d cell_gid) ;
  do nbrs <- get_face_nbr_gids d cell_gid ;
  do faces <- rmap (fun '(ii, nbr) => make_face p boundary cell_gid info ii nbr) (combine (nrange 0 6) nbrs) ;
  do facets <- rmap (make_facet (ci_domain_index info) (ci_cell_index info) point faces) (nrange 0 24) ;
  Ok (mkCellConn facets point).

(** mc_domain.rs lines 294-363, [build_cells]. *)
Definition build_cells (d : dims) (nodes : list (N * N)) (p : partition) (boundary : list adj_event)
  : result (list cell_conn) :=
  rmap (fun '(cell_gid, info) => build_cell d nodes p boundary cell_gid info)
       (filter (fun e => opt_N_eqb (ci_domain_gid (snd e)) (Some (pt_domain_gid p))) (pt_cells p)).

(** mc_domain.rs lines 396-412, [get_boundary_conditions]; the last case is [unreachable!()]. *)
Definition get_boundary_conditions (s : string) : result (list adj_event) :=
  if String.eqb s "reflect" then Ok (repeat BoundaryReflection 6)
  else if String.eqb s "escape" then Ok (repeat BoundaryEscape 6)
  else if String.eqb s "octant" then
    Ok [BoundaryEscape; BoundaryReflection; BoundaryEscape; BoundaryReflection; BoundaryEscape; BoundaryReflection]
  else Panic.

(** init.rs lines 183-220, [consistency_check], for one unit. *)
Definition check_facet (conns : list cell_conn) (cell_idx facet_idx : N) (ff : facet_adj) : result unit :=
  do c <- unwrap (loc_cell (fa_current ff)) ;
  do _ <- rassert (c =? cell_idx) ;
  match loc_domain (fa_adjacent ff), loc_cell (fa_adjacent ff), loc_facet (fa_adjacent ff) with
  | Some dom, Some cell, Some facet =>
      do conns <- vec_get [conns] dom ;
      do back <- vec_get conns cell ;
      do bf <- vec_get (cc_facet back) facet ;
      do d <- unwrap (loc_domain (fa_adjacent bf)) ;
      do c <- unwrap (loc_cell (fa_adjacent bf)) ;
      do f <- unwrap (loc_facet (fa_adjacent bf)) ;
      rassert ((d =? 0) && (c =? cell_idx) && (f =? facet_idx))
  | _, _, _ => Ok tt
  end.
Definition enumerate {A} (l : list A) : list (N * A) := combine (nrange 0 (List.length l)) l.
Definition consistency_check (conns : list cell_conn) : result unit :=
  rfold (fun _ '(cell_idx, cc) =>
           rfold (fun _ '(facet_idx, ff) => check_facet conns cell_idx facet_idx ff) (enumerate (cc_facet cc)) tt)
        (enumerate conns) tt.

Section Mesh.
Context {K : FloatOps}.

Definition set_burned (a : gao K) (b : list bool) : gao K :=
  mkGao (ga_nx a) (ga_ny a) (ga_nz a) (ga_dx a) (ga_dy a) (ga_dz a) (ga_corner a) (ga_centers a) (ga_my_centers a) b.

(** mesh_partition.rs lines 85-103: the loop of [assign_cells_to_domain].  The map is the
    list of entries in insertion order. *)
Fixpoint flood_loop (fuel : nat) (gid : N) (g : grid K) (a : gao K) (st : list N * list N)
    (m : list (N * N)) (nbrs : list N) : result (list (N * N) * list N) :=
  match fst st with
  | [] => Ok (m, nbrs)
  | cell :: queue =>
      match fuel with
      | O => NoFuel
      | S fuel =>
          do rr <- cell_center g cell ;
          do (dom, burned) <- nearest_center a rr ;
          let a := set_burned a burned in
          let m := or_insert m cell dom in
          if dom =? gid
          then do st <- add_nbrs_to_flood (g_dims g) cell (queue, snd st) ;
               flood_loop fuel gid g a st m nbrs
          else flood_loop fuel gid g a (queue, snd st) m (if mem_N dom nbrs then nbrs else nbrs ++ [dom])
      end
  end.

Definition n_cells (d : dims) : N := nx d * ny d * nz d.

(** mesh_partition.rs lines 70-104, [assign_cells_to_domain].  Every cell enters the queue once,
    and the root may be outside of the grid: the fuel is always enough ([MeshFacts]). *)
Definition assign_cells (gid : N) (g : grid K) (centers : list (vec K)) : result (list (N * N) * list N) :=
  do a <- gao_new centers ;
  do c <- vec_get centers gid ;
  do root <- which_cell g c ;
  do st <- add_nbrs_to_flood (g_dims g) root ([root], [root]) ;
  flood_loop (S (S (N.to_nat (n_cells (g_dims g))))) gid g a st [] [].

(** mesh_partition.rs lines 59-68, [build_mesh_partition].  [order] is the iteration order of the
    hash map: the entries, in some order.  The map is not restructured between
    the construction and the loops over it, so that the order is the same in all of them. *)
Definition build_mesh_partition (order : list (N * N) -> list (N * N)) (gid foreman : N) (g : grid K)
    (centers : list (vec K)) : result partition :=
  do (m, nbrs) <- assign_cells gid g centers ;
  Ok (mkPartition gid foreman (build_cell_idx_map gid foreman 0 (order m)) nbrs).

(** mc_domain.rs lines 111-114: the coordinates of the nodes.  The code visits the entries in
    hash order; the entries have distinct indices, so the order does not matter. *)
Definition place_node (g : grid K) (nodes : list (vec K)) (e : N * N) : result (list (vec K)) :=
  do c <- node_coord_from_idx g (fst e) ;
  do _ <- vec_get nodes (snd e) ;
  Ok (list_set nodes (N.to_nat (snd e)) c).

(** facets.rs lines 155-163, [get_planes]. *)
Definition get_planes (node : list (vec K)) (cc : cell_conn) : result (list (plane K)) :=
  rmap (fun fa => let '(i0, i1, i2) := fa_point fa in
                  do p0 <- vec_get node i0 ;
                  do p1 <- vec_get node i1 ;
                  do p2 <- vec_get node i2 ;
                  Ok (plane_new p0 p1 p2)) (cc_facet cc).

(** mc_domain.rs lines 87-132, [MCMeshDomain::new]. *)
Definition mesh_new (p : partition) (g : grid K) (boundary : list adj_event) : result (mesh K) :=
  do nodes <- bootstrap_node_map (g_dims g) p ;
  do conn <- build_cells (g_dims g) nodes p boundary ;
  do node <- rfold (place_node g) nodes (repeat vzero (List.length nodes)) ;
  do geom <- rmap (get_planes node) conn ;
  Ok (mkMesh (pt_domain_gid p) node conn geom).

(** parameters.rs lines 49-58, [Shape]. *)
Inductive shape : Set := ShUndefined | Brick | Sphere.
(** parameters.rs lines 64-91, [GeometryParameters]. *)
Record geometry_params : Type := mkGeomParams {
  gp_material_name : string;
  gp_shape : shape;
  gp_radius : F K;
  gp_x_center : F K; gp_y_center : F K; gp_z_center : F K;
  gp_x_min : F K; gp_y_min : F K; gp_z_min : F K;
  gp_x_max : F K; gp_y_max : F K; gp_z_max : F K
}.

(** mc_domain.rs lines 204-222, [is_inside]. *)
Definition is_inside (geom : geometry_params) (rr : vec K) : result bool :=
  match gp_shape geom with
  | Brick =>
      let in_x := (vx rr >=. gp_x_min geom) && (vx rr <=. gp_x_max geom) in
      let in_y := (vy rr >=. gp_y_min geom) && (vy rr <=. gp_y_max geom) in
      let in_z := (vz rr >=. gp_z_min geom) && (vz rr <=. gp_z_max geom) in
      Ok (in_x && in_y && in_z)
  | Sphere =>
      let center := mkVec (gp_x_center geom) (gp_y_center geom) (gp_z_center geom) in
      Ok (vlength (vsub rr center) <=. gp_radius geom)
  | ShUndefined => Panic
  end.

(** mc_domain.rs lines 191-202, [find_material]. *)
Definition find_material (geoms : list geometry_params) (rr : vec K) : result string :=
  rfold (fun name geom => do b <- is_inside geom rr ;
                          Ok (if (b : bool) then gp_material_name geom else name)) (rev geoms) ""%string.

(** mc_domain.rs lines 235-253, [cell_volume].  [cell_center] (lines 226-232) is the
    same computation as [cell_position_3dg]. *)
Definition facet_volume (node : list (vec K)) (center : vec K) (fa : facet_adj) : result (F K) :=
  let '(i0, i1, i2) := fa_point fa in
  do p0 <- vec_get node i0 ;
  do p1 <- vec_get node i1 ;
  do p2 <- vec_get node i2 ;
  Ok (fabs (vdot (vsub p0 center) (vcross (vsub p1 center) (vsub p2 center)))).
Definition cell_volume (m : mesh K) (cell_idx : N) : result (F K) :=
  do center <- cell_position_3dg m cell_idx ;
  do cc <- vec_get (me_conn m) cell_idx ;
  do vols <- rmap (facet_volume (me_node m) center) (cc_facet cc) ;
  Ok (fsum vols /. flit (6 # 1)).

(** mc_domain.rs lines 170-182: the state of one cell.  The product of the identifier may overflow
    a usize for more than 2^32 cells, which is not modelled. *)
Definition cell_state_new (m : mesh K) (g : grid K) (geoms : list geometry_params) (mats : list (material K))
    (cell_idx : N) : result (cell_state K) :=
  do rr <- cell_position_3dg m cell_idx ;
  do name <- find_material geoms rr ;
  do mat <- unwrap (find_material_idx mats name) ;
  do volume <- cell_volume m cell_idx ;
  do id <- which_cell g rr ;
  Ok (mkCellState mat volume f1 (id * 4294967296) 0).

(** mc_domain.rs lines 161-189, [MCDomain::new]. *)
Definition domain_new (p : partition) (g : grid K) (boundary_condition : string) (geoms : list geometry_params)
    (mats : list (material K)) : result (domain K) :=
  do boundary <- get_boundary_conditions boundary_condition ;
  do m <- mesh_new p g boundary ;
  do cells <- rmap (cell_state_new m g geoms mats) (nrange 0 (List.length (me_geom m))) ;
  Ok (mkDomain (me_domain_gid m) cells m).

(** init.rs lines 222-247, [initialize_centers_rand], with the new seed. *)
Definition random_index (seed : N) (n : N) : result N * N :=
  let s := rng_next seed in (unwrap (fto_usize (ffloor (fsample s *. fof_N n : F K))), s).
Definition random_center (g : grid K) (seed : N) : result (vec K) * N :=
  let d := g_dims g in
  let (x, seed) := random_index seed (nx d) in
  let (y, seed) := random_index seed (ny d) in
  let (z, seed) := random_index seed (nz d) in
  (do x <- x ; do y <- y ; do z <- z ; cell_center g (cell_tuple_to_idx d (x, y, z)), seed).
Fixpoint initialize_centers_rand (n : nat) (g : grid K) (seed : N) : result (list (vec K)) :=
  match n with
  | O => Ok []
  | S n =>
      let (c, seed) := random_center g seed in
      do c <- c ;
      do l <- initialize_centers_rand n g seed ;
      Ok (c :: l)
  end.

(** init.rs lines 249-309, [init_mesh], for one unit ([n_units = 1], the only case that
    does not stop in [todo!()], see init.rs lines 79-83): one partition with domain 0 and
    foreman 0 and no message between partitions. *)
Definition init_mesh (order : list (N * N) -> list (N * N)) (d : dims) (lx ly lz : F K) (seed : N)
    (boundary_condition : string) (geoms : list geometry_params) (mats : list (material K)) : result (domain K) :=
  let g := grid_new d lx ly lz in
  do seed <- (if seed + 1 <? two64 then Ok (seed + 1) else Panic) ;
  do centers <- initialize_centers_rand 1 g seed ;
  do p <- build_mesh_partition order 0 0 g centers ;
  domain_new p g boundary_condition geoms mats.

(** init.rs lines 91-110, [init_mcunits] for one unit, tallies and cache aside
    ([initial_sim] has them). *)
Definition init_mcunits (order : list (N * N) -> list (N * N)) (d : dims) (lx ly lz : F K) (seed : N)
    (boundary_condition : string) (geoms : list geometry_params) (mats : list (material K)) : result (domain K) :=
  do dom <- init_mesh order d lx ly lz seed boundary_condition geoms mats ;
  do _ <- consistency_check (me_conn (d_mesh dom)) ;
  Ok dom.

End Mesh.
Arguments geometry_params : clear implicits.
