(** C29-C34, C41, C44, C55: grid, mesh, materials and domain numbers. *)
From Coq Require Import NArith ZArith QArith List Bool String Permutation.
From Verif Require Import Float RngModel ParticleModel NuclearModel MeshTypes CycleModel GridModel AssignModel MeshModel DecompModel
  GridSpec MeshSpec GridLemmas FloodLemmas MeshFacts MeshTheorems MaterialFacts DecompLemmas Ieee Demo.
Import ListNotations.
Local Open Scope N_scope.

(** ** C29 *)
Theorem c29_grid_numbering : forall d, positive d ->
  (forall idx, idx < total_cells d ->
     cell_in d (cell_idx_to_tuple d idx) /\ cell_tuple_to_idx d (cell_idx_to_tuple d idx) = idx) /\
  (forall t, cell_in d t -> cell_tuple_to_idx d t < total_cells d /\ cell_idx_to_tuple d (cell_tuple_to_idx d t) = t) /\
  (forall idx, idx < total_nodes d ->
     node_in d (node_idx_to_tuple d idx) /\ node_tuple_to_idx d (node_idx_to_tuple d idx) = idx) /\
  (forall t, node_in d t -> node_tuple_to_idx d t < total_nodes d /\ node_idx_to_tuple d (node_tuple_to_idx d t) = t).
Proof. exact grid_numbering. Qed.
Print Assumptions c29_grid_numbering.

Definition d345 : dims := mkDims 3 4 5.
Example c29_case : positive d345 /\ cell_in d345 (2, 3, 4) /\ cell_tuple_to_idx d345 (2, 3, 4) = 59 /\
  node_in d345 (3, 4, 5, 3) /\ node_tuple_to_idx d345 (3, 4, 5, 3) = 479.
Proof. vm_compute. repeat split; reflexivity. Qed.

(** ** C30 *)
Theorem c30_face_neighbours : forall d idx f, positive d -> small d -> idx < total_cells d -> (f < 6)%nat ->
  exists nbrs, get_face_nbr_gids d idx = Ok nbrs /\ List.length nbrs = 6%nat /\
    let n := nth f nbrs 0 in
    let t := cell_idx_to_tuple d idx in
    n < total_cells d /\
    (n = idx <-> on_boundary d t f = true) /\
    (on_boundary d t f = false ->
       cell_idx_to_tuple d n = one_step t f /\
       exists back, get_face_nbr_gids d n = Ok back /\ nth (opposite_face f) back 0 = idx).
Proof. exact face_neighbours. Qed.
Print Assumptions c30_face_neighbours.

Example c30_case : positive d345 /\ small d345 /\ on_boundary d345 (cell_idx_to_tuple d345 59) 0 = true /\
  on_boundary d345 (cell_idx_to_tuple d345 59) 5 = false /\ get_face_nbr_gids d345 59 = Ok [59; 58; 59; 56; 59; 47].
Proof. vm_compute. repeat split; reflexivity. Qed.

(** The size of the grid matters: with more than 2^31 cells along an axis the conversion of the
    last coordinate to i32 is negative and the neighbours cannot be computed. *)
Theorem c30_large_grid_refuted : exists d idx, positive d /\ idx < total_cells d /\ get_face_nbr_gids d idx = Panic.
Proof. exists (mkDims (2 ^ 32) 1 1), 0. vm_compute. repeat split; reflexivity. Qed.
Print Assumptions c30_large_grid_refuted.

(** ** C31 *)
(** Across an interior face exactly one facet of the neighbour is the same triangle seen from the other
    side; it is on the opposite face, and it is the one that the code pairs with facet [k] unless the face
    is orthogonal to z. *)
Theorem c31_watertight : forall d idx k, positive d -> small d -> idx < total_cells d -> (k < 24)%nat ->
  on_boundary d (cell_idx_to_tuple d idx) (k / 4) = false ->
  exists nbrs, get_face_nbr_gids d idx = Ok nbrs /\
    let n := nth (k / 4) nbrs 0 in
    exists k', (k' < 24)%nat /\ (k' / 4)%nat = opposite_face (k / 4) /\
      corners_of d n k' = reversed (corners_of d idx k) /\
      (forall k'', (k'' < 24)%nat -> corners_of d n k'' = reversed (corners_of d idx k) -> k'' = k') /\
      (face_axis (k / 4) <> AZ -> k' = paired k).
Proof. exact watertight_pairs. Qed.
Print Assumptions c31_watertight.

Example c31_case : on_boundary d345 (cell_idx_to_tuple d345 0) 0 = false /\
  corners_of d345 0 0 = (1, 5, 121) /\ corners_of d345 1 (paired 0) = (5, 1, 121) /\ paired 0 = 7%nat.
Proof. vm_compute. repeat split; reflexivity. Qed.

(** The claim with the pairing of the code, for all faces, is false: the table [OPPOSING_FACET] is
    wrong for every facet of every interior face orthogonal to z. *)
Theorem c31_pairing_z_refuted : forall d idx k, positive d -> small d -> idx < total_cells d -> (k < 24)%nat ->
  on_boundary d (cell_idx_to_tuple d idx) (k / 4) = false -> face_axis (k / 4) = AZ ->
  exists nbrs, get_face_nbr_gids d idx = Ok nbrs /\
    corners_of d (nth (k / 4) nbrs 0) (paired k) <> reversed (corners_of d idx k).
Proof. exact z_faces_mispaired. Qed.
Print Assumptions c31_pairing_z_refuted.

Theorem c31_pairing_refuted : exists d idx k nbrs,
  positive d /\ small d /\ idx < total_cells d /\ (k < 24)%nat /\
  on_boundary d (cell_idx_to_tuple d idx) (k / 4) = false /\
  get_face_nbr_gids d idx = Ok nbrs /\
  corners_of d (nth (k / 4) nbrs 0) (paired k) <> reversed (corners_of d idx k).
Proof. exact watertight_refuted_at. Qed.
Print Assumptions c31_pairing_refuted.

(** ** C32 *)
Theorem c32_node_numbering : forall d p, positive d ->
  (forall e, In e (pt_cells p) -> ci_domain_gid (snd e) <> None /\ fst e < total_cells d) ->
  exists nodes, bootstrap_node_map d p = Ok nodes /\
    (map snd nodes = nrange 0 (List.length nodes) /\ NoDup (map fst nodes)) /\
    forall x, In x (map fst nodes) <->
      exists c, (exists info, In (c, info) (pt_cells p) /\ ci_domain_gid info = Some (pt_domain_gid p)) /\
                In x (get_node_gids d c).
Proof. exact node_map_spec. Qed.
Print Assumptions c32_node_numbering.

(** Two cells of a row visited in reverse, and a cell of another domain. *)
Definition c32_partition : partition :=
  mkPartition 0 0 [(1, mkCellInfo (Some 0) (Some 0) (Some 0) (Some 0)); (2, mkCellInfo (Some 7) None None None);
                   (0, mkCellInfo (Some 0) (Some 0) (Some 0) (Some 1))] [].
Example c32_case : positive (mkDims 3 1 1) /\
  (forall e, In e (pt_cells c32_partition) -> ci_domain_gid (snd e) <> None /\ fst e < total_cells (mkDims 3 1 1)) /\
  match bootstrap_node_map (mkDims 3 1 1) c32_partition with Ok l => Some (List.length l) | _ => None end = Some 23%nat.
Proof.
  split; [cbv; auto|]. split; [|reflexivity].
  intros e He. cbn in He. destruct He as [<-|[<-|[<-|[]]]]; (split; [discriminate|reflexivity]).
Qed.

(** ** C33 *)
Theorem c33_partition_complete : forall (K : FloatOps) (g : grid K) order c,
  positive (g_dims g) -> small (g_dims g) -> any_order order -> center_inside g c ->
  build_mesh_partition order 0 0 g [c] <> NoFuel /\
  forall p, build_mesh_partition order 0 0 g [c] = Ok p ->
    Permutation (map fst (pt_cells p)) (nrange 0 (N.to_nat (total_cells (g_dims g)))) /\
    forall i e, nth_error (pt_cells p) i = Some e ->
      ci_domain_gid (snd e) = Some (pt_domain_gid p) /\ ci_cell_index (snd e) = Some (N.of_nat i).
Proof. exact @partition_cells. Qed.
Print Assumptions c33_partition_complete.

(** A grid of 2x2x2 cells, the center in one of them, the entries of the map in reverse order. *)
Definition grid222 : grid K64 := grid_new (mkDims 2 2 2) (flit (10 # 1)) (flit (10 # 1)) (flit (10 # 1)).
Definition center222 : vec K64 := mkVec (flit (75 # 10)) (flit (25 # 10)) (flit (25 # 10)).
Definition partition222 : result partition := build_mesh_partition (@rev _) 0 0 grid222 [center222].
Lemma center222_cell : which_cell grid222 center222 = Ok 1.
Proof. vm_compute. reflexivity. Qed.
Lemma partition222_ok : exists p, partition222 = Ok p /\ map fst (pt_cells p) = [7; 3; 5; 6; 2; 4; 0; 1].
Proof.
  assert (E : match partition222 with Ok p => Some (map fst (pt_cells p)) | _ => None end = Some [7; 3; 5; 6; 2; 4; 0; 1])
    by (vm_compute; reflexivity).
  destruct partition222 as [p| |]; try discriminate. exists p. split; [reflexivity|congruence].
Qed.
Example c33_case : positive (g_dims grid222) /\ small (g_dims grid222) /\ any_order (@rev _) /\
  center_inside grid222 center222 /\ exists p, partition222 = Ok p.
Proof.
  split; [cbv; auto|]. split; [cbv; auto|]. split; [intros l; symmetry; apply Permutation_rev|].
  split; [exists 1; split; [apply center222_cell|reflexivity]|].
  destruct partition222_ok as (p & E & _). eauto.
Qed.

(** A center outside of the grid is the reason for the hypothesis, and the program can draw one: with
    this seed the third sample is 1.0 (see C03), the center of the only domain lies above the grid, and
    the domain gets a cell number that is not in the grid. *)
Definition bad_seed : N := 17643816747548860275.
Definition grid211 : grid K64 := grid_new (mkDims 2 1 1) (flit (10 # 1)) (flit (10 # 1)) (flit (10 # 1)).
Theorem c33_any_center_refuted : exists (g : grid K64) seed c p,
  positive (g_dims g) /\ small (g_dims g) /\ seed < two64 /\
  initialize_centers_rand 1 g (seed + 1) = Ok [c] /\
  build_mesh_partition (fun l => l) 0 0 g [c] = Ok p /\
  ~ Permutation (map fst (pt_cells p)) (nrange 0 (N.to_nat (total_cells (g_dims g)))).
Proof.
  exists grid211, bad_seed.
  assert (E : match initialize_centers_rand 1 grid211 (bad_seed + 1) with
              | Ok [c] => match build_mesh_partition (fun l => l) 0 0 grid211 [c] with
                          | Ok p => Some (map fst (pt_cells p)) | _ => None end
              | _ => None end = Some [3; 0; 1]) by (vm_compute; reflexivity).
  destruct (initialize_centers_rand 1 grid211 (bad_seed + 1)) as [[|c [|]]| |]; try discriminate.
  destruct (build_mesh_partition (fun l => l) 0 0 grid211 [c]) as [p| |] eqn:Ep; try discriminate.
  exists c, p. split; [cbv; auto|]. split; [cbv; auto|]. split; [reflexivity|]. split; [reflexivity|]. split; [exact Ep|].
  injection E as ->. intros P. apply Permutation_length in P. discriminate P.
Qed.
Print Assumptions c33_any_center_refuted.

(** ** C34 *)
(** The mesh is always built, ... *)
Theorem c34_mesh_built : forall (K : FloatOps) (g : grid K) p bc,
  partitioned g p -> requested bc 0 <> None -> exists m, built g bc p m.
Proof. exact @mesh_exists. Qed.
Print Assumptions c34_mesh_built.

(** ... with one entry per cell and 24 facets each, ... *)
Theorem c34_mesh_size : forall (K : FloatOps) (g : grid K) bc p m, built g bc p m ->
  List.length (me_conn m) = N.to_nat (total_cells (g_dims g)) /\
  (forall i, (i < List.length (me_conn m))%nat -> exists c, local_to_global p i c) /\
  (forall i k, (i < List.length (me_conn m))%nat -> (k < 24)%nat -> exists fa, facet_at m i k fa).
Proof. exact @facets_exist. Qed.
Print Assumptions c34_mesh_size.

(** ... crossing a facet and the one on the other side leads back, to the neighbour across an interior face
    and in place on the boundary, ... *)
Theorem c34_crossing_back : forall (K : FloatOps) (g : grid K) bc p m i c k fa,
  built g bc p m -> local_to_global p i c -> facet_at m i k fa ->
  exists j k' fa', fa_adjacent fa = mkLocation (Some 0) (Some (N.of_nat j)) (Some (N.of_nat k')) /\
    facet_at m j k' fa' /\ fa_adjacent fa' = mkLocation (Some 0) (Some (N.of_nat i)) (Some (N.of_nat k)) /\
    (on_boundary (g_dims g) (cell_idx_to_tuple (g_dims g) c) (k / 4) = true -> j = i /\ k' = k) /\
    (on_boundary (g_dims g) (cell_idx_to_tuple (g_dims g) c) (k / 4) = false ->
       k' = paired k /\ exists c', local_to_global p j c' /\
       cell_idx_to_tuple (g_dims g) c' = one_step (cell_idx_to_tuple (g_dims g) c) (k / 4)).
Proof. exact @adjacency_back. Qed.
Print Assumptions c34_crossing_back.

(** ... so that the check never fails: the initialisation has the same result with and without it. *)
Theorem c34_check_never_fails : forall (K : FloatOps) order d lx ly lz seed bc geoms mats,
  any_order order -> positive d -> small d ->
  (forall c, initialize_centers_rand 1 (grid_new (K := K) d lx ly lz) (seed + 1) = Ok [c] ->
             center_inside (grid_new d lx ly lz) c) ->
  init_mcunits order d lx ly lz seed bc geoms mats = init_mesh order d lx ly lz seed bc geoms mats.
Proof. exact @init_check. Qed.
Print Assumptions c34_check_never_fails.

Lemma partitioned222 : exists p, partitioned grid222 p.
Proof.
  destruct partition222_ok as (p & E & _). unfold partition222 in E. exists p. split; [cbv; auto|]. split; [cbv; auto|].
  exists (@rev _), center222. split; [intros l; symmetry; apply Permutation_rev|].
  split; [exists 1; split; [apply center222_cell|reflexivity]|exact E].
Qed.
Example c34_case : exists p m, partitioned grid222 p /\ built grid222 "octant" p m.
Proof.
  destruct partitioned222 as (p & Hp). destruct (c34_mesh_built K64 grid222 p "octant" Hp) as (m & Hm); [discriminate|].
  exists p, m. auto.
Qed.
(** The demonstration problem of [Demo]: the center drawn is in the grid and the initialisation succeeds. *)
Definition demo_seed : N := 1029384756.
Example c34_init_case :
  (forall c, initialize_centers_rand 1 grid211 (demo_seed + 1) = Ok [c] -> center_inside grid211 c) /\
  exists nd mats dom, demo_nuclear = Ok (nd, mats) /\
    init_mesh (fun l => l) (mkDims 2 1 1) (flit (10 # 1)) (flit (10 # 1)) (flit (10 # 1)) demo_seed "octant" [demo_geometry] mats
    = Ok dom.
Proof.
  split.
  - assert (E : match initialize_centers_rand 1 grid211 (demo_seed + 1) with
                | Ok [c] => which_cell grid211 c | _ => Panic end = Ok 1) by (vm_compute; reflexivity).
    intros c Ec. rewrite Ec in E. exists 1. split; [exact E|reflexivity].
  - assert (E : match demo_nuclear with
                | Ok (nd, mats) =>
                    match init_mesh (fun l => l) (mkDims 2 1 1) (flit (10 # 1)) (flit (10 # 1)) (flit (10 # 1)) demo_seed "octant" [demo_geometry] mats
                    with Ok _ => true | _ => false end
                | _ => false end = true) by (vm_compute; reflexivity).
    destruct demo_nuclear as [[nd mats]| |]; [|discriminate E|discriminate E]. exists nd, mats.
    destruct (init_mesh _ _ _ _ _ _ _ _ mats) as [dom| |]; [|discriminate E|discriminate E]. exists dom. auto.
Qed.

(** The hypothesis on the center is needed: with the seed of C33 the initialisation stops with a panic. *)
Theorem c34_any_seed_refuted : exists seed nd mats, seed < two64 /\ demo_nuclear = Ok (nd, mats) /\
  init_mcunits (fun l => l) (mkDims 2 1 1) (flit (10 # 1)) (flit (10 # 1)) (flit (10 # 1)) seed "octant" [demo_geometry] mats
  = Panic.
Proof.
  exists bad_seed.
  assert (E : match demo_nuclear with
              | Ok (nd, mats) =>
                  match init_mcunits (fun l => l) (mkDims 2 1 1) (flit (10 # 1)) (flit (10 # 1)) (flit (10 # 1)) bad_seed "octant" [demo_geometry] mats
                  with Panic => true | _ => false end
              | _ => false end = true) by (vm_compute; reflexivity).
  destruct demo_nuclear as [[nd mats]| |]; [|discriminate E|discriminate E]. exists nd, mats.
  destruct (init_mcunits _ _ _ _ _ _ _ _ mats) as [dom| |]; [discriminate E| |discriminate E].
  split; [reflexivity|]. auto.
Qed.
Print Assumptions c34_any_seed_refuted.

(** ** C41 *)
Theorem c41_boundary_events : forall (K : FloatOps) (g : grid K) bc p m i c k fa,
  built g bc p m -> local_to_global p i c -> facet_at m i k fa ->
  if on_boundary (g_dims g) (cell_idx_to_tuple (g_dims g) c) (k / 4)
  then requested bc (k / 4) = Some (fa_event fa)
  else fa_event fa = TransitOnProcessor.
Proof. exact @boundary_events. Qed.
Print Assumptions c41_boundary_events.

Theorem c41_unknown_condition_panics : forall (K : FloatOps) p (g : grid K) bc geoms mats,
  requested bc 0 = None -> domain_new p g bc geoms mats = Panic.
Proof. exact @unknown_boundary. Qed.
Print Assumptions c41_unknown_condition_panics.

Example c41_case : exists p m i c k fa, built grid222 "octant" p m /\ local_to_global p i c /\ facet_at m i k fa /\
  requested "octant" (k / 4) = Some BoundaryReflection /\ requested "periodic" 0 = None.
Proof.
  destruct c34_case as (p & m & _ & B). destruct (c34_mesh_size _ _ _ _ _ B) as (L & G & Fa).
  assert (H : (0 < List.length (me_conn m))%nat) by (rewrite L; vm_compute; repeat constructor).
  destruct (G 0%nat H) as (c & Hc). destruct (Fa 0%nat 5%nat H) as (fa & Hfa); [repeat constructor|].
  exists p, m, 0%nat, c, 5%nat, fa. auto.
Qed.

(** ** C44 *)
Theorem c44_first_geometry : forall (K : FloatOps) (geoms : list (geometry_params K)) r,
  Forall (fun g => gp_shape g <> ShUndefined) geoms ->
  exists name, find_material geoms r = Ok name /\
    ((exists g, first_containing r geoms g /\ name = gp_material_name g) \/
     (Forall (fun g => ~ contains g r) geoms /\ name = ""%string)).
Proof. exact @find_material_spec. Qed.
Print Assumptions c44_first_geometry.

Theorem c44_material_exists : forall (K : FloatOps) (geoms : list (geometry_params K)) r name,
  Forall (fun g => gp_shape g <> ShUndefined /\ gp_material_name g <> ""%string) geoms ->
  find_material geoms r = Ok name -> (name <> ""%string <-> Exists (fun g => contains g r) geoms).
Proof. exact @find_material_exists. Qed.
Print Assumptions c44_material_exists.

Theorem c44_undefined_shape_panics : forall (K : FloatOps) (geoms : list (geometry_params K)) r g,
  In g geoms -> gp_shape g = ShUndefined -> find_material geoms r = Panic.
Proof. exact @find_material_undefined. Qed.
Print Assumptions c44_undefined_shape_panics.

(** A ball inside the brick: the ball comes first in the list and wins. *)
Definition demo_ball : geometry_params K64 :=
  mkGeomParams "ball" Sphere (flit (2 # 1)) (flit (5 # 1)) (flit (5 # 1)) (flit (5 # 1)) f0 f0 f0 f0 f0 f0.
Definition in_ball : vec K64 := mkVec (flit (6 # 1)) (flit (5 # 1)) (flit (5 # 1)).
Definition in_brick : vec K64 := mkVec (flit (9 # 1)) (flit (5 # 1)) (flit (5 # 1)).
Definition in_nothing : vec K64 := mkVec (flit (900 # 1)) (flit (5 # 1)) (flit (5 # 1)).
Example c44_case :
  Forall (fun g => gp_shape g <> ShUndefined /\ gp_material_name g <> ""%string) [demo_ball; demo_geometry] /\
  find_material [demo_ball; demo_geometry] in_ball = Ok "ball"%string /\
  find_material [demo_geometry; demo_ball] in_ball = Ok "fuel"%string /\
  find_material [demo_ball; demo_geometry] in_brick = Ok "fuel"%string /\
  find_material [demo_ball; demo_geometry] in_nothing = Ok ""%string.
Proof.
  split; [repeat constructor; discriminate|]. repeat split; vm_compute; reflexivity.
Qed.

(** ** C55 *)
Theorem c55_domain_numbering : forall my_rank n_ranks dpr, my_rank < n_ranks ->
  exists dc, decomposition_new my_rank n_ranks dpr = Ok dc /\
    List.length (dc_rank dc) = N.to_nat (n_ranks * dpr) /\ List.length (dc_index dc) = N.to_nat (n_ranks * dpr) /\
    (forall gid, gid < n_ranks * dpr ->
       let r := nth (N.to_nat gid) (dc_rank dc) 0 in let i := nth (N.to_nat gid) (dc_index dc) 0 in
       r < n_ranks /\ i < dpr /\ gid = dpr * r + i) /\
    (forall gid, In gid (dc_assigned dc) <-> gid < n_ranks * dpr /\ nth (N.to_nat gid) (dc_rank dc) 0 = my_rank) /\
    dc_assigned dc = map (fun i => dpr * my_rank + i) (nrange 0 (N.to_nat dpr)).
Proof. exact decomposition_spec. Qed.
Print Assumptions c55_domain_numbering.

Theorem c55_lookup : forall gids, NoDup gids -> (forall g, In g gids -> g < N.of_nat (List.length gids)) ->
  exists table, gid_to_idx gids = Ok table /\ List.length table = List.length gids /\
    forall i g, nth_error gids i = Some g -> nth_error table (N.to_nat g) = Some (N.of_nat i).
Proof. exact gid_table_spec. Qed.
Print Assumptions c55_lookup.

Theorem c55_lookup_panics : forall gids g, In g gids -> N.of_nat (List.length gids) <= g -> gid_to_idx gids = Panic.
Proof. exact gid_table_panics. Qed.
Print Assumptions c55_lookup_panics.

Example c55_case : decomposition_new 1 3 2 = Ok (mkDecomp [2; 3] [0; 0; 1; 1; 2; 2] [0; 1; 0; 1; 0; 1]) /\
  gid_to_idx [2; 0; 1] = Ok [1; 2; 0] /\ gid_to_idx [3; 0; 1] = Panic.
Proof. vm_compute. repeat split; reflexivity. Qed.
