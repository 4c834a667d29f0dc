(** Claims C04 (built domains), C33, C34 (initialisation), C35 to C40, in exact arithmetic unless said otherwise. *)
From Coq Require Import NArith ZArith QArith Qreals List Bool Reals Lra Lia String.
From Verif Require Import Float RealOps RngModel ParticleModel NuclearModel MeshTypes Balance TrackModel CycleModel GridModel AssignModel MeshModel Ieee
  GridSpec MeshSpec CycleSpec SegmentSpec PopSpec PopDemo GeomSpec GeomLemmas PlaneLemmas SourcePoint NearestCenter InitReal SearchDefined WellBuilt GeomDemo QuietRun QuietTrack.
Import ListNotations.
Local Open Scope R_scope.

(** ** C04 *)
(** In a built domain the cells have their own ranges of identifiers and their counters start at zero, ... *)
Theorem c04_built_identifiers : forall (g : grid Rops) bc p geoms mats dom,
  built_domain g bc p geoms mats dom -> sized g -> (total_cells (g_dims g) <= 2 ^ 32)%N ->
  ids_apart (d_cells dom) /\ Forall (fun cs : cell_state Rops => cs_source_tally cs = 0%N) (d_cells dom).
Proof. exact (fun g bc p geoms mats dom D Hs Ht => conj (ids_of_domain g bc p geoms mats dom D Hs Ht) (tallies_of_domain g bc p geoms mats dom D Hs)). Qed.
Print Assumptions c04_built_identifiers.

(** ... so that the particles sourced in a whole run are unique. *)
Theorem c04_built_unique : forall (g : grid Rops) bc p geoms mats dom, built_domain g bc p geoms mats dom -> sized g ->
  forall fuel cfuel md n s ps, run_sourced fuel cfuel md dom n s ps -> (total_cells (g_dims g) <= 2 ^ 32)%N ->
  Forall (fun cs : cell_state Rops => (cs_source_tally cs <= 2 ^ 32)%N) (d_cells (u_domain (s_unit s))) ->
  NoDup (map p_identifier ps) /\ NoDup (map p_random_number_seed ps).
Proof. exact run_unique_built. Qed.
Print Assumptions c04_built_unique.

(** A run with 24 particles created. *)
Example c04_built_case : exists p dom s ps, built_domain box "octant" p box_geoms box_mats dom /\ sized box /\ (total_cells (g_dims box) = 24)%N /\
  run_sourced 1 0 quiet_md dom 1 s ps /\ List.length ps = 24%nat /\
  Forall (fun cs : cell_state Rops => (cs_source_tally cs <= 2 ^ 32)%N) (d_cells (u_domain (s_unit s))).
Proof.
  destruct box_init as (p & dom & _ & D). destruct (quiet_run 0 0 p dom D) as (s & hs & _ & _ & _ & _ & Ht & _ & ps & Hs & Hl & _).
  exists p, dom, s, ps. exact (conj D (conj box_sized (conj eq_refl (conj Hs (conj Hl Ht))))).
Qed.

(** ** C33, C34 *)
(** The initialisation of the mesh succeeds: the boundary condition is known, the three draws that place the center are below 1
    (c33_any_center_refuted has a case where one is 1) and the middle of every cell is in a known material. *)
Theorem c34_initialisation_succeeds : forall order d (lx ly lz : R) seed bc geoms mats,
  any_order order -> positive d -> small d -> box_ok lx -> box_ok ly -> box_ok lz -> (seed + 1 < two64)%N -> center_draws_below_1 seed ->
  requested bc 0 <> None -> material_everywhere d lx ly lz geoms mats ->
  exists p dom, init_mcunits (K := Rops) order d lx ly lz seed bc geoms mats = Ok dom /\
    built_domain (grid_new (K := Rops) d lx ly lz) bc p geoms mats dom.
Proof. exact init_succeeds. Qed.
Print Assumptions c34_initialisation_succeeds.

Example c34_initialisation_case : positive box_dims /\ small box_dims /\ box_ok 10 /\ center_draws_below_1 7 /\
  material_everywhere box_dims 10 20 30 box_geoms box_mats.
Proof.
  split; [cbv; auto|]. split; [cbv; auto|]. split; [split; [lra|apply IZR_lt; reflexivity]|].
  split; [repeat split; apply draw_below_1; vm_compute; reflexivity|exact box_material].
Qed.

(** The domain is complete, in any arithmetic: 24 facets and planes per cell, every node exists, every cell has a material. *)
Theorem c34_domain_complete : forall (K : FloatOps) (g : grid K) bc p geoms mats dom, built_domain g bc p geoms mats dom ->
  complete_geometry (d_mesh dom) /\ List.length (me_conn (d_mesh dom)) = N.to_nat (total_cells (g_dims g)) /\
  List.length (d_cells dom) = List.length (me_conn (d_mesh dom)) /\
  Forall (fun cs : cell_state K => (cs_material cs < N.of_nat (List.length mats))%N) (d_cells dom).
Proof. exact @built_domain_complete. Qed.
Print Assumptions c34_domain_complete.

(** ** C35 *)
(** Any point of a cell, its lower faces included, is located in that cell, ... *)
Theorem c35_point_located : forall (g : grid Rops) t r, sized g -> small (g_dims g) -> cell_in (g_dims g) t -> in_cell_half_open g t r ->
  which_cell g r = Ok (cell_tuple_to_idx (g_dims g) t).
Proof. exact located. Qed.
Print Assumptions c35_point_located.

(** ... in particular its center, ... *)
Theorem c35_center_located : forall (g : grid Rops) c, sized g -> positive (g_dims g) -> small (g_dims g) -> (c < total_cells (g_dims g))%N ->
  exists r, cell_center g c = Ok r /\ in_cell_half_open g (cell_idx_to_tuple (g_dims g) c) r /\ which_cell g r = Ok c.
Proof. exact center_located. Qed.
Print Assumptions c35_center_located.

(** ... which is the mean of the nodes of the cell. *)
Theorem c35_position : forall (g : grid Rops) bc p m, built g bc p m -> forall i c, local_to_global p i c ->
  cell_position_3dg m (N.of_nat i) = Ok (middle_of g (cell_idx_to_tuple (g_dims g) c)).
Proof. exact mesh_position. Qed.
Print Assumptions c35_position.

Theorem c35_volume : forall (g : grid Rops) bc p m, built g bc p m -> forall i c, sized g -> local_to_global p i c ->
  cell_volume m (N.of_nat i) = Ok (g_dx g * g_dy g * g_dz g).
Proof. exact mesh_volume. Qed.
Print Assumptions c35_volume.

(** The states of the cells say the same. *)
Theorem c35_cell_states : forall (g : grid Rops) bc p geoms mats dom, built_domain g bc p geoms mats dom -> sized g ->
  forall i cs, cell_at dom i cs -> exists c, local_to_global p i c /\ (c < total_cells (g_dims g))%N /\
  cs_id cs = (c * 2 ^ 32)%N /\ cs_volume cs = g_dx g * g_dy g * g_dz g /\ cs_source_tally cs = 0%N /\ cs_number_density cs = 1.
Proof. exact cell_facts. Qed.
Print Assumptions c35_cell_states.

Example c35_case : sized box /\ small (g_dims box) /\ cell_in (g_dims box) (1, 2, 3)%N /\
  in_cell_half_open box (1, 2, 3)%N (mkVec (K := Rops) 9 19 29) /\ exists p dom c, built box "octant" p (d_mesh dom) /\ local_to_global p 0 c.
Proof. exact located_case. Qed.

(** ** C36 *)
Theorem c36_plane : forall (r0 r1 r2 : vec Rops), not_aligned r0 r1 r2 ->
  let pl := plane_new r0 r1 r2 in
  unit_vec (mkVec (K := Rops) (pl_a pl) (pl_b pl) (pl_c pl)) /\
  plane_value pl r0 = 0 /\ plane_value pl r1 = 0 /\ plane_value pl r2 = 0.
Proof. exact plane_general. Qed.
Print Assumptions c36_plane.

(** Facet [k] of a cell: its plane is that of face [k / 4], with the outward unit normal, and contains the points of the facet. *)
Theorem c36_facet_planes : forall (g : grid Rops) bc p m i c k planes pl, built g bc p m -> sized g -> local_to_global p i c ->
  nth_error (me_geom m) i = Some planes -> nth_error planes k = Some pl ->
  (k < 24)%nat /\
  mkVec (K := Rops) (pl_a pl) (pl_b pl) (pl_c pl) = outward (k / 4) /\
  (forall r, plane_value pl r = beyond g (cell_idx_to_tuple (g_dims g) c) (k / 4) r) /\
  exists r0 r1 r2, get_facet_coords m (N.of_nat i) (N.of_nat k) = Ok (r0, r1, r2) /\
    plane_value pl r0 = 0 /\ plane_value pl r1 = 0 /\ plane_value pl r2 = 0.
Proof. exact mesh_planes. Qed.
Print Assumptions c36_facet_planes.

Theorem c36_normals_are_unit : forall f, unit_vec (outward f).
Proof. exact outward_unit. Qed.
Print Assumptions c36_normals_are_unit.

(** The cell is what is behind its 24 planes. *)
Theorem c36_cell_behind_planes : forall (g : grid Rops) bc p m i c planes, built g bc p m -> sized g -> local_to_global p i c ->
  nth_error (me_geom m) i = Some planes ->
  List.length planes = 24%nat /\
  (forall r, in_cell g (cell_idx_to_tuple (g_dims g) c) r <-> Forall (fun pl => plane_value pl r <= 0) planes) /\
  Forall (fun pl => plane_value pl (middle_of g (cell_idx_to_tuple (g_dims g) c)) < 0) planes.
Proof. exact behind_planes. Qed.
Print Assumptions c36_cell_behind_planes.

Example c36_case : not_aligned (mkVec (K := Rops) 1 2 3) (mkVec (K := Rops) 4 5 7) (mkVec (K := Rops) 0 1 9) /\
  exists p dom c planes pl, built box "octant" p (d_mesh dom) /\ sized box /\ local_to_global p 0 c /\
    nth_error (me_geom (d_mesh dom)) 0 = Some planes /\ nth_error planes 5 = Some pl.
Proof. exact (conj alignment_case planes_case). Qed.

(** ** C37 *)
Theorem c37_reflection : forall (p : particle Rops) (pl : plane Rops), unit_vec (normal_of pl) ->
  exists u, reflect_particle p pl = set_direction p u /\
    dot u u = dot (p_direction p) (p_direction p) /\
    tangential (normal_of pl) u = tangential (normal_of pl) (p_direction p) /\
    dot u (normal_of pl) = - Rabs (dot (p_direction p) (normal_of pl)) /\
    (dot (p_direction p) (normal_of pl) <= 0 -> u = p_direction p).
Proof. exact reflected. Qed.
Print Assumptions c37_reflection.

(** In particular on the facets of a built mesh: the particle moves away from the face afterwards. *)
Theorem c37_reflection_in_mesh : forall (g : grid Rops) bc p m i c k planes pl (q : particle Rops), built g bc p m -> sized g ->
  local_to_global p i c -> nth_error (me_geom m) i = Some planes -> nth_error planes k = Some pl ->
  exists u, reflect_particle q pl = set_direction q u /\ dot u u = dot (p_direction q) (p_direction q) /\
    tangential (outward (k / 4)) u = tangential (outward (k / 4)) (p_direction q) /\ dot u (outward (k / 4)) <= 0.
Proof. exact reflected_in_mesh. Qed.
Print Assumptions c37_reflection_in_mesh.

Example c37_case : exists p dom c planes pl, built box "octant" p (d_mesh dom) /\ sized box /\ local_to_global p 0 c /\
  nth_error (me_geom (d_mesh dom)) 0 = Some planes /\ nth_error planes 5 = Some pl /\ unit_vec (normal_of pl).
Proof. exact reflection_case. Qed.

(** ** C38 *)
Theorem c38_isotropic : forall (p : particle Rops), unit_vec (p_direction (sample_isotropic p)).
Proof. exact isotropic_unit. Qed.
Print Assumptions c38_isotropic.

(** The new direction is a unit vector; its angle to the old one has the requested cosine up to 2e-6, and exactly so
    unless the old direction is closer than 1e-6 to the z axis without being on it. *)
Theorem c38_rotation : forall (p : particle Rops) (e a : R), unit_vec (p_direction p) -> -1 <= a <= 1 ->
  let u := p_direction p in let v := p_direction (update_trajectory p e a) in
  unit_vec v /\ Rabs (dot v u - a) <= 2 / 1000000 /\ (off_axis u = 0 \/ 1 / 1000000 <= off_axis u -> dot v u = a).
Proof. exact trajectory. Qed.
Print Assumptions c38_rotation.

Example c38_case : unit_vec (mkVec (K := Rops) (3 / 5) 0 (4 / 5)) /\ off_axis (mkVec (K := Rops) (3 / 5) 0 (4 / 5)) = 3 / 5.
Proof. exact off_axis_case. Qed.

(** Close to the z axis the angle is not exact. *)
Theorem c38_near_axis_refuted : exists (p : particle Rops) (e a : R), unit_vec (p_direction p) /\ -1 <= a <= 1 /\
  0 < off_axis (p_direction p) < 1 / 1000000 /\ dot (p_direction (update_trajectory p e a)) (p_direction p) <> a.
Proof. exact rotation_inexact. Qed.
Print Assumptions c38_near_axis_refuted.

(** ** C39 *)
(** The sampled point: the first draw picks one of the 24 tetrahedra, all of the same size, the next ones a point of it. *)
Theorem c39_point_sampled : forall (g : grid Rops) bc pt m i c, built g bc pt m -> sized g -> local_to_global pt i c ->
  forall p : particle Rops, exists k q0 q1 q2 r p', (k < 24)%nat /\
    generate_coordinate_3dg p m (N.of_nat i) (g_dx g * g_dy g * g_dz g) = Ok (r, p') /\
    get_facet_coords m (N.of_nat i) (N.of_nat k) = Ok (q0, q1, q2) /\
    24 * next_draw p <= real_of (N.of_nat k) + 1 /\ (k = 0%nat \/ real_of (N.of_nat k) < 24 * next_draw p) /\
    in_tetrahedron q0 q1 q2 (middle_of g (cell_idx_to_tuple (g_dims g) c)) r /\ in_cell g (cell_idx_to_tuple (g_dims g) c) r.
Proof. exact point_sampled. Qed.
Print Assumptions c39_point_sampled.

(** Every particle that a run creates starts in its cell, with a unit direction, an energy between the bounds and a time in the step. *)
Theorem c39_sourced_inside : forall (g : grid Rops) bc pt geoms mats dom, built_domain g bc pt geoms mats dom -> sized g ->
  forall fuel cfuel md n s ps, run_sourced fuel cfuel md dom n s ps -> Forall (starts_inside g pt md) ps.
Proof. exact (fun g bc pt geoms mats dom D Hs fuel cf md n s ps H => proj1 (run_starts g bc pt geoms mats dom D Hs fuel cf md n s ps H)). Qed.
Print Assumptions c39_sourced_inside.

(** The first source of a run. *)
Theorem c39_first_source : forall (g : grid Rops) bc pt geoms mats dom, built_domain g bc pt geoms mats dom -> sized g ->
  forall md s1 u c new, prepare_cycle md (initial_sim md dom) = Ok s1 ->
  source_now md (s_source_weight s1) (s_unit s1) (s_cont s1) = Ok (u, c) -> processing c = processing (s_cont s1) ++ new ->
  Forall (starts_inside g pt md) new.
Proof. exact first_source_inside. Qed.
Print Assumptions c39_first_source.

Example c39_case : exists p dom s1 u c, built_domain box "octant" p box_geoms box_mats dom /\
  prepare_cycle (tiny_md 1000) (initial_sim (tiny_md 1000) dom) = Ok s1 /\
  source_now (tiny_md 1000) (s_source_weight s1) (s_unit s1) (s_cont s1) = Ok (u, c) /\ (76 < List.length (processing c) <= 100)%nat.
Proof. exact box_source. Qed.

(** ** C40 *)
(** Whatever the search answers is a nearest center, and its flags are as before, ... *)
Theorem c40_nearest : forall (centers : list (vec Rops)) a r i b, gao_new centers = Ok a -> nearest_center a r = Ok (i, b) ->
  is_nearest centers r i /\ b = ga_burned a.
Proof. exact nearest_answer. Qed.
Print Assumptions c40_nearest.

(** ... and it does answer, for centers that are not too far apart. *)
Theorem c40_answers : forall (centers : list (vec Rops)) (r : vec Rops) (X : R), centers <> [] -> 1 <= X ->
  real_of (N.of_nat (List.length centers)) * X < IZR (2 ^ 21) -> spread (r :: centers) X ->
  exists a i, gao_new centers = Ok a /\ nearest_center a r = Ok (i, ga_burned a) /\ is_nearest centers r i.
Proof. exact search_succeeds. Qed.
Print Assumptions c40_answers.

(** The flags are restored in any arithmetic. *)
Theorem c40_scratch_restored : forall (K : FloatOps) (g : gao K) rr i b n,
  ga_burned g = repeat false n -> nearest_center g rr = Ok (i, b) -> b = ga_burned g.
Proof. exact @AssignLemmas.nearest_center_scratch. Qed.
Print Assumptions c40_scratch_restored.

Example c40_case : spread [mkVec (K := Rops) 1 2 3; mkVec (K := Rops) 0 0 0; mkVec (K := Rops) 40 0 0; mkVec (K := Rops) 0 9 70] 80 /\
  real_of (N.of_nat 3) * 80 < IZR (2 ^ 21).
Proof. exact spread_case. Qed.

(** Between two centers at the same distance the smaller index is not preferred (binary64). *)
Theorem c40_smallest_index_refuted : exists (centers : list (vec K64)) (r c0 c1 : vec K64) a b, gao_new centers = Ok a /\ nearest_center a r = Ok (1%N, b) /\
  nth_error centers 0 = Some c0 /\ nth_error centers 1 = Some c1 /\
  feq (f := K64) (vdot (vsub r c0) (vsub r c0)) (vdot (vsub r c1) (vsub r c1)) = true.
Proof. exact tie_broken. Qed.
Print Assumptions c40_smallest_index_refuted.
