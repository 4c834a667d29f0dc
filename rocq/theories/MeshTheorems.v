(** The lemmas behind the theorems of MeshProps. *)
From Coq Require Import NArith ZArith List Bool String Lia Permutation.
From Verif Require Import Float RngModel ParticleModel NuclearModel MeshTypes CycleModel GridModel AssignModel MeshModel
  GridSpec GridLemmas AssignLemmas FloodLemmas MeshFacts MeshSpec TrackAccount.
Import ListNotations.
Local Open Scope N_scope.
Local Open Scope list_scope.

Lemma watertight_pairs d idx k : positive d -> small d -> idx < total_cells d -> (k < 24)%nat ->
  on_boundary d (cell_idx_to_tuple d idx) (k / 4) = false ->
  exists nbrs, get_face_nbr_gids d idx = Ok nbrs /\
    let n := nth (k / 4) nbrs 0 in
    exists k', (k' < 24)%nat /\ (k' / 4)%nat = opposite_face (k / 4) /\
      corners_of d n k' = reversed (corners_of d idx k) /\
      (forall k'', (k'' < 24)%nat -> corners_of d n k'' = reversed (corners_of d idx k) -> k'' = k') /\
      (face_axis (k / 4) <> AZ -> k' = paired k).
Proof.
  intros P S H Hk E. destruct (watertight d idx k P S H Hk E) as (nbrs & En & k' & H1 & H2 & H3 & H4 & H5).
  exists nbrs. split; [exact En|]. exists k'. repeat split; auto. apply H5.
Qed.

Lemma z_faces_mispaired d idx k : positive d -> small d -> idx < total_cells d -> (k < 24)%nat ->
  on_boundary d (cell_idx_to_tuple d idx) (k / 4) = false -> face_axis (k / 4) = AZ ->
  exists nbrs, get_face_nbr_gids d idx = Ok nbrs /\
    corners_of d (nth (k / 4) nbrs 0) (paired k) <> reversed (corners_of d idx k).
Proof.
  intros P S H Hk E Ea. destruct (watertight d idx k P S H Hk E) as (nbrs & En & k' & H1 & H2 & H3 & H4 & H5).
  exists nbrs. split; [exact En|]. intros Ec. apply H4 in Ec; [|apply opposing_facts; exact Hk].
  symmetry in Ec. apply H5 in Ec. congruence.
Qed.

Lemma watertight_refuted_at : exists d idx k nbrs,
  positive d /\ small d /\ idx < total_cells d /\ (k < 24)%nat /\
  on_boundary d (cell_idx_to_tuple d idx) (k / 4) = false /\
  get_face_nbr_gids d idx = Ok nbrs /\
  corners_of d (nth (k / 4) nbrs 0) (paired k) <> reversed (corners_of d idx k).
Proof.
  exists (mkDims 1 1 2), 0, 16%nat, [0; 0; 0; 0; 1; 0].
  split; [cbv; auto|]. split; [cbv; auto|]. split; [reflexivity|]. split; [lia|]. split; [reflexivity|].
  split; [reflexivity|]. vm_compute. discriminate.
Qed.

Section Built.
Context {K : FloatOps}.
Implicit Types (g : grid K) (m : mesh K).

Lemma partition_cells g order c : positive (g_dims g) -> small (g_dims g) -> any_order order -> center_inside g c ->
  build_mesh_partition order 0 0 g [c] <> NoFuel /\
  forall p, build_mesh_partition order 0 0 g [c] = Ok p ->
    Permutation (map fst (pt_cells p)) (nrange 0 (N.to_nat (total_cells (g_dims g)))) /\
    forall i e, nth_error (pt_cells p) i = Some e ->
      ci_domain_gid (snd e) = Some (pt_domain_gid p) /\ ci_cell_index (snd e) = Some (N.of_nat i).
Proof.
  intros P S Ho (root & Er & Hr). split.
  - destruct (partition_spec order g c root (mkPartition 0 0 [] []) Ho P S Er Hr) as (F & _). exact F.
  - intros p Ep. destruct (partition_spec order g c root p Ho P S Er Hr) as (_ & A).
    destruct (A Ep) as (cs & Pc & Hp). split; [rewrite (cells_keys _ _ Hp); exact Pc|].
    intros i e Ei. destruct (nth_error cs i) as [x|] eqn:Ex.
    + rewrite (cells_entry _ _ _ _ Hp Ex) in Ei. injection Ei as <-. rewrite (proj1 Hp). auto.
    + exfalso. apply nth_error_None in Ex. rewrite <- (cells_length _ _ Hp) in Ex. apply nth_error_None in Ex. congruence.
Qed.

Lemma partitioned_cells g p : partitioned g p ->
  exists cs, Permutation cs (cells (g_dims g)) /\ numbers_cells cs p.
Proof.
  intros (P & S & order & c & Ho & (root & Er & Hr) & Ep).
  destruct (partition_spec order g c root p Ho P S Er Hr) as (_ & A). auto.
Qed.

Lemma built_mesh_is g bc p m : built g bc p m -> exists cs boundary, Permutation cs (cells (g_dims g)) /\ numbers_cells cs p /\
  get_boundary_conditions bc = Ok boundary /\ mesh_is g cs boundary m.
Proof.
  intros (Hp & boundary & Eb & Em). destruct (partitioned_cells _ _ Hp) as (cs & Pc & Nc).
  destruct Hp as (P & S & _). destruct (boundary_conditions_ok _ _ Eb) as (Lb & Fb).
  destruct (mesh_new_spec g cs p boundary P S Nc Pc Lb Fb) as (m' & Em' & Hm).
  rewrite Em in Em'. injection Em' as <-. exists cs, boundary. auto.
Qed.

Lemma mesh_exists g p bc : partitioned g p -> requested bc 0 <> None -> exists m, built g bc p m.
Proof.
  intros Hp Hbc.
  assert (Eb : exists b, get_boundary_conditions bc = Ok b).
  { unfold requested in Hbc. unfold get_boundary_conditions.
    destruct (String.eqb bc "reflect"); [eauto|]. destruct (String.eqb bc "escape"); [eauto|].
    destruct (String.eqb bc "octant"); [eauto|congruence]. }
  destruct Eb as (b & Eb). destruct (partitioned_cells _ _ Hp) as (cs & Pc & Nc).
  destruct (boundary_conditions_ok _ _ Eb) as (Lb & Fb). pose proof Hp as (P & S & _).
  destruct (mesh_new_spec g cs p b P S Nc Pc Lb Fb) as (m & Em & _). exists m. split; [exact Hp|eauto].
Qed.

Lemma adjacency_back g bc p m i c k fa : built g bc p m -> local_to_global p i c -> facet_at m i k fa ->
  exists j k' fa', fa_adjacent fa = mkLocation (Some 0) (Some (N.of_nat j)) (Some (N.of_nat k')) /\
    facet_at m j k' fa' /\ fa_adjacent fa' = mkLocation (Some 0) (Some (N.of_nat i)) (Some (N.of_nat k)) /\
    (on_boundary (g_dims g) (cell_idx_to_tuple (g_dims g) c) (k / 4) = true -> j = i /\ k' = k) /\
    (on_boundary (g_dims g) (cell_idx_to_tuple (g_dims g) c) (k / 4) = false ->
       k' = paired k /\ exists c', local_to_global p j c' /\
       cell_idx_to_tuple (g_dims g) c' = one_step (cell_idx_to_tuple (g_dims g) c) (k / 4)).
Proof.
  intros B Li (cc & Ecc & Efa). destruct (built_mesh_is _ _ _ _ B) as (cs & boundary & Pc & Nc & Eb & M).
  unfold local_to_global in * . rewrite (cells_keys _ _ Nc) in * .
  destruct (mi_nodes _ _ _ _ M) as (nodes & _ & _ & _ & Hconn).
  pose proof B as ((P & _) & _).
  destruct (crossing_back _ _ _ _ _ _ _ _ _ _ P Pc Hconn Li Ecc Efa) as (j & cc' & k' & fa' & E1 & E2 & E3 & E4 & E5 & E6).
  pose proof (cl_facets _ _ _ _ _ _ _ (proj2 Hconn _ _ _ Li Ecc) _ _ Efa) as Fa.
  exists j, k', fa'. split; [exact E1|]. split; [exists cc'; auto|].
  split; [rewrite E4; apply (fs_current _ _ _ _ _ _ _ _ Fa)|]. split.
  - intros On. destruct (fs_boundary _ _ _ _ _ _ _ _ Fa On) as (_ & Ea).
    rewrite E1, (fs_current _ _ _ _ _ _ _ _ Fa) in Ea. injection Ea as Ej Ek.
    apply Nnat.Nat2N.inj in Ej, Ek. auto.
  - intros Off. destruct (fs_interior _ _ _ _ _ _ _ _ Fa Off) as (_ & j' & c' & Ej & Et & Ea).
    rewrite E1 in Ea. injection Ea as Ej' Ek. apply Nnat.Nat2N.inj in Ej', Ek. subst j' k'.
    split; [reflexivity|]. exists c'. auto.
Qed.

Lemma facets_exist g bc p m : built g bc p m ->
  List.length (me_conn m) = N.to_nat (total_cells (g_dims g)) /\
  (forall i, (i < List.length (me_conn m))%nat -> exists c, local_to_global p i c) /\
  (forall i k, (i < List.length (me_conn m))%nat -> (k < 24)%nat -> exists fa, facet_at m i k fa).
Proof.
  intros B. destruct (built_mesh_is _ _ _ _ B) as (cs & boundary & Pc & Nc & Eb & M).
  destruct (mi_nodes _ _ _ _ M) as (nodes & _ & _ & _ & Hconn).
  assert (L : List.length (me_conn m) = List.length cs) by apply Hconn.
  split; [|split].
  - rewrite L. apply Permutation_length in Pc. rewrite Pc. apply nrange_length.
  - intros i Hi. unfold local_to_global. rewrite (cells_keys _ _ Nc).
    destruct (nth_error cs i) eqn:E; [eauto|]. apply nth_error_None in E. lia.
  - intros i k Hi Hk. destruct (nth_error (me_conn m) i) as [cc|] eqn:Ecc; [|apply nth_error_None in Ecc; lia].
    destruct (nth_error cs i) as [c|] eqn:Ec; [|apply nth_error_None in Ec; lia].
    pose proof (cl_count _ _ _ _ _ _ _ (proj2 Hconn _ _ _ Ec Ecc)) as Lf.
    destruct (nth_error (cc_facet cc) k) as [fa|] eqn:Efa; [|apply nth_error_None in Efa; lia].
    exists fa, cc. auto.
Qed.

Lemma consistency_ok g bc p m : built g bc p m -> consistency_check (me_conn m) = Ok tt.
Proof.
  intros B. destruct (built_mesh_is _ _ _ _ B) as (cs & boundary & Pc & Nc & Eb & M).
  destruct (mi_nodes _ _ _ _ M) as (nodes & _ & _ & _ & Hconn). pose proof B as ((P & _) & _).
  eapply check_ok; eauto.
Qed.

(** With the check or without it, the initialisation gives the same result. *)
Lemma init_check order d lx ly lz seed bc geoms mats :
  any_order order -> positive d -> small d ->
  (forall c, initialize_centers_rand 1 (grid_new (K := K) d lx ly lz) (seed + 1) = Ok [c] ->
             center_inside (grid_new d lx ly lz) c) ->
  init_mcunits order d lx ly lz seed bc geoms mats = init_mesh order d lx ly lz seed bc geoms mats.
Proof.
  intros Ho P S Hc. unfold init_mcunits.
  destruct (init_mesh order d lx ly lz seed bc geoms mats) as [dom| |] eqn:E; [|reflexivity|reflexivity].
  cbn [rbind]. unfold init_mesh in E. destruct (seed + 1 <? two64); [|discriminate]. cbn [rbind] in E.
  rb E as centers Ec. rb E as p Ep. unfold domain_new in E. rb E as boundary Eb. rb E as m Em. rb E as cells0 Ecells.
  injection E as <-. cbn [d_mesh].
  assert (Lc : exists c, centers = [c]).
  { clear - Ec. cbn [initialize_centers_rand] in Ec. destruct (random_center _ _) as [c s]. rb Ec as c' Ec'.
    injection Ec as <-. eauto. }
  destruct Lc as (c & ->).
  rewrite (consistency_ok (grid_new d lx ly lz) bc p m); [reflexivity|].
  split; [|eauto]. split; [exact P|]. split; [exact S|]. exists order, c. auto.
Qed.

Lemma boundary_events g bc p m i c k fa : built g bc p m -> local_to_global p i c -> facet_at m i k fa ->
  if on_boundary (g_dims g) (cell_idx_to_tuple (g_dims g) c) (k / 4)
  then requested bc (k / 4) = Some (fa_event fa)
  else fa_event fa = TransitOnProcessor.
Proof.
  intros B Li (cc & Ecc & Efa). destruct (built_mesh_is _ _ _ _ B) as (cs & boundary & Pc & Nc & Eb & M).
  unfold local_to_global in * . rewrite (cells_keys _ _ Nc) in * .
  destruct (mi_nodes _ _ _ _ M) as (nodes & _ & _ & _ & Hconn).
  pose proof (proj2 Hconn _ _ _ Li Ecc) as C. pose proof (cl_facets _ _ _ _ _ _ _ C _ _ Efa) as Fa.
  assert (Hk : (k < 24)%nat).
  { rewrite <- (cl_count _ _ _ _ _ _ _ C). apply nth_error_Some. congruence. }
  assert (Hf : (k / 4 < 6)%nat) by (apply Nat.div_lt_upper_bound; lia).
  destruct (on_boundary _ _ _) eqn:Eo.
  - destruct (fs_boundary _ _ _ _ _ _ _ _ Fa Eo) as (Ev & _).
    unfold get_boundary_conditions in Eb. unfold requested. revert Ev Hf. generalize (k / 4)%nat as f. intros f Ev Hf.
    destruct (String.eqb bc "reflect"); [|destruct (String.eqb bc "escape"); [|destruct (String.eqb bc "octant")]];
      try discriminate; injection Eb as <-;
      (do 6 (destruct f as [|f]; [cbn in Ev |- * ; congruence|])); lia.
  - apply (fs_interior _ _ _ _ _ _ _ _ Fa Eo).
Qed.

Lemma unknown_boundary p g bc geoms mats : requested bc 0 = None -> domain_new p g bc geoms mats = Panic.
Proof.
  intros H. unfold domain_new, get_boundary_conditions. unfold requested in H.
  destruct (String.eqb bc "reflect"); [discriminate|]. destruct (String.eqb bc "escape"); [discriminate|].
  destruct (String.eqb bc "octant"); [discriminate|reflexivity].
Qed.

End Built.
