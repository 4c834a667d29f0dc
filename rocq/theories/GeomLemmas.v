(** Cells, nodes and planes of the grid in exact arithmetic (C35, C36). *)
From Coq Require Import NArith ZArith QArith Qreals List Bool Reals Lra Lia Permutation.
From Flocq Require Import Core.
From Verif Require Import Float RealOps ParticleModel NuclearModel MeshTypes CycleModel GridModel AssignModel MeshModel GridSpec GridLemmas
  FloodLemmas MeshFacts MeshSpec MeshTheorems TrackAccount CrossingLemmas SegmentSpec GeomSpec.
Import ListNotations.
Local Open Scope R_scope.

Lemma vec_eq (u v : vec Rops) : vx u = vx v -> vy u = vy v -> vz u = vz v -> u = v.
Proof. destruct u, v. cbn. intros -> -> ->. reflexivity. Qed.

Lemma real_add a b : real_of (a + b) = real_of a + real_of b.
Proof. unfold real_of. rewrite N2Z.inj_add. apply plus_IZR. Qed.
Lemma real_nonneg a : 0 <= real_of a.
Proof. apply IZR_le. lia. Qed.
Lemma real_0 : real_of 0 = 0. Proof. reflexivity. Qed.
Lemma real_1 : real_of 1 = 1. Proof. reflexivity. Qed.
Lemma real_2 : real_of 2 = 2. Proof. reflexivity. Qed.
Lemma two_R : ftwo (K := Rops) = 2.
Proof. unfold ftwo. cbn [flit Rops]. unfold Q2R. cbn. lra. Qed.

(** ** Location of points *)

Lemma axis_located (n : N) (d x : R) : 0 < d -> (n < 2 ^ 64)%N -> real_of n * d <= x < (real_of n + 1) * d ->
  fto_usize (f := Rops) (fdiv (f := Rops) x d) = Some n.
Proof.
  intros Hd Hn [H0 H1]. cbn [fto_usize fdiv Rops]. unfold Rto_usize.
  assert (B0 : real_of n <= x / d).
  { apply Rmult_le_reg_r with d; [exact Hd|]. unfold Rdiv. rewrite Rmult_assoc, Rinv_l, Rmult_1_r by lra. exact H0. }
  assert (B1 : x / d < real_of n + 1).
  { apply Rmult_lt_reg_r with d; [exact Hd|]. unfold Rdiv. rewrite Rmult_assoc, Rinv_l, Rmult_1_r by lra. exact H1. }
  pose proof (real_nonneg n) as Hp.
  assert (C : real_of n + 1 <= IZR (2 ^ 64)).
  { unfold real_of. rewrite <- (plus_IZR _ 1). apply IZR_le. lia. }
  rewrite (proj2 (Rltb_iff (-1) (x / d))) by lra. rewrite (proj2 (Rltb_iff (x / d) (IZR (2 ^ 64)))) by lra. cbn [andb].
  rewrite Ztrunc_floor by lra. rewrite (Zfloor_imp (Z.of_N n)); [rewrite N2Z.id; reflexivity|].
  rewrite plus_IZR. unfold real_of in * . lra.
Qed.

Lemma located (g : grid Rops) t r : sized g -> small (g_dims g) -> cell_in (g_dims g) t -> in_cell_half_open g t r ->
  which_cell g r = Ok (cell_tuple_to_idx (g_dims g) t).
Proof.
  destruct t as [[x y] z]. intros (Hx & Hy & Hz) (Sx & Sy & Sz) (Ix & Iy & Iz) (Rx & Ry & Rz). unfold which_cell.
  rewrite (axis_located x), (axis_located y), (axis_located z) by (assumption || lia). reflexivity.
Qed.

Lemma middle_inside (g : grid Rops) t : sized g -> in_cell_half_open g t (middle_of g t).
Proof.
  destruct t as [[x y] z]. intros (Hx & Hy & Hz). unfold in_cell_half_open, middle_of, grid_point. cbn [vx vy vz].
  repeat split; nra.
Qed.

Lemma center_is (g : grid Rops) c : cell_center g c = Ok (middle_of g (cell_idx_to_tuple (g_dims g) c)).
Proof.
  unfold cell_center. destruct (cell_idx_to_tuple (g_dims g) c) as [[x y] z].
  unfold node_coord_from_tuple, basis_offset, vec_get. cbn [N.to_nat nth_error unwrap rbind]. unfold middle_of, grid_point, vadd, vzero.
  cbn [vx vy vz fadd fmul fdiv f0 fof_N Rops]. rewrite two_R. fold (real_of x) (real_of y) (real_of z).
  apply (f_equal (@Ok (vec Rops))). apply vec_eq; cbn [vx vy vz]; match goal with |- @eq _ ?a ?b => change (@eq R a b) end; field.
Qed.

Lemma center_located (g : grid Rops) c : sized g -> positive (g_dims g) -> small (g_dims g) -> (c < total_cells (g_dims g))%N ->
  exists r, cell_center g c = Ok r /\ in_cell_half_open g (cell_idx_to_tuple (g_dims g) c) r /\ which_cell g r = Ok c.
Proof.
  intros Hs P S H. exists (middle_of g (cell_idx_to_tuple (g_dims g) c)). split; [apply center_is|].
  split; [apply middle_inside; exact Hs|].
  rewrite (located g (cell_idx_to_tuple (g_dims g) c)); [rewrite cell_tuple_idx by exact P; reflexivity|exact Hs|exact S| |].
  - apply cell_idx_in; assumption.
  - apply middle_inside. exact Hs.
Qed.

(** ** Points of a cell *)

Lemma node_point (g : grid Rops) c j : positive (g_dims g) -> (c < total_cells (g_dims g))%N -> (j < 14)%nat ->
  node_coord_from_idx g (nth j (get_node_gids (g_dims g) c) 0%N) = Ok (cell_point g (cell_idx_to_tuple (g_dims g) c) j).
Proof.
  intros P H Hj. pose proof (cell_idx_in _ _ P H) as I. rewrite node_gids_nth by exact Hj.
  pose proof (node_at_in _ _ _ I Hj) as In'. unfold node_coord_from_idx. rewrite node_idx_tuple.
  2:{ destruct (node_at (cell_idx_to_tuple (g_dims g) c) j) as [[[a b] e] f]. destruct In' as (A1 & A2 & A3 & _). auto. }
  clear In' I H P. destruct (cell_idx_to_tuple (g_dims g) c) as [[x y] z]. unfold node_at, cell_point, grid_point.
  do 14 (destruct j as [|j]; [cbn [nth CORNER_OFFSET cell_halves]; unfold node_coord_from_tuple, basis_offset, vec_get;
    cbn [N.to_nat Pos.to_nat nth_error unwrap rbind Pos.iter_op Nat.add]; unfold vadd, vzero; cbn [vx vy vz fadd fmul fdiv f0 fof_N Rops]; rewrite ?two_R;
    apply (f_equal (@Ok (vec Rops))); apply vec_eq; cbn [vx vy vz];
    match goal with |- @eq _ ?a ?b => change (@eq R a b) end;
    repeat match goal with |- context [IZR (Z.of_N ?n)] => change (IZR (Z.of_N n)) with (real_of n) end;
    rewrite ?real_add, ?real_0, ?real_1, ?real_2; field|]). lia.
Qed.

Ltac literal_indices :=
  repeat match goal with |- context [N.to_nat ?n] => let v := eval vm_compute in (N.to_nat n) in change (N.to_nat n) with v end.

Section Mesh.
Variables (g : grid Rops) (bc : String.string) (p : partition) (m : mesh Rops).
Hypothesis B : built g bc p m.

Lemma dims_ok : positive (g_dims g) /\ small (g_dims g).
Proof. destruct B as ((P & S & _) & _). auto. Qed.

Lemma global_lt i c : local_to_global p i c -> (c < total_cells (g_dims g))%N.
Proof.
  intros L. destruct B as (Hp & _). destruct (partitioned_cells _ _ Hp) as (cs & Pc & Nc).
  unfold local_to_global in L. rewrite (cells_keys _ _ Nc) in L. apply cells_in. eapply Permutation_in; [exact Pc|]. eapply nth_error_In; eauto.
Qed.

(** The 14 points of cell [i]. *)
Lemma mesh_points i c : local_to_global p i c ->
  exists cc, nth_error (me_conn m) i = Some cc /\ length (cc_facet cc) = 24%nat /\
    rmap (fun n => vec_get (me_node m) n) (cc_point cc) = Ok (map (cell_point g (cell_idx_to_tuple (g_dims g) c)) (seq 0 14)) /\
    forall k, (k < 24)%nat -> exists fa i0 i1 i2, nth_error (cc_facet cc) k = Some fa /\ fa_point fa = (i0, i1, i2) /\
      let '(a, b, e) := indirect k in
      let q j := cell_point g (cell_idx_to_tuple (g_dims g) c) (N.to_nat j) in
      vec_get (me_node m) i0 = Ok (q a) /\ vec_get (me_node m) i1 = Ok (q b) /\ vec_get (me_node m) i2 = Ok (q e).
Proof.
  intros L. pose proof (global_lt _ _ L) as Hc. pose proof dims_ok as (P & Sm).
  destruct (built_mesh_is _ _ _ _ B) as (cs & boundary & Pc & Nc & Eb & M).
  unfold local_to_global in L. rewrite (cells_keys _ _ Nc) in L.
  destruct (mi_nodes _ _ _ _ M) as (nodes & Nn & (_ & Hn) & _ & Hconn).
  destruct (nth_error (me_conn m) i) as [cc|] eqn:Ecc.
  2:{ exfalso. apply nth_error_None in Ecc. rewrite (proj1 Hconn) in Ecc. apply nth_error_None in Ecc. congruence. }
  exists cc. split; [reflexivity|]. pose proof (proj2 Hconn _ _ _ L Ecc) as C.
  split; [apply (cl_count _ _ _ _ _ _ _ C)|].
  assert (Hg : forall gid n j, In (gid, n) nodes -> (j < 14)%nat -> gid = nth j (get_node_gids (g_dims g) c) 0%N ->
     vec_get (me_node m) n = Ok (cell_point g (cell_idx_to_tuple (g_dims g) c) j)).
  { intros gid n j Hin Hj Eg. destruct (Hn _ _ Hin) as (v & Ev & En). rewrite Eg, (node_point g c j P Hc Hj) in Ev.
    injection Ev as <-. apply vec_get_nth. exact En. }
  split.
  - assert (G : forall l pts j, Forall2 (fun g0 n => In (g0, n) nodes) l pts -> (j + length l <= 14)%nat ->
       (forall i0, (i0 < length l)%nat -> nth i0 l 0%N = nth (j + i0) (get_node_gids (g_dims g) c) 0%N) ->
       rmap (fun n => vec_get (me_node m) n) pts = Ok (map (cell_point g (cell_idx_to_tuple (g_dims g) c)) (seq j (length l)))).
    { induction l as [|x l IH]; intros pts j F2 Hl Hx; inversion F2; subst; [reflexivity|]. cbn [rmap length seq map].
      cbn [length] in Hl. rewrite (Hg x y j); [|assumption|lia|specialize (Hx 0%nat); cbn [nth length] in Hx; rewrite Nat.add_0_r in Hx; apply Hx; lia].
      cbn [rbind]. rewrite (IH l' (S j)); [reflexivity|assumption|lia|].
      intros i0 Hi0. specialize (Hx (S i0)). cbn [nth length] in Hx. rewrite Hx by lia. f_equal. lia. }
    pose proof (cl_points _ _ _ _ _ _ _ C) as Fp. specialize (G _ _ 0%nat Fp). rewrite node_gids_length in G.
    apply G; [lia|]. intros; reflexivity.
  - intros k Hk. destruct (nth_error (cc_facet cc) k) as [fa|] eqn:Efa.
    2:{ exfalso. apply nth_error_None in Efa. rewrite (cl_count _ _ _ _ _ _ _ C) in Efa. lia. }
    pose proof (cl_facets _ _ _ _ _ _ _ C _ _ Efa) as Fa.
    destruct (facet_nodes (g_dims g) c k) as [[n0 n1] n2] eqn:En.
    destruct (fs_points _ _ _ _ _ _ _ _ Fa _ _ _ En) as (i0 & i1 & i2 & Ep & I0 & I1 & I2).
    exists fa, i0, i1, i2. split; [reflexivity|]. split; [exact Ep|].
    pose proof (indirect_lt k Hk) as Il. unfold facet_nodes in En. fold (indirect k) in En.
    destruct (indirect k) as [[a b] e]. destruct Il as (La & Lb & Le). cbv zeta in En |- * . injection En as E0 E1 E2.
    split; [|split]; [apply (Hg n0)|apply (Hg n1)|apply (Hg n2)]; auto; lia.
Qed.

Lemma mesh_facet_coords i c k : local_to_global p i c -> (k < 24)%nat ->
  get_facet_coords m (N.of_nat i) (N.of_nat k) =
    Ok (let '(a, b, e) := indirect k in
        let q j := cell_point g (cell_idx_to_tuple (g_dims g) c) (N.to_nat j) in (q a, q b, q e)).
Proof.
  intros L Hk. destruct (mesh_points i c L) as (cc & Ecc & _ & _ & Hf). destruct (Hf k Hk) as (fa & i0 & i1 & i2 & Efa & Ep & Hp).
  unfold get_facet_coords. rewrite (proj2 (vec_get_nth (me_conn m) (N.of_nat i) cc)) by (rewrite Nat2N.id; exact Ecc). cbn [rbind].
  rewrite (proj2 (vec_get_nth (cc_facet cc) (N.of_nat k) fa)) by (rewrite Nat2N.id; exact Efa). cbn [rbind]. rewrite Ep.
  destruct (indirect k) as [[a b] e]. cbv zeta in Hp. destruct Hp as (-> & -> & ->). reflexivity.
Qed.

(** The mean of the points is the middle. *)
Lemma mesh_position i c : local_to_global p i c -> cell_position_3dg m (N.of_nat i) = Ok (middle_of g (cell_idx_to_tuple (g_dims g) c)).
Proof.
  intros L. destruct (mesh_points i c L) as (cc & Ecc & _ & Hpt & _). unfold cell_position_3dg.
  rewrite (proj2 (vec_get_nth (me_conn m) (N.of_nat i) cc)) by (rewrite Nat2N.id; exact Ecc). cbn [rbind]. rewrite Hpt. cbn [rbind].
  destruct (cell_idx_to_tuple (g_dims g) c) as [[x y] z]. unfold vdiv, N_POINTS_INTERSEC. cbn [fof_N Rops feq f0].
  rewrite (proj2 (Reqb_false (IZR (Z.of_N 14)) 0)) by (cbn; lra). cbn [negb rassert rbind].
  apply (f_equal (@Ok (vec Rops))). cbn [map seq]. unfold vsum, vadd, vzero. cbn [fold_left vx vy vz fadd f0 fdiv Rops].
  unfold cell_point, cell_halves, middle_of, grid_point. cbn [nth vx vy vz]. rewrite !real_0, !real_1, !real_2.
  change (IZR (Z.of_N 14)) with 14. apply vec_eq; cbn [vx vy vz]; match goal with |- @eq _ ?a ?b => change (@eq R a b) end; field.
Qed.

(** Twice the volume of the tetrahedron of each facet and the middle. *)
Lemma facet_determinant (t : N * N * N) k : (k < 24)%nat ->
  let '(a, b, e) := indirect k in
  let q j := cell_point g t (N.to_nat j) in
  vdot (vsub (q a) (middle_of g t)) (vcross (vsub (q b) (middle_of g t)) (vsub (q e) (middle_of g t))) = g_dx g * g_dy g * g_dz g / 4.
Proof.
  intros Hk. destruct t as [[x y] z].
  do 24 (destruct k as [|k]; [unfold indirect; cbn [nth NODE_INDIRECT]; cbv zeta; literal_indices; unfold cell_point, cell_halves, middle_of, grid_point;
    cbn [nth]; unfold vdot, vcross, vsub; cbn [vx vy vz fadd fsub fmul Rops];
    rewrite ?real_0, ?real_1, ?real_2; match goal with |- @eq _ ?a ?b => change (@eq R a b) end; field|]). lia.
Qed.

Lemma mesh_volume i c : sized g -> local_to_global p i c -> cell_volume m (N.of_nat i) = Ok (g_dx g * g_dy g * g_dz g).
Proof.
  intros (Hx & Hy & Hz) L. unfold cell_volume. rewrite (mesh_position i c L). cbn [rbind].
  destruct (mesh_points i c L) as (cc & Ecc & Lf & _ & Hf).
  rewrite (proj2 (vec_get_nth (me_conn m) (N.of_nat i) cc)) by (rewrite Nat2N.id; exact Ecc). cbn [rbind].
  set (t := cell_idx_to_tuple (g_dims g) c) in * . set (v := g_dx g * g_dy g * g_dz g / 4).
  assert (Hv : 0 < v) by (unfold v; apply Rmult_lt_0_compat; [repeat apply Rmult_lt_0_compat; assumption|lra]).
  assert (E : rmap (facet_volume (me_node m) (middle_of g t)) (cc_facet cc) = Ok (repeat v 24)).
  { assert (G : forall l, (forall fa, In fa l -> facet_volume (me_node m) (middle_of g t) fa = Ok v) ->
       rmap (facet_volume (me_node m) (middle_of g t)) l = Ok (repeat v (length l))).
    { induction l as [|fa l IH]; intros H; [reflexivity|]. cbn [rmap length repeat]. rewrite H by (left; reflexivity). cbn [rbind].
      rewrite IH by (intros; apply H; right; assumption). reflexivity. }
    rewrite <- Lf. apply G. intros fa Hin. apply In_nth_error in Hin. destruct Hin as (k & Ek).
    assert (Hk : (k < 24)%nat) by (rewrite <- Lf; apply nth_error_Some; congruence).
    destruct (Hf k Hk) as (fa' & i0 & i1 & i2 & Efa & Ep & Hp). rewrite Ek in Efa. injection Efa as <-.
    unfold facet_volume. rewrite Ep. pose proof (facet_determinant t k Hk) as D.
    destruct (indirect k) as [[a b] e]. cbv zeta in Hp, D. destruct Hp as (-> & -> & ->). cbn [rbind]. rewrite D.
    apply (f_equal (@Ok R)). cbn [fabs Rops]. apply Rabs_pos_eq. apply Rlt_le. exact Hv. }
  rewrite E. cbn [rbind]. apply (f_equal (@Ok R)). unfold fsum. cbn [repeat fold_left fadd f0 fdiv flit Rops].
  replace (Q2R (6 # 1)) with 6 by (unfold Q2R; cbn; lra). unfold v. field.
Qed.

End Mesh.
