(** Planes of the facets, reflection and directions in exact arithmetic (C36, C37, C38). *)
From Coq Require Import NArith ZArith QArith Qreals List Bool Reals Lra Lia Psatz.
From Verif Require Import Float RealOps RngModel ParticleModel MeshTypes TrackModel CycleModel GridModel MeshModel GridSpec GridLemmas
  FloodLemmas MeshFacts MeshSpec MeshTheorems TrackAccount PopSpec SegmentSpec SegmentFacts GeomSpec GeomLemmas.
Import ListNotations.
Local Open Scope R_scope.

Ltac toR := match goal with |- @eq _ ?a ?b => change (@eq R a b); apply (Rplus_eq_reg_l 0) end.
Ltac rfield := toR; field.
Ltac rring := toR; ring.

(** ** Planes *)

Lemma plane_normal (r0 r1 r2 : vec Rops) (n : vec Rops) (w : R) : 0 < w -> unit_vec n ->
  vcross (vsub r1 r0) (vsub r2 r0) = mkVec (K := Rops) (w * vx n) (w * vy n) (w * vz n) ->
  plane_new r0 r1 r2 = mkPlane (K := Rops) (vx n) (vy n) (vz n) (- dot n r0).
Proof.
  intros Hw Hn E. unfold vcross, vsub in E. cbn [vx vy vz fsub fmul Rops] in E. injection E as Ea Eb Ec.
  unfold plane_new. cbn [fsub fmul fadd fneg fdiv f1 f0 feq Rops Float.fsqrt]. rewrite Ea, Eb, Ec.
  assert (Em : sqrt (w * vx n * (w * vx n) + w * vy n * (w * vy n) + w * vz n * (w * vz n)) = w).
  { replace (w * vx n * (w * vx n) + w * vy n * (w * vy n) + w * vz n * (w * vz n)) with (w * w).
    - apply sqrt_square. lra.
    - unfold unit_vec, dot in Hn. replace (w * w) with (w * w * 1) by (rring). rewrite <- Hn. rring. }
  rewrite Em. rewrite (proj2 (Reqb_false w 0)) by lra.
  f_equal; toR; unfold dot; rfield; lra.
Qed.

Lemma plane_general (r0 r1 r2 : vec Rops) : not_aligned r0 r1 r2 ->
  let pl := plane_new r0 r1 r2 in
  unit_vec (mkVec (K := Rops) (pl_a pl) (pl_b pl) (pl_c pl)) /\
  plane_value pl r0 = 0 /\ plane_value pl r1 = 0 /\ plane_value pl r2 = 0.
Proof.
  intros H. set (v := vcross (vsub r1 r0) (vsub r2 r0)) in * .
  set (q := vx v * vx v + vy v * vy v + vz v * vz v).
  assert (Hq : 0 < q).
  { assert (C : 0 <= q) by (unfold q; nra). destruct (Rle_lt_or_eq_dec _ _ C) as [L|L]; [exact L|]. exfalso. apply H.
    assert (Z : vx v = 0 /\ vy v = 0 /\ vz v = 0) by (unfold q in L; repeat split; nra). destruct Z as (Zx & Zy & Zz).
    apply vec_eq; cbn [vx vy vz]; assumption. }
  set (w := sqrt q). assert (Hw : 0 < w) by (apply sqrt_lt_R0; exact Hq).
  assert (Hww : w * w = q) by (apply sqrt_sqrt; lra).
  set (n := mkVec (K := Rops) (vx v / w) (vy v / w) (vz v / w)).
  assert (Hn : unit_vec n).
  { unfold unit_vec, dot, n. cbn [vx vy vz]. replace (vx v / w * (vx v / w) + vy v / w * (vy v / w) + vz v / w * (vz v / w)) with (q / (w * w)) by (toR; unfold q; rfield; lra).
    rewrite Hww. rfield. lra. }
  assert (E : vcross (vsub r1 r0) (vsub r2 r0) = mkVec (K := Rops) (w * vx n) (w * vy n) (w * vz n)).
  { fold v. apply vec_eq; unfold n; cbn [vx vy vz]; rfield; lra. }
  cbv zeta. rewrite (plane_normal r0 r1 r2 n w Hw Hn E). cbn [pl_a pl_b pl_c].
  split; [exact Hn|]. unfold plane_value, dot. cbn [pl_a pl_b pl_c pl_d]. split; [rring|].
  assert (O : forall u : vec Rops, vx v * vx u + vy v * vy u + vz v * vz u = 0 -> vx n * vx u + vy n * vy u + vz n * vz u = 0).
  { intros u Hu. unfold n. cbn [vx vy vz]. replace (vx v / w * vx u + vy v / w * vy u + vz v / w * vz u) with ((vx v * vx u + vy v * vy u + vz v * vz u) / w) by (rfield; lra).
    rewrite Hu. rfield. lra. }
  pose proof (O (vsub r1 r0)) as O1. pose proof (O (vsub r2 r0)) as O2.
  unfold v, vcross, vsub in O1, O2. cbn [vx vy vz fsub fmul Rops] in O1, O2.
  specialize (O1 ltac:(rring)). specialize (O2 ltac:(rring)). split; lra.
Qed.

(** ** The planes of a mesh *)
Lemma facet_plane (g : grid Rops) (t : N * N * N) k : sized g -> (k < 24)%nat ->
  let '(a, b, e) := indirect k in
  let q j := cell_point g t (N.to_nat j) in
  exists pl, plane_new (q a) (q b) (q e) = pl /\
    mkVec (K := Rops) (pl_a pl) (pl_b pl) (pl_c pl) = outward (k / 4) /\
    (forall r, plane_value pl r = beyond g t (k / 4) r) /\
    plane_value pl (q a) = 0 /\ plane_value pl (q b) = 0 /\ plane_value pl (q e) = 0.
Proof.
  intros (Hx & Hy & Hz) Hk. destruct t as [[x y] z].
  do 24 (destruct k as [|k]; [
    match goal with |- context [outward (?kk / 4)] => let v := eval vm_compute in (kk / 4)%nat in change (kk / 4)%nat with v;
      let w := match v with 0%nat => constr:(g_dy g * g_dz g / 2) | 1%nat => constr:(g_dy g * g_dz g / 2)
               | 2%nat => constr:(g_dx g * g_dz g / 2) | 3%nat => constr:(g_dx g * g_dz g / 2)
               | _ => constr:(g_dx g * g_dy g / 2) end in
      unfold indirect; cbn [nth NODE_INDIRECT]; cbv zeta; literal_indices;
      assert (Hw : 0 < w) by nra;
      rewrite (plane_normal _ _ _ (outward v) w Hw); [
        eexists; split; [reflexivity|]; unfold plane_value; cbn [pl_a pl_b pl_c pl_d outward vx vy vz]; split; [reflexivity|]
      | unfold unit_vec, dot; cbn [outward vx vy vz]; rring
      | ]
    end;
    unfold cell_point, cell_halves, grid_point; cbn [nth];
    [ unfold dot, beyond; cbn [outward vx vy vz]; rewrite ?real_0, ?real_1, ?real_2;
      repeat split; intros; rfield
    | unfold vcross, vsub; cbn [vx vy vz fsub fmul Rops outward]; rewrite ?real_0, ?real_1, ?real_2;
      apply vec_eq; cbn [vx vy vz]; rfield ]
  |]). lia.
Qed.

Lemma Forall2_at {A B} (P : A -> B -> Prop) l l' i a b : Forall2 P l l' -> nth_error l i = Some a -> nth_error l' i = Some b -> P a b.
Proof. intros H. revert i. induction H; intros [|i]; cbn; try discriminate; [congruence|]. apply IHForall2. Qed.

Lemma mesh_planes (g : grid Rops) bc p m i c k planes pl : built g bc p m -> sized g -> local_to_global p i c ->
  nth_error (me_geom m) i = Some planes -> nth_error planes k = Some pl ->
  (k < 24)%nat /\
  mkVec (K := Rops) (pl_a pl) (pl_b pl) (pl_c pl) = outward (k / 4) /\
  (forall r, plane_value pl r = beyond g (cell_idx_to_tuple (g_dims g) c) (k / 4) r) /\
  exists r0 r1 r2, get_facet_coords m (N.of_nat i) (N.of_nat k) = Ok (r0, r1, r2) /\
    plane_value pl r0 = 0 /\ plane_value pl r1 = 0 /\ plane_value pl r2 = 0.
Proof.
  intros B Hs L Ei Ek. pose proof (global_lt _ _ _ _ B _ _ L) as Hc. pose proof (dims_ok _ _ _ _ B) as (P & Sm).
  destruct (built_mesh_is _ _ _ _ B) as (cs & boundary & Pc & Nc & Eb & M).
  pose proof L as L'. unfold local_to_global in L'. rewrite (cells_keys _ _ Nc) in L'.
  destruct (Forall2_at _ _ _ _ _ _ (mi_planes _ _ _ _ M) L' Ei) as (Lp & Hp).
  assert (Hk : (k < 24)%nat) by (rewrite <- Lp; apply nth_error_Some; congruence).
  destruct (Hp k pl Ek) as (v0 & v1 & v2 & Ev & ->). split; [exact Hk|].
  rewrite (mesh_facet_coords _ _ _ _ B i c k L Hk).
  pose proof (facet_plane g (cell_idx_to_tuple (g_dims g) c) k Hs Hk) as F3. pose proof (indirect_lt k Hk) as Il.
  unfold facet_nodes in Ev. fold (indirect k) in Ev. destruct (indirect k) as [[a b] e]. destruct Il as (La & Lb & Le).
  cbv zeta in Ev, F3 |- * . rewrite !node_point in Ev by (assumption || lia). destruct Ev as (V0 & V1 & V2).
  apply Ok_inj in V0, V1, V2. subst v0 v1 v2. destruct F3 as (pl & -> & Ho & Hb & H0 & H1 & H2).
  split; [exact Ho|]. split; [exact Hb|]. do 3 eexists. split; [reflexivity|]. auto.
Qed.

Lemma outward_unit f : unit_vec (outward f).
Proof. unfold unit_vec, dot. do 5 (destruct f as [|f]; [cbn [outward vx vy vz]; rring|]). cbn [outward vx vy vz]. rring. Qed.

Lemma inside_beyond (g : grid Rops) t r : in_cell g t r <-> forall f, (f < 6)%nat -> beyond g t f r <= 0.
Proof.
  destruct t as [[x y] z]. unfold in_cell, beyond. split.
  - intros (Hx & Hy & Hz) f Hf. do 5 (destruct f as [|f]; [lra|]). lra.
  - intros H. pose proof (H 0%nat). pose proof (H 1%nat). pose proof (H 2%nat). pose proof (H 3%nat). pose proof (H 4%nat). pose proof (H 5%nat).
    cbn in * . repeat split; (cut (0 < 6)%nat; [intros|lia]); assert ((1 < 6)%nat) by lia; assert ((2 < 6)%nat) by lia;
    assert ((3 < 6)%nat) by lia; assert ((4 < 6)%nat) by lia; assert ((5 < 6)%nat) by lia; intuition lra.
Qed.

Lemma middle_beyond (g : grid Rops) t f : sized g -> beyond g t f (middle_of g t) < 0.
Proof.
  intros (Hx & Hy & Hz). destruct t as [[x y] z]. unfold beyond, middle_of, grid_point. cbn [vx vy vz].
  do 5 (destruct f as [|f]; [nra|]). nra.
Qed.

(** ** Reflection *)

Lemma reflected (p : particle Rops) (pl : plane Rops) : unit_vec (normal_of pl) ->
  exists u, reflect_particle p pl = set_direction p u /\
    dot u u = dot (p_direction p) (p_direction p) /\
    tangential (normal_of pl) u = tangential (normal_of pl) (p_direction p) /\
    dot u (normal_of pl) = - Rabs (dot (p_direction p) (normal_of pl)) /\
    (dot (p_direction p) (normal_of pl) <= 0 -> u = p_direction p).
Proof.
  intros Hn. unfold reflect_particle. fold (normal_of pl). set (n := normal_of pl) in * . set (v := p_direction p).
  assert (Hd : vdot v n = dot v n) by reflexivity. rewrite Hd, two_R. set (s := dot v n) in * . cbn [fmul f0 flt Rops].
  unfold unit_vec in Hn. destruct (Rltb 0 (2 * s)) eqn:E.
  - apply Rltb_iff in E. exists (vsub v (vscale n (2 * s))). split; [reflexivity|].
    assert (D : dot (vsub v (vscale n (2 * s))) n = - s).
    { unfold dot, vsub, vscale. cbn [vx vy vz fsub fmul Rops]. replace (- s) with (s - 2 * s * 1) by (rring). rewrite <- Hn. unfold s, dot. rring. }
    split; [|split; [|split]].
    + unfold dot, vsub, vscale. cbn [vx vy vz fsub fmul Rops].
      replace (vx v * vx v + vy v * vy v + vz v * vz v) with (dot v v - 4 * s * s + 4 * s * s * 1) by (toR; unfold dot; rring). rewrite <- Hn.
      unfold s, dot. rring.
    + unfold tangential. rewrite D. fold s. apply vec_eq; unfold vsub, vscale; cbn [vx vy vz fsub fmul Rops]; rring.
    + rewrite D, Rabs_pos_eq by lra. reflexivity.
    + intros C. lra.
  - apply Rltb_false in E. exists v. split; [destruct p; reflexivity|]. repeat split.
    fold s. rewrite Rabs_left1 by lra. rring.
Qed.

(** ** Directions *)
Lemma draw_next (p : particle Rops) : draw p = (next_draw p, set_random_number_seed p (rng_next (p_random_number_seed p))).
Proof. reflexivity. Qed.

Lemma isotropic_unit (p : particle Rops) : unit_vec (p_direction (sample_isotropic p)).
Proof.
  unfold sample_isotropic. rewrite draw_next. set (r1 := next_draw p). pose proof (draw_unit p) as H1. fold r1 in H1.
  rewrite draw_next. set (r2 := next_draw _). cbn [p_direction set_direction]. unfold unit_vec, dot. rewrite two_R.
  cbn [vx vy vz fsub fmul f1 fcos fsin fpi Rops Float.fsqrt].
  set (z := 1 - 2 * r1). set (a := PI * (2 * r2 - 1)). set (s := sqrt (1 - z * z)).
  assert (Hs : s * s = 1 - z * z) by (apply sqrt_sqrt; unfold z; nra).
  pose proof (sin2_cos2 a) as T. unfold Rsqr in T.
  replace (s * cos a * (s * cos a) + s * sin a * (s * sin a) + z * z) with (s * s * (sin a * sin a + cos a * cos a) + z * z) by (rring).
  rewrite T, Hs. rring.
Qed.

(** The direction obtained from the angles, with the azimuth of the old direction given by [(cp, sp)]. *)
Lemma rotated (u : vec Rops) (s cp sp st ct sf cf : R) :
  unit_vec u -> s * s = 1 - vz u * vz u -> cp * cp + sp * sp = 1 -> st * st + ct * ct = 1 -> sf * sf + cf * cf = 1 ->
  let v := mkVec (K := Rops) (vz u * cp * (st * cf) - sp * (st * sf) + s * cp * ct)
                 (vz u * sp * (st * cf) + cp * (st * sf) + s * sp * ct) (- s * (st * cf) + 0 + vz u * ct) in
  unit_vec v /\ dot v (mkVec (K := Rops) (s * cp) (s * sp) (vz u)) = ct.
Proof.
  intros _ Hs Hp Ht Hf. set (z := vz u) in * . unfold unit_vec, dot. cbn [vx vy vz].
  assert (Hz : z * z = 1 - s * s) by lra.
  split.
  - replace ((z * cp * (st * cf) - sp * (st * sf) + s * cp * ct) * (z * cp * (st * cf) - sp * (st * sf) + s * cp * ct) +
      (z * sp * (st * cf) + cp * (st * sf) + s * sp * ct) * (z * sp * (st * cf) + cp * (st * sf) + s * sp * ct) +
      (- s * (st * cf) + 0 + z * ct) * (- s * (st * cf) + 0 + z * ct)) with
      ((cp * cp + sp * sp) * ((z * (st * cf) + s * ct) * (z * (st * cf) + s * ct) + st * sf * (st * sf)) +
      (- s * (st * cf) + z * ct) * (- s * (st * cf) + z * ct)) by (rring).
    rewrite Hp. replace (1 * ((z * (st * cf) + s * ct) * (z * (st * cf) + s * ct) + st * sf * (st * sf)) +
      (- s * (st * cf) + z * ct) * (- s * (st * cf) + z * ct)) with
      ((z * z + s * s) * (st * st * (cf * cf) + ct * ct) + st * st * (sf * sf)) by (rring).
    replace (z * z + s * s) with 1 by lra. replace (1 * (st * st * (cf * cf) + ct * ct) + st * st * (sf * sf)) with (st * st * (sf * sf + cf * cf) + ct * ct) by (rring).
    rewrite Hf. lra.
  - replace ((z * cp * (st * cf) - sp * (st * sf) + s * cp * ct) * (s * cp) + (z * sp * (st * cf) + cp * (st * sf) + s * sp * ct) * (s * sp) +
      (- s * (st * cf) + 0 + z * ct) * z) with ((cp * cp + sp * sp) * (s * z * (st * cf) + s * s * ct) - s * z * (st * cf) + z * z * ct) by (rring).
    rewrite Hp. replace (1 * (s * z * (st * cf) + s * s * ct) - s * z * (st * cf) + z * z * ct) with ((s * s + z * z) * ct) by (rring).
    replace (s * s + z * z) with 1 by lra. rring.
Qed.

Lemma rotation (p : particle Rops) (st ct sf cf : R) : unit_vec (p_direction p) ->
  st * st + ct * ct = 1 -> sf * sf + cf * cf = 1 ->
  let u := p_direction p in
  let v := p_direction (rotate_direction p st ct sf cf) in
  unit_vec v /\ Rabs (dot v u - ct) <= 2 / 1000000 /\ (off_axis u = 0 \/ 1 / 1000000 <= off_axis u -> dot v u = ct).
Proof.
  intros Hu Ht Hf. cbv zeta. unfold rotate_direction. set (u := p_direction p) in * .
  assert (Hlt : 0 <= 1 - vz u * vz u) by (unfold unit_vec, dot in Hu; nra).
  set (s := off_axis u) in * .
  assert (Hs : s * s = 1 - vz u * vz u) by (apply sqrt_sqrt; exact Hlt).
  assert (Hs0 : 0 <= s) by apply sqrt_pos.
  cbn [flt flit f1 f0 fmul fadd fsub fdiv fneg Rops Float.fsqrt]. change (sqrt (1 - vz u * vz u)) with s.
  replace (Q2R (1 # 1000000)) with (1 / 1000000) by (unfold Q2R; cbn; lra).
  destruct (Rltb s (1 / 1000000)) eqn:E; cbn [p_direction set_direction].
  - apply Rltb_iff in E.
    destruct (rotated u s 1 0 st ct sf cf Hu Hs ltac:(rring) Ht Hf) as (Hv & Hd). cbv zeta in Hv, Hd.
    match type of Hv with unit_vec ?w => set (v := w) in * end. split; [exact Hv|].
    assert (D : dot v u - ct = vx v * (vx u - s) + vy v * vy u).
    { rewrite <- Hd. unfold dot. cbn [vx vy vz]. rring. }
    assert (Hxy : vx u * vx u + vy u * vy u = s * s) by (unfold unit_vec, dot in Hu; lra).
    assert (Bd : (vx v * (vx u - s) + vy v * vy u) * (vx v * (vx u - s) + vy v * vy u) <= 4 * (s * s)).
    { assert (V2 : vx v * vx v + vy v * vy v <= 1) by (unfold unit_vec, dot in Hv; nra).
      assert (CS : (vx v * (vx u - s) + vy v * vy u) * (vx v * (vx u - s) + vy v * vy u) <=
                   (vx v * vx v + vy v * vy v) * ((vx u - s) * (vx u - s) + vy u * vy u)).
      { pose proof (Rle_0_sqr (vx v * vy u - vy v * (vx u - s))) as Q. unfold Rsqr in Q.
        replace ((vx v * vx v + vy v * vy v) * ((vx u - s) * (vx u - s) + vy u * vy u)) with
          ((vx v * (vx u - s) + vy v * vy u) * (vx v * (vx u - s) + vy v * vy u) +
           (vx v * vy u - vy v * (vx u - s)) * (vx v * vy u - vy v * (vx u - s))) by rring. lra. }
      assert (B2 : (vx u - s) * (vx u - s) + vy u * vy u <= 4 * (s * s)).
      { assert (- s <= vx u) by nra. nra. }
      assert (B3 : 0 <= (vx u - s) * (vx u - s) + vy u * vy u) by nra. nra. }
    split.
    + rewrite D. apply Rabs_le. assert (Hb : 2 * s <= 2 / 1000000) by lra. split; nra.
    + intros [Z|Z]; [|lra]. rewrite Z in Bd, Hxy. assert (Zd : dot v u - ct = 0) by (rewrite D, Z in * ; nra). lra.
  - apply Rltb_false in E. assert (Hs1 : 0 < s) by lra.
    assert (Hp : vx u / s * (vx u / s) + vy u / s * (vy u / s) = 1).
    { replace (vx u / s * (vx u / s) + vy u / s * (vy u / s)) with ((vx u * vx u + vy u * vy u) / (s * s)) by (rfield; lra).
      replace (vx u * vx u + vy u * vy u) with (s * s) by (unfold unit_vec, dot in Hu; lra). rfield. lra. }
    destruct (rotated u s (vx u / s) (vy u / s) st ct sf cf Hu Hs Hp Ht Hf) as (Hv & Hd). cbv zeta in Hv, Hd.
    match type of Hv with unit_vec ?w => set (v := w) in * end.
    replace (mkVec (K := Rops) (s * (vx u / s)) (s * (vy u / s)) (vz u)) with u in Hd
      by (apply vec_eq; cbn [vx vy vz]; rfield; lra).
    split; [exact Hv|]. split; [|intros _; exact Hd].
    change (Rabs (dot v u - ct) <= 2 / 1000000). rewrite Hd, Rminus_diag_eq by reflexivity. rewrite Rabs_R0. lra.
Qed.

Lemma trajectory (p : particle Rops) (e a : R) : unit_vec (p_direction p) -> -1 <= a <= 1 ->
  let u := p_direction p in let v := p_direction (update_trajectory p e a) in
  unit_vec v /\ Rabs (dot v u - a) <= 2 / 1000000 /\ (off_axis u = 0 \/ 1 / 1000000 <= off_axis u -> dot v u = a).
Proof.
  intros Hu Ha. cbv zeta. unfold update_trajectory. rewrite draw_next. cbn [fst snd]. set (q := set_kinetic_energy _ _).
  match goal with |- context [rotate_direction q ?st a (fsin ?ph) (fcos ?ph)] =>
    assert (Hst : st * st + a * a = 1) by (cbn [Float.fsqrt fsub fmul f1 Rops]; rewrite sqrt_sqrt by nra; rring);
    pose proof (sin2_cos2 ph) as T; unfold Rsqr in T;
    pose proof (rotation q st a (sin ph) (cos ph) Hu Hst T) as G end.
  exact G.
Qed.

(** A point is in a cell when it is behind all its planes. *)
Lemma behind_planes (g : grid Rops) bc p m i c planes : built g bc p m -> sized g -> local_to_global p i c ->
  nth_error (me_geom m) i = Some planes ->
  length planes = 24%nat /\
  (forall r, in_cell g (cell_idx_to_tuple (g_dims g) c) r <-> Forall (fun pl => plane_value pl r <= 0) planes) /\
  Forall (fun pl => plane_value pl (middle_of g (cell_idx_to_tuple (g_dims g) c)) < 0) planes.
Proof.
  intros B Hs L Ei. destruct (built_mesh_is _ _ _ _ B) as (cs & boundary & Pc & Nc & Eb & M).
  assert (L24 : length planes = 24%nat).
  { unfold local_to_global in L. rewrite (cells_keys _ _ Nc) in L. exact (proj1 (Forall2_at _ _ _ _ _ _ (mi_planes _ _ _ _ M) L Ei)). }
  set (t := cell_idx_to_tuple (g_dims g) c) in * .
  assert (V : forall k pl, nth_error planes k = Some pl -> (k < 24)%nat /\ forall r, plane_value pl r = beyond g t (k / 4) r).
  { intros k pl Ek. destruct (mesh_planes _ _ _ _ _ _ _ _ _ B Hs L Ei Ek) as (H1 & _ & H2 & _). auto. }
  split; [exact L24|]. split.
  - intros r. rewrite inside_beyond. split.
    + intros H. apply Forall_forall. intros pl Hin. apply In_nth_error in Hin. destruct Hin as (k & Ek). destruct (V k pl Ek) as (Hk & Ev).
      rewrite Ev. apply H. apply Nat.div_lt_upper_bound; lia.
    + intros H f Hf. destruct (nth_error planes (4 * f)) as [pl|] eqn:Ek; [|exfalso; apply nth_error_None in Ek; lia].
      destruct (V _ _ Ek) as (_ & Ev). rewrite Nat.mul_comm, Nat.div_mul in Ev by lia. rewrite <- Ev.
      rewrite Forall_forall in H. apply H. eapply nth_error_In; eauto.
  - apply Forall_forall. intros pl Hin. apply In_nth_error in Hin. destruct Hin as (k & Ek). destruct (V k pl Ek) as (Hk & Ev).
    rewrite Ev. apply middle_beyond. exact Hs.
Qed.

Lemma reflected_in_mesh (g : grid Rops) bc p m i c k planes pl (q : particle Rops) : built g bc p m -> sized g ->
  local_to_global p i c -> nth_error (me_geom m) i = Some planes -> nth_error planes k = Some pl ->
  exists u, reflect_particle q pl = set_direction q u /\ dot u u = dot (p_direction q) (p_direction q) /\
    tangential (outward (k / 4)) u = tangential (outward (k / 4)) (p_direction q) /\ dot u (outward (k / 4)) <= 0.
Proof.
  intros B Hs L Ei Ek. destruct (mesh_planes _ _ _ _ _ _ _ _ _ B Hs L Ei Ek) as (_ & Hn & _). fold (normal_of pl) in Hn.
  destruct (reflected q pl) as (u & E & H1 & H2 & H3 & _); [rewrite Hn; apply outward_unit|]. rewrite Hn in * .
  exists u. split; [exact E|]. split; [exact H1|]. split; [exact H2|]. rewrite H3.
  pose proof (Rabs_pos (dot (p_direction q) (outward (k / 4)))). lra.
Qed.
