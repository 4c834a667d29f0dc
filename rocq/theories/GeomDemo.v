(** Concrete cases for the claims about geometry. *)
From Coq Require Import NArith ZArith QArith Qreals List Bool Reals Lra Lia Psatz String.
From Flocq Require Import Core.
From Verif Require Import Float RealOps RngModel RngLemmas ParticleModel NuclearModel MeshTypes Balance TrackModel CycleModel GridModel AssignModel MeshModel Ieee
  GridSpec GridLemmas MeshSpec CycleSpec SegmentSpec SegmentFacts PopSpec SourceCount PopDemo GeomSpec GeomLemmas PlaneLemmas SourcePoint NearestCenter InitReal WellBuilt TrackAccount.
Import ListNotations.
Local Open Scope R_scope.

(** ** A box of 2x3x4 cells *)
Definition box_dims : dims := mkDims 2 3 4.
Definition box : grid Rops := grid_new (K := Rops) box_dims (10 : R) (20 : R) (30 : R).
Definition box_geoms : list (geometry_params Rops) :=
  [mkGeomParams (K := Rops) "fuel" Brick (0 : R) (0 : R) (0 : R) (0 : R) (0 : R) (0 : R) (0 : R) (10 : R) (20 : R) (30 : R)].
Definition box_mats : list (material Rops) := td_mats (mc_track (tiny_md 1000)).

Lemma draw_below_1 s : (round53 s < two64)%N -> fsample (f := Rops) s < 1.
Proof.
  intros H. cbn [fsample Rops]. assert (P : 0 < IZR (Z.of_N two64)) by (apply (IZR_lt 0); reflexivity).
  apply Rmult_lt_reg_r with (IZR (Z.of_N two64)); [exact P|]. unfold Rdiv. rewrite Rmult_assoc, Rinv_l, Rmult_1_r, Rmult_1_l by lra.
  apply IZR_lt. lia.
Qed.

Lemma box_sized : sized box.
Proof. unfold sized, box, grid_new. cbn [g_dx g_dy g_dz fdiv fof_N Rops nx ny nz box_dims]. cbn. lra. Qed.

Lemma box_material : material_everywhere box_dims 10 20 30 box_geoms box_mats.
Proof.
  intros [[x y] z] (Hx & Hy & Hz). exists "fuel"%string. split; [|discriminate].
  assert (B10 : box_ok 10) by (unfold box_ok; split; [lra|apply IZR_lt; reflexivity]).
  assert (B20 : box_ok 20) by (unfold box_ok; split; [lra|apply IZR_lt; reflexivity]).
  assert (B30 : box_ok 30) by (unfold box_ok; split; [lra|apply IZR_lt; reflexivity]).
  pose proof (coordinate 10 _ _ B10 Hx) as Cx. pose proof (coordinate 20 _ _ B20 Hy) as Cy. pose proof (coordinate 30 _ _ B30 Hz) as Cz.
  unfold find_material, box_geoms. cbn [rev app rfold is_inside gp_shape gp_x_min gp_x_max gp_y_min gp_y_max gp_z_min gp_z_max gp_material_name].
  unfold middle_of, grid_point, grid_new. cbn [vx vy vz g_dx g_dy g_dz fdiv fof_N Rops fle]. unfold real_of in * .
  rewrite !(proj2 (Rleb_iff _ _)) by lra. reflexivity.
Qed.

Lemma box_init : exists p dom, init_mcunits (K := Rops) (fun l => l) box_dims (10 : R) (20 : R) (30 : R) 7 "octant" box_geoms box_mats = Ok dom /\
  built_domain box "octant" p box_geoms box_mats dom.
Proof.
  apply init_succeeds.
  - intros l. apply Permutation.Permutation_refl.
  - cbv; auto.
  - cbv; auto.
  - unfold box_ok; split; [lra|apply IZR_lt; reflexivity].
  - unfold box_ok; split; [lra|apply IZR_lt; reflexivity].
  - unfold box_ok; split; [lra|apply IZR_lt; reflexivity].
  - reflexivity.
  - repeat split; apply draw_below_1; vm_compute; reflexivity.
  - discriminate.
  - exact box_material.
Qed.

(** The first source in that box. *)
Lemma box_source : exists p dom s1 u c, built_domain box "octant" p box_geoms box_mats dom /\
  prepare_cycle (tiny_md 1000) (initial_sim (tiny_md 1000) dom) = Ok s1 /\
  source_now (tiny_md 1000) (s_source_weight s1) (s_unit s1) (s_cont s1) = Ok (u, c) /\ (76 < List.length (processing c) <= 100)%nat.
Proof.
  destruct box_init as (p & dom & _ & D). pose proof (built_domain_parts _ _ _ _ _ _ D) as (B & _ & Lc & Hm).
  destruct (built_complete _ _ _ _ B) as (Cg & Ln). change (N.to_nat (total_cells (g_dims box))) with 24%nat in Ln.
  set (v := g_dx box * g_dy box * g_dz box). assert (Ev : v = 250) by (unfold v, box, grid_new; cbn [g_dx g_dy g_dz fdiv fof_N Rops nx ny nz box_dims]; cbn; field).
  assert (Hx : Forall2 (emits (tiny_md 1000)) (d_cells dom) (repeat (v * 1 * 1) 24)).
  { rewrite <- Ln, <- Lc. assert (G : forall l, (forall cs, In cs l -> emits (tiny_md 1000) cs (v * 1 * 1 : R)) -> Forall2 (emits (tiny_md 1000)) l (repeat (v * 1 * 1) (List.length l))).
    { induction l as [|cs l IH]; intros H; cbn [List.length repeat]; constructor; [apply H; left; reflexivity|apply IH; intros x Hx; apply H; right; exact Hx]. }
    apply G. intros cs Hin. pose proof Hm as Hm'. rewrite Forall_forall in Hm'. specialize (Hm' cs Hin). cbn [List.length box_mats tiny_md td_mats mc_track] in Hm'.
    apply In_nth_error in Hin. destruct Hin as (i & Hi). destruct (cell_facts _ _ _ _ _ _ D box_sized i cs Hi) as (c & _ & _ & _ & Evol & _).
    exists (mkMaterial (K := Rops) "fuel" (12 : R) []), tiny_mat. split; [|split; [reflexivity|]].
    - assert (E0 : N.to_nat (cs_material cs) = 0%nat) by (change (N.of_nat (List.length box_mats)) with 1%N in Hm'; lia). rewrite E0. reflexivity.
    - rewrite Evol. reflexivity. }
  destruct (prepare_defined (tiny_md 1000) (initial_sim (tiny_md 1000) dom) _ (tiny_known 1000) Hx) as (s1 & Hp & Ec & Eb); [reflexivity|].
  assert (P1 : Forall (fun x => 0 <= x) (repeat (v * 1 * 1) 24)) by (apply Forall_forall; intros x Hin; apply repeat_spec in Hin; subst x; rewrite Ev; lra).
  assert (P2 : 0 < Rsum (repeat (v * 1 * 1) 24)) by (rewrite Ev; cbn [repeat Rsum fold_right]; lra).
  assert (P3 : (0 < sp_n_particles (mc_params (tiny_md 1000)) < 2 ^ 64)%N) by (split; reflexivity).
  destruct (source_defined _ _ _ _ Hp Hx P1 P2 P3 (tiny_known 1000) (proj1 Cg) (eq_sym Lc)) as (u & c & Hs).
  exists p, dom, s1, u, c. split; [exact D|]. split; [exact Hp|]. split; [exact Hs|].
  destruct (source_count _ _ _ _ _ _ Hp Hs Hx P1 P2 P3) as (ns & new & _ & _ & _ & E1 & E2 & _ & E3 & E4).
  rewrite E1, Ec. cbn [swap_processing_processed initial_sim s_cont processing processed app].
  cbn [mc_params tiny_md sp_n_particles] in E3, E4. rewrite repeat_length in E4.
  rewrite <- E2 in E3, E4. set (k := List.length new) in * . clearbody k.
  change (IZR (Z.of_N 1000) / 10) with (1000 / 10) in * .
  assert (L1 : (Z.of_N (N.of_nat k) <= 100)%Z) by (apply le_IZR; lra).
  assert (L2 : (76 < Z.of_N (N.of_nat k))%Z) by (apply lt_IZR; change (INR 24) with (INR (Z.to_nat 24)) in E4; rewrite INR_IZR_INZ in E4; cbn [Z.of_nat Z.to_nat] in E4; change (Z.of_nat (Pos.to_nat 24)) with 24%Z in E4; lra).
  lia.
Qed.

(** ** A direction very close to the z axis *)
Definition tilt : R := 1 / 2000000.
Definition near_axis : vec Rops := mkVec (K := Rops) 0 tilt (sqrt (1 - tilt * tilt)).
(** The draw after this seed is 0. *)
Definition zero_seed : N := 17295553536498714127.
Definition tilted : particle Rops :=
  set_random_number_seed (set_direction (particle_default (K := Rops)) near_axis) zero_seed.

Lemma tilt_root : sqrt (1 - tilt * tilt) * sqrt (1 - tilt * tilt) = 1 - tilt * tilt /\ 0 < sqrt (1 - tilt * tilt).
Proof. split; [apply sqrt_sqrt; unfold tilt; lra|apply sqrt_lt_R0; unfold tilt; lra]. Qed.

Lemma near_axis_unit : unit_vec near_axis.
Proof. unfold unit_vec, dot, near_axis. cbn [vx vy vz]. destruct tilt_root as (-> & _). rring. Qed.

Lemma near_axis_off : off_axis near_axis = tilt.
Proof.
  unfold off_axis, near_axis. cbn [vz]. destruct tilt_root as (-> & _). replace (1 - (1 - tilt * tilt)) with (tilt * tilt) by ring.
  apply sqrt_square. unfold tilt. lra.
Qed.

Lemma zero_draw : next_draw tilted = 0.
Proof.
  unfold next_draw, tilted. cbn [p_random_number_seed set_random_number_seed]. cbn [fsample Rops].
  replace (round53 (rng_next zero_seed)) with 0%N by (vm_compute; reflexivity). unfold Rdiv. rewrite Rmult_0_l. reflexivity.
Qed.

(** The rotation is not exact there. *)
Lemma rotation_inexact : exists (p : particle Rops) (e a : R), unit_vec (p_direction p) /\ -1 <= a <= 1 /\
  0 < off_axis (p_direction p) < 1 / 1000000 /\ dot (p_direction (update_trajectory p e a)) (p_direction p) <> a.
Proof.
  exists tilted, 1, 0. change (p_direction tilted) with near_axis.
  split; [exact near_axis_unit|]. split; [lra|]. split; [rewrite near_axis_off; unfold tilt; lra|].
  unfold update_trajectory. rewrite draw_next, zero_draw. unfold rotate_direction. cbn [fst snd p_direction set_kinetic_energy set_random_number_seed].
  change (p_direction tilted) with near_axis. cbn [Float.fsqrt fsub fmul fadd fneg f1 f0 flt flit fsin fcos fpi fdiv Rops]. fold (off_axis near_axis).
  rewrite near_axis_off. rewrite (proj2 (Rltb_iff tilt (Q2R (1 # 1000000)))) by (unfold tilt, Q2R; cbn; lra).
  unfold sample_num_mfp. rewrite draw_next. cbn [p_direction set_num_mean_free_paths set_random_number_seed set_direction].
  rewrite !Rmult_0_r, sin_0, cos_0, Rminus_0_r, sqrt_1.
  unfold dot, near_axis. cbn [vx vy vz]. destruct tilt_root as (E & P). set (c := sqrt (1 - tilt * tilt)) in * .
  assert (T : 0 < tilt) by (unfold tilt; lra). intros C. assert (0 < tilt * c) by (apply Rmult_lt_0_compat; assumption). lra.
Qed.

(** ** Two centers at the same distance *)
Definition pt (x : Z) : vec K64 := mkVec (K := K64) (flit (f := K64) (inject_Z x)) (f0 (f := K64)) (f0 (f := K64)).
Definition tie_centers : list (vec K64) := map pt [47; 53; 0; 0; 0; 0; 100; 100; 100; 100]%Z.

Definition tie_check : bool :=
  match gao_new tie_centers with
  | Ok a => match nearest_center a (pt 50) with
            | Ok (1%N, _) => feq (f := K64) (vdot (vsub (pt 50) (pt 47)) (vsub (pt 50) (pt 47))) (vdot (vsub (pt 50) (pt 53)) (vsub (pt 50) (pt 53)))
            | _ => false end
  | _ => false
  end.
Lemma tie_checked : tie_check = true.
Proof. vm_compute. reflexivity. Qed.

Lemma tie_broken : exists (centers : list (vec K64)) (r c0 c1 : vec K64) a b, gao_new centers = Ok a /\ nearest_center a r = Ok (1%N, b) /\
  nth_error centers 0 = Some c0 /\ nth_error centers 1 = Some c1 /\
  feq (f := K64) (vdot (vsub r c0) (vsub r c0)) (vdot (vsub r c1) (vsub r c1)) = true.
Proof.
  pose proof tie_checked as H. unfold tie_check in H. exists tie_centers, (pt 50), (pt 47), (pt 53).
  destruct (gao_new tie_centers) as [a| |] eqn:Ea; [|discriminate|discriminate].
  destruct (nearest_center a (pt 50)) as [[i b]| |] eqn:En; [|discriminate|discriminate].
  exists a, b. split; [reflexivity|].
  destruct i as [|[q|q|]]; [discriminate H|discriminate H|discriminate H|].
  split; [exact En|]. split; [reflexivity|]. split; [reflexivity|]. exact H.
Qed.


(** ** Cases in the box *)
Lemma box_cell : exists p dom c, built_domain box "octant" p box_geoms box_mats dom /\ built box "octant" p (d_mesh dom) /\ local_to_global p 0 c.
Proof.
  destruct box_init as (p & dom & _ & D). pose proof (built_domain_parts _ _ _ _ _ _ D) as (B & _ & Lc & _).
  destruct (built_complete _ _ _ _ B) as (_ & Ln). destruct (MeshTheorems.facets_exist _ _ _ _ B) as (_ & Hg & _).
  destruct (Hg 0%nat) as (c & L); [rewrite Ln; change (N.to_nat (total_cells (g_dims box))) with 24%nat; lia|]. exists p, dom, c. auto.
Qed.

Lemma located_case : sized box /\ small (g_dims box) /\ cell_in (g_dims box) (1, 2, 3)%N /\
  in_cell_half_open box (1, 2, 3)%N (mkVec (K := Rops) 9 19 29) /\ exists p dom c, built box "octant" p (d_mesh dom) /\ local_to_global p 0 c.
Proof.
  split; [exact box_sized|]. split; [cbv; auto|]. split; [cbv; auto|]. split.
  - unfold in_cell_half_open, box, grid_new, real_of. cbn [vx vy vz g_dx g_dy g_dz fdiv fof_N Rops nx ny nz box_dims]. cbn. lra.
  - destruct box_cell as (p & dom & c & _ & B & L). exists p, dom, c. auto.
Qed.

Lemma alignment_case : not_aligned (mkVec (K := Rops) 1 2 3) (mkVec (K := Rops) 4 5 7) (mkVec (K := Rops) 0 1 9).
Proof. unfold not_aligned, vcross, vsub. cbn [vx vy vz fsub fmul Rops]. intros H. injection H as H1 H2 H3. lra. Qed.

Lemma planes_case : exists p dom c planes pl, built box "octant" p (d_mesh dom) /\ sized box /\ local_to_global p 0 c /\
  nth_error (me_geom (d_mesh dom)) 0 = Some planes /\ nth_error planes 5 = Some pl.
Proof.
  destruct box_cell as (p & dom & c & _ & B & L). exists p, dom, c. destruct (built_complete _ _ _ _ B) as ((_ & Lg & F24) & Ln).
  change (N.to_nat (total_cells (g_dims box))) with 24%nat in Ln.
  destruct (nth_error (me_geom (d_mesh dom)) 0) as [planes|] eqn:E; [|exfalso; apply nth_error_None in E; lia].
  rewrite Forall_forall in F24. specialize (F24 planes (nth_error_In _ _ E)).
  destruct (nth_error planes 5) as [pl|] eqn:E5; [|exfalso; apply nth_error_None in E5; lia].
  exists planes, pl. split; [exact B|]. split; [exact box_sized|]. auto.
Qed.

Lemma reflection_case : exists p dom c planes pl, built box "octant" p (d_mesh dom) /\ sized box /\ local_to_global p 0 c /\
  nth_error (me_geom (d_mesh dom)) 0 = Some planes /\ nth_error planes 5 = Some pl /\ unit_vec (normal_of pl).
Proof.
  destruct planes_case as (p & dom & c & planes & pl & B & Hs & L & E & E5). exists p, dom, c, planes, pl.
  destruct (mesh_planes _ _ _ _ _ _ _ _ _ B Hs L E E5) as (_ & Hn & _). repeat (split; [assumption|]). unfold normal_of. rewrite Hn. apply outward_unit.
Qed.

Lemma off_axis_case : unit_vec (mkVec (K := Rops) (3 / 5) 0 (4 / 5)) /\ off_axis (mkVec (K := Rops) (3 / 5) 0 (4 / 5)) = 3 / 5.
Proof.
  split; [unfold unit_vec, dot; cbn [vx vy vz]; lra|]. unfold off_axis. cbn [vz].
  replace (1 - 4 / 5 * (4 / 5)) with (3 / 5 * (3 / 5)) by lra. apply sqrt_square. lra.
Qed.

Lemma spread_case : spread [mkVec (K := Rops) 1 2 3; mkVec (K := Rops) 0 0 0; mkVec (K := Rops) 40 0 0; mkVec (K := Rops) 0 9 70] 80 /\
  real_of (N.of_nat 3) * 80 < IZR (2 ^ 21).
Proof.
  split; [|change (real_of (N.of_nat 3)) with 3; apply Rlt_le_trans with 1000; [lra|apply IZR_le; lia]].
  intros u v Hu Hv. cbn [In] in Hu, Hv. destruct Hu as [<-|[<-|[<-|[<-|[]]]]], Hv as [<-|[<-|[<-|[<-|[]]]]]; cbn [vx vy vz]; lra.
Qed.
