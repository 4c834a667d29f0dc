(** The initialisation of the mesh succeeds, in exact arithmetic (C33, C34, C40). *)
From Coq Require Import NArith ZArith QArith Qreals List Bool Reals Lra Lia Psatz Permutation.
From Flocq Require Import Core.
From Verif Require Import Float RealOps RngModel RngLemmas ParticleModel NuclearModel MeshTypes CycleModel GridModel AssignModel MeshModel GridSpec GridLemmas
  FloodLemmas MeshFacts MeshSpec MeshTheorems SegmentFacts TrackAccount CycleFacts AssignLemmas CrossingLemmas PopLemmas SourceCount GeomSpec GeomLemmas PlaneLemmas SourcePoint NearestCenter.
Import ListNotations.
Local Open Scope R_scope.

Lemma real_cbrt_fifth : 0 < Rcbrt (1 / 5) < 1.
Proof.
  unfold Rcbrt. destruct (Rlt_dec 0 (1 / 5)) as [L|L]; [|exfalso; lra]. split; [apply exp_pos|].
  assert (ln (1 / 5) < 0) by (rewrite <- ln_1; apply ln_increasing; lra).
  replace 1 with (exp 0) at 2 by apply exp_0. apply exp_increasing. lra.
Qed.

Lemma axis_index_ok (x corner d : R) n : (0 < n)%N -> (x - corner) / d < IZR (2 ^ 64) -> exists i, axis_index (K := Rops) x corner d n = Ok i.
Proof.
  intros Hn Hu. unfold axis_index. cbn [fmax ffloor fsub fdiv f0 fto_usize Rops]. set (u := (x - corner) / d) in * .
  assert (E : Rmax (IZR (Zfloor u)) 0 = IZR (Z.max (Zfloor u) 0)).
  { unfold Rmax. destruct (Rle_dec (IZR (Zfloor u)) 0) as [L|L].
    - apply (le_IZR _ 0) in L. rewrite Z.max_r by lia. reflexivity.
    - apply Rnot_le_lt in L. apply (lt_IZR 0) in L. rewrite Z.max_l by lia. reflexivity. }
  rewrite E, Rto_usize_Z.
  - cbn [unwrap rbind]. unfold usub. destruct (N.leb_spec 1 n); [cbn [rbind]; eauto|lia].
  - assert (Zfloor u < 2 ^ 64)%Z; [|lia]. apply lt_IZR. pose proof (Zfloor_lb u). lra.
Qed.

(** One center. *)
Lemma gao_one (c : vec Rops) : exists a, gao_new [c] = Ok a /\ ga_dx a = 1 /\ ga_dy a = 1 /\ ga_dz a = 1 /\ ga_corner a = c.
Proof.
  unfold gao_new. cbn [vec_get N.to_nat nth_error unwrap rbind length fold_min fold_max fold_left].
  cbn [fmax fmin flit f0 fsub fmul fdiv fcbrt ffloor fto_usize fof_N Rops vx vy vz].
  replace (Q2R (1 # 1)) with 1 by (unfold Q2R; cbn; lra).
  assert (Mn : forall x : R, Rmin x x = x) by (intros x; unfold Rmin; destruct (Rle_dec x x); reflexivity).
  assert (Mx : forall x : R, Rmax x x = x) by (intros x; unfold Rmax; destruct (Rle_dec x x); reflexivity).
  rewrite !Mn, !Mx. replace (vx c - vx c) with 0 by rring. replace (vy c - vy c) with 0 by rring. replace (vz c - vz c) with 0 by rring.
  replace (Rmax 1 0) with 1 by (symmetry; apply Rmax_left; lra).
  replace (IZR (Z.of_N (N.of_nat 1)) / (IZR (Z.of_N 5) * 1 * 1 * 1)) with (1 / 5) by (cbn; lra).
  pose proof real_cbrt_fifth as Hc. rewrite !Rmult_1_r.
  replace (Zfloor (Rcbrt (1 / 5))) with 0%Z by (symmetry; apply Zfloor_imp; cbn; lra).
  replace (Rmax 1 (IZR 0)) with (IZR 1) by (symmetry; apply Rmax_left; lra).
  rewrite <- ?mult_IZR. change (1 * 1 * 1)%Z with 1%Z. rewrite ?Rmult_1_r. rewrite !(Rto_usize_Z 1) by lia. cbn [unwrap rbind Z.to_N].
  replace (1 / 1) with 1 by field. cbn [record_centers].
  assert (Ew : forall g0 : gao Rops, ga_nx g0 = 1%N -> ga_ny g0 = 1%N -> ga_nz g0 = 1%N -> ga_corner g0 = c -> which_cell_tuple g0 c = Ok (0, 0, 0)%N).
  { intros g0 H1 H2 H3 H4. unfold which_cell_tuple. rewrite H1, H2, H3, H4. unfold axis_index. cbn [fmax ffloor fsub fdiv f0 fto_usize Rops].
    replace (vx c - vx c) with 0 by rring. replace (vy c - vy c) with 0 by rring. replace (vz c - vz c) with 0 by rring.
    unfold Rdiv. rewrite !Rmult_0_l. change 0 with (IZR 0). rewrite !Zfloor_IZR, !Mx, !(Rto_usize_Z 0) by lia. reflexivity. }
  rewrite Ew; try reflexivity.
  - cbn [rbind tuple_to_index ga_nx ga_ny ga_my_centers]. change (N.to_nat (0 + 1 * (0 + 1 * 0))) with 0%nat.
    cbn [N.to_nat Pos.to_nat Pos.iter_op repeat]. cbn [vec_get nth_error unwrap rbind N.mul N.add N.to_nat].
    eexists. split; [reflexivity|]. cbn [ga_dx ga_dy ga_dz ga_corner]. repeat split; destruct c; reflexivity.
  - destruct c. reflexivity.
Qed.

(** Coordinates that the search can handle. *)
Definition within (r c : vec Rops) : Prop :=
  vx r - vx c < IZR (2 ^ 64) /\ vy r - vy c < IZR (2 ^ 64) /\ vz r - vz c < IZR (2 ^ 64) /\ dist2 r c < lit300.

Lemma one_center_search (c : vec Rops) a rr : gao_new [c] = Ok a -> within rr c -> nearest_center a rr = Ok (0%N, ga_burned a).
Proof.
  intros E (Wx & Wy & Wz & Wd). destruct (gao_one c) as (a' & E' & Dx & Dy & Dz & Dc). rewrite E in E'. apply Ok_inj in E'. subst a'.
  destruct (gao_recorded _ _ E) as (Wr & Ec). pose proof (wr_pos _ Wr) as (Px & Py & Pz). cbn [nx ny nz gdims] in Px, Py, Pz.
  assert (Et : exists t, which_cell_tuple a rr = Ok t).
  { unfold which_cell_tuple. rewrite Dx, Dy, Dz, Dc.
    destruct (axis_index_ok (vx rr) (vx c) 1 (ga_nx a)) as (i & ->); [lia|unfold Rdiv; rewrite Rinv_1, Rmult_1_r; exact Wx|].
    destruct (axis_index_ok (vy rr) (vy c) 1 (ga_ny a)) as (j & ->); [lia|unfold Rdiv; rewrite Rinv_1, Rmult_1_r; exact Wy|].
    destruct (axis_index_ok (vz rr) (vz c) 1 (ga_nz a)) as (k & ->); [lia|unfold Rdiv; rewrite Rinv_1, Rmult_1_r; exact Wz|].
    cbn [rbind]. eauto. }
  destruct Et as (t & Et). destruct (nearest_right [c] a rr t E Et) as (i & Ei & Hi); [exists c; split; [left; reflexivity|exact Wd]|].
  rewrite Ei. f_equal. f_equal. destruct Hi as (c' & Ec' & _). destruct (N.to_nat i) as [|n] eqn:En; [lia|]. destruct n; discriminate.
Qed.

Lemma flood_defined (g : grid Rops) (a : gao Rops) : positive (g_dims g) -> small (g_dims g) ->
  (forall c rr, (c < total_cells (g_dims g))%N -> cell_center g c = Ok rr -> nearest_center a rr = Ok (0%N, ga_burned a)) ->
  forall fuel queue wet m nbrs, Forall (fun c => (c < total_cells (g_dims g))%N) queue ->
  flood_loop fuel 0 g a (queue, wet) m nbrs <> Panic.
Proof.
  intros P Sm Hn. induction fuel as [|fuel IH]; intros queue wet m nbrs Hq; destruct queue as [|c queue]; cbn [flood_loop fst]; try discriminate.
  pose proof (Forall_inv Hq) as Hc. cbn beta in Hc. apply Forall_inv_tail in Hq.
  destruct (cell_center_ok g c) as (rr & Er). rewrite Er. cbn [rbind]. rewrite (Hn c rr Hc Er). cbn [rbind N.eqb snd].
  rewrite (add_nbrs_ok (g_dims g) c _ P Sm Hc). cbn [rbind].
  destruct (fold_left flood_push (all_nbrs (g_dims g) c) (queue, wet)) as [queue' wet'] eqn:Ef.
  apply flood_push_spec in Ef. destruct Ef as (new & -> & Hw & Hi & _ & _).
  replace (set_burned a (ga_burned a)) with a by (destruct a; reflexivity). apply IH.
  apply Forall_app. split; [exact Hq|]. apply Forall_forall. intros x Hx. apply Hi in Hx. eapply all_nbrs_in; eauto.
Qed.

Lemma partition_exists order (g : grid Rops) c : positive (g_dims g) -> small (g_dims g) -> center_inside g c ->
  (forall t, cell_in (g_dims g) t -> within (middle_of g t) c) ->
  exists p, build_mesh_partition order 0 0 g [c] = Ok p.
Proof.
  intros P Sm (root & Er & Hr) Hw. destruct (one_center_local g c root P Sm Er Hr) as (Nf & _).
  unfold build_mesh_partition. destruct (assign_cells 0 g [c]) as [[m nbrs]| |] eqn:E; [cbn [rbind]; eauto| |congruence].
  exfalso. unfold assign_cells in E. destruct (gao_one c) as (a & Ea & _). rewrite Ea in E. cbn [rbind vec_get N.to_nat nth_error unwrap] in E.
  rewrite Er in E. cbn [rbind] in E. rewrite (add_nbrs_ok _ root _ P Sm Hr) in E. cbn [rbind] in E.
  destruct (fold_left flood_push (all_nbrs (g_dims g) root) ([root], [root])) as [queue wet] eqn:Ef.
  apply flood_push_spec in Ef. destruct Ef as (new & -> & _ & Hi & _ & _).
  revert E. apply flood_defined; auto.
  - intros c' rr Hc' Err. rewrite center_is in Err. apply Ok_inj in Err. subst rr. eapply one_center_search; [exact Ea|].
    apply Hw. apply cell_idx_in; assumption.
  - constructor; [exact Hr|]. apply Forall_forall. intros x Hx. apply Hi in Hx. eapply all_nbrs_in; eauto.
Qed.

(** ** The whole initialisation *)
Local Opaque rng_next.

Lemma lit300_big : 3 * (IZR (2 ^ 64) * IZR (2 ^ 64)) < lit300.
Proof.
  unfold lit300. cbn [flit Rops]. unfold Q2R. cbn [Qnum Qden inject_Z]. rewrite Rinv_1, Rmult_1_r, <- !mult_IZR. apply IZR_lt. vm_compute. reflexivity.
Qed.


Lemma coordinate (l : R) (n x : N) : box_ok l -> (x < n)%N -> 0 < (real_of x + / 2) * (l / real_of n) < l.
Proof.
  intros [H0 H1] Hx. assert (Hn : real_of x + 1 <= real_of n) by (unfold real_of; rewrite <- plus_IZR; apply IZR_le; lia).
  pose proof (real_nonneg x) as Hp. set (a := real_of x) in * . set (b := real_of n) in * . clearbody a b.
  assert (Ep : 0 < l / b) by (apply Rdiv_lt_0_compat; lra). split; [apply Rmult_lt_0_compat; lra|].
  replace l with (b * (l / b)) at 2 by (field; lra). apply Rmult_lt_compat_r; lra.
Qed.

Lemma middles_within d lx ly lz t t' : box_ok lx -> box_ok ly -> box_ok lz -> cell_in d t -> cell_in d t' ->
  within (middle_of (grid_new (K := Rops) d lx ly lz) t) (middle_of (grid_new (K := Rops) d lx ly lz) t').
Proof.
  destruct t as [[x y] z], t' as [[x' y'] z']. intros Bx By Bz (Ix & Iy & Iz) (Ix' & Iy' & Iz').
  unfold within, dist2, middle_of, grid_point, grid_new. cbn [vx vy vz g_dx g_dy g_dz fdiv fof_N Rops].
  fold (real_of (nx d)) (real_of (ny d)) (real_of (nz d)).
  pose proof (coordinate _ _ _ Bx Ix) as Cx. pose proof (coordinate _ _ _ By Iy) as Cy. pose proof (coordinate _ _ _ Bz Iz) as Cz.
  pose proof (coordinate _ _ _ Bx Ix') as Cx'. pose proof (coordinate _ _ _ By Iy') as Cy'. pose proof (coordinate _ _ _ Bz Iz') as Cz'.
  set (a := (real_of x + / 2) * _) in * . set (b := (real_of y + / 2) * _) in * . set (c := (real_of z + / 2) * _) in * .
  set (a' := (real_of x' + / 2) * _) in * . set (b' := (real_of y' + / 2) * _) in * . set (c' := (real_of z' + / 2) * _) in * .
  unfold box_ok in * . pose proof lit300_big as Big. set (M := IZR (2 ^ 64)) in * . clearbody a b c a' b' c' M.
  split; [lra|]. split; [lra|]. split; [lra|]. eapply Rle_lt_trans; [|exact Big].
  assert (Sq : forall u, - M <= u <= M -> u * u <= M * M) by (intros u Hu; nra).
  pose proof (Sq (a - a') ltac:(lra)). pose proof (Sq (b - b') ltac:(lra)). pose proof (Sq (c - c') ltac:(lra)). lra.
Qed.

Lemma random_index_ok seed n : (0 < n)%N -> (n < 2 ^ 31)%N -> (seed < two64)%N -> fsample (f := Rops) (rng_next seed) < 1 ->
  exists x, random_index (K := Rops) seed n = (Ok x, rng_next seed) /\ (x < n)%N.
Proof.
  intros Hn Hs Hseed Hd. unfold random_index. pose proof (sample_unit (rng_next seed) (rng_next_lt seed)) as (H0 & _).
  set (u := fsample (f := Rops) (rng_next seed)) in * . change (0 <= u) in H0. change (u < 1) in Hd.
  cbn [fto_usize ffloor fmul fof_N Rops]. fold (real_of n). assert (Hr : 1 <= real_of n) by (apply (IZR_le 1); lia).
  assert (Hf : (0 <= Zfloor (u * real_of n) < Z.of_N n)%Z).
  { split; [apply Zfloor_lub; apply Rmult_le_pos; lra|]. apply lt_IZR. pose proof (Zfloor_lb (u * real_of n)). fold (real_of n). nra. }
  change (u * real_of n) with (Rmult u (real_of n)). rewrite Rto_usize_Z by lia. cbn [unwrap]. eexists. split; [reflexivity|]. lia.
Qed.

(** The initialisation succeeds, in exact arithmetic: the three draws that place the center are below 1
    and every cell has a known material. *)

Lemma rmap_total {A B : Type} (f : A -> result B) l : (forall a, In a l -> exists b, f a = Ok b) -> exists l', rmap f l = Ok l'.
Proof.
  induction l as [|a l IH]; intros H; cbn [rmap]; [eauto|]. destruct (H a (or_introl eq_refl)) as (b & ->). cbn [rbind].
  destruct IH as (l' & ->); [intros x Hx; apply H; right; exact Hx|]. cbn [rbind]. eauto.
Qed.

Lemma init_succeeds order d (lx ly lz : R) seed bc geoms mats :
  any_order order -> positive d -> small d -> box_ok lx -> box_ok ly -> box_ok lz -> (seed + 1 < two64)%N -> center_draws_below_1 seed ->
  requested bc 0 <> None -> material_everywhere d lx ly lz geoms mats ->
  exists p dom, init_mcunits (K := Rops) order d lx ly lz seed bc geoms mats = Ok dom /\
    built_domain (grid_new (K := Rops) d lx ly lz) bc p geoms mats dom.
Proof.
  intros Ho P Sm Bx By Bz Hseed (D1 & D2 & D3) Hbc Hm. set (g := grid_new (K := Rops) d lx ly lz) in * .
  assert (Hs : sized g).
  { destruct P as (Px & Py & Pz). unfold sized, g, grid_new. cbn [g_dx g_dy g_dz fdiv fof_N Rops].
    destruct Bx, By, Bz. split; [|split]; apply Rdiv_lt_0_compat; try assumption; apply (IZR_lt 0); lia. }
  assert (Hcen : exists root, (root < total_cells d)%N /\ initialize_centers_rand 1 g (seed + 1) = Ok [middle_of g (cell_idx_to_tuple d root)]).
  { cbn [initialize_centers_rand]. unfold random_center. cbn [g_dims g grid_new]. destruct P as (Px & Py & Pz), Sm as (Sx & Sy & Sz).
    destruct (random_index_ok (seed + 1) (nx d) Px Sx Hseed D1) as (x & -> & Hx).
    destruct (random_index_ok _ (ny d) Py Sy (rng_next_lt _) D2) as (y & -> & Hy).
    destruct (random_index_ok _ (nz d) Pz Sz (rng_next_lt _) D3) as (z & -> & Hz). cbn [rbind].
    exists (cell_tuple_to_idx d (x, y, z)). split; [apply cell_tuple_in; unfold cell_in; auto|].
    fold g. rewrite center_is. cbn [g_dims g grid_new]. reflexivity. }
  destruct Hcen as (root & Hroot & Ecen). set (c := middle_of g (cell_idx_to_tuple d root)) in * .
  assert (Hin : center_inside g c).
  { destruct (center_located g root Hs P Sm Hroot) as (r & Er & _ & Ew). rewrite center_is in Er. apply Ok_inj in Er. subst r. exists root. auto. }
  rewrite init_check; auto.
  2:{ intros c' Ec'. fold g in Ec' |- * . rewrite Ecen in Ec'. apply Ok_inj in Ec'. injection Ec' as <-. exact Hin. }
  destruct (partition_exists order g c P Sm Hin) as (p & Ep).
  { intros t Ht. apply middles_within; auto. apply cell_idx_in; assumption. }
  assert (Hp : partitioned g p) by (split; [exact P|]; split; [exact Sm|]; exists order, c; auto).
  destruct (mesh_exists g p bc Hp Hbc) as (m & B). pose proof B as (_ & boundary & Eb & Em).
  assert (Ecs : exists cs, rmap (cell_state_new m g geoms mats) (nrange 0 (length (me_geom m))) = Ok cs).
  { apply rmap_total. intros i Hi. apply nrange_in in Hi. destruct (facets_exist _ _ _ _ B) as (Lc & Hg & _).
    assert (Lg : length (me_geom m) = N.to_nat (total_cells d)).
    { destruct (built_mesh_is _ _ _ _ B) as (cs & b' & Pc & _ & _ & M). pose proof (mi_planes _ _ _ _ M) as F2. apply Forall2_length in F2.
      rewrite <- F2, (Permutation_length Pc). apply nrange_length. }
    destruct (Hg (N.to_nat i)) as (cg & Lcg); [rewrite Lc; cbn [g_dims g grid_new]; lia|].
    pose proof (global_lt _ _ _ _ B _ _ Lcg) as Hcg. rewrite <- (Nnat.N2Nat.id i). unfold cell_state_new.
    rewrite (mesh_position _ _ _ _ B _ _ Lcg). cbn [rbind].
    destruct (Hm (cell_idx_to_tuple d cg)) as (name & En & Emat); [apply cell_idx_in; assumption|].
    fold g in En. change (g_dims g) with d. rewrite En. cbn [rbind]. destruct (find_material_idx mats name) as [mat|]; [|congruence]. cbn [unwrap rbind].
    rewrite (mesh_volume _ _ _ _ B _ _ Hs Lcg). cbn [rbind].
    destruct (center_located g cg Hs P Sm Hcg) as (r & Er & _ & Ew). rewrite center_is in Er. apply Ok_inj in Er. change (g_dims g) with d in Er. rewrite Er, Ew.
    cbn [rbind]. eauto. }
  destruct Ecs as (cs & Ecs). exists p.
  assert (Ed : domain_new p g bc geoms mats = Ok (mkDomain (me_domain_gid m) cs m)) by (unfold domain_new; rewrite Eb; cbn [rbind]; rewrite Em; cbn [rbind]; rewrite Ecs; reflexivity).
  eexists. split; [|split; [exact Hp|exact Ed]].
  unfold init_mesh. fold g. rewrite (proj2 (N.ltb_lt _ _) Hseed). cbn [rbind]. rewrite Ecen. cbn [rbind]. rewrite Ep. cbn [rbind]. exact Ed.
Qed.
