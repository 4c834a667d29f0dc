(** Concrete tracks in the box of 2x3x4 cells: one that crosses a face and stays in its cells, one that passes by an edge and leaves its cell (C59). *)
From Coq Require Import NArith ZArith QArith Qreals List Bool String Reals Lra Lia Psatz Permutation.
From Verif Require Import Float RealOps RngModel ParticleModel NuclearModel MeshTypes Balance TrackModel CycleModel GridModel MeshModel GridSpec GridLemmas
  FloodLemmas MeshFacts MeshSpec MeshTheorems WellBuilt TrackSpec TrackAccount CycleSpec PopSpec SegmentSpec NearestLemmas FacetLemmas SegmentFacts SegmentDefined SegmentDemo CrossingLemmas
  GeomSpec GeomLemmas PlaneLemmas SourcePoint GeomDemo StaySpec StayLemmas StaySteps StayRun.
Import ListNotations.
Local Open Scope R_scope.

Lemma box_x : g_dx box = 5. Proof. unfold box, grid_new. cbn [g_dx fdiv fof_N Rops nx box_dims]. cbn. lra. Qed.
Lemma box_y : g_dy box = 20 / 3. Proof. unfold box, grid_new. cbn [g_dy fdiv fof_N Rops ny box_dims]. cbn. lra. Qed.
Lemma box_z : g_dz box = 15 / 2. Proof. unfold box, grid_new. cbn [g_dz fdiv fof_N Rops nz box_dims]. cbn. lra. Qed.
Lemma box_fits : fits box.
Proof. unfold fits. rewrite box_x, box_y, box_z. pose proof huge_large. lra. Qed.

(** ** The distances to the facets of a cell of a built mesh *)
Section Cell.
Variables (g : grid Rops) (bc : string) (pt : partition) (m : mesh Rops) (i : nat) (c : N).
Hypothesis B : built g bc pt m.
Hypothesis Hs : sized g.
Hypothesis L : local_to_global pt i c.
Let t := cell_idx_to_tuple (g_dims g) c.

Lemma entry_is (p : particle Rops) ds j y : p_cell p = N.of_nat i -> distances_now m p ds -> nth_error ds j = Some y ->
  (j < 24)%nat /\ ((0 < dot (p_direction p) (outward (j / 4)) /\ beyond g t (j / 4) (along (p_coordinate p) (p_direction p) y) = 0) \/ y = huge).
Proof.
  intros Hc (planes & Epl & Eds) Ej. rewrite Hc in Epl, Eds. apply vec_get_nth in Epl. rewrite Nat2N.id in Epl.
  destruct (distances_each _ _ _ _ _ _ _ _ Eds _ _ Ej) as (pl & Epj & Ed). rewrite N.add_0_l in Ed.
  destruct (mesh_planes _ _ _ _ _ _ _ _ _ B Hs L Epl Epj) as (Hj & Hn & Hv & _). fold t in Hv. split; [exact Hj|].
  destruct (facet_distance_right _ _ _ _ _ _ _ _ Ed) as [(fc & Ef & H1 & H2 & H3 & H4)|(Hy & Hno)]; [left|right; exact Hy].
  rewrite Hv in H3. split; [|exact H3]. rewrite <- Hn. unfold normal_speed in H1. unfold dot. cbn [vx vy vz]. change (F Rops) with R in * . lra.
Qed.

Lemma entry_hit (p : particle Rops) ds j d : p_cell p = N.of_nat i -> in_cell g t (p_coordinate p) -> distances_now m p ds -> (j < 24)%nat ->
  0 < dot (p_direction p) (outward (j / 4)) -> beyond g t (j / 4) (along (p_coordinate p) (p_direction p) d) = 0 ->
  (let '(a, b, e) := indirect j in let q n := cell_point g t (N.to_nat n) in
   forall pl : plane Rops, mkVec (K := Rops) (pl_a pl) (pl_b pl) (pl_c pl) = outward (j / 4) ->
     dist_to_segment (along (p_coordinate p) (p_direction p) d) pl (q a, q b, q e) = true) ->
  nth_error ds j = Some d.
Proof.
  intros Hc Hin (planes & Epl & Eds) Hj Hout Hz Hd. rewrite Hc in Epl, Eds. apply vec_get_nth in Epl. rewrite Nat2N.id in Epl.
  destruct (behind_planes _ _ _ _ _ _ _ B Hs L Epl) as (L24 & _ & _).
  assert (Lds : List.length ds = 24%nat) by (rewrite (distances_length _ _ _ _ _ _ _ _ Eds); exact L24).
  destruct (nth_error ds j) as [y|] eqn:Ej; [|exfalso; apply nth_error_None in Ej; lia].
  destruct (distances_each _ _ _ _ _ _ _ _ Eds _ _ Ej) as (pl & Epj & Ed). rewrite N.add_0_l in Ed.
  destruct (mesh_planes _ _ _ _ _ _ _ _ _ B Hs L Epl Epj) as (_ & Hn & Hv & _). fold t in Hv.
  assert (Sp : normal_speed pl (p_direction p) = dot (p_direction p) (outward (j / 4))).
  { rewrite <- Hn. unfold normal_speed, dot. cbn [vx vy vz]. rring. }
  pose proof (mesh_facet_coords _ _ _ _ B i c j L Hj) as Efc. fold t in Efc.
  destruct (facet_distance_right _ _ _ _ _ _ _ _ Ed) as [(fc & Ef & H1 & H2 & H3 & H4)|(Hy & Hno)].
  - rewrite Hv in H3. rewrite beyond_along in H3, Hz. f_equal. apply Rmult_eq_reg_r with (dot (p_direction p) (outward (j / 4))); lra.
  - exfalso. destruct (indirect j) as [[a b] e]. cbv zeta in Efc, Hd. apply (Hno _ d Efc). split; [rewrite Sp; exact Hout|]. split.
    { left. rewrite Hv. apply inside_beyond; [exact Hin|]. apply Nat.div_lt_upper_bound; lia. }
    split; [rewrite Hv; exact Hz|apply Hd; exact Hn].
Qed.

End Cell.

(** ** A flight without collision *)
Lemma free_flight (dom : domain Rops) (p : particle Rops) (P : N -> Prop) (D : R) :
  complete_geometry (d_mesh dom) -> (p_cell p < N.of_nat (List.length (me_conn (d_mesh dom))))%N ->
  0 <= p_time_to_census p -> / 2 <= p_num_mean_free_paths p -> 0 < get_speed p -> p_num_segments p <= 10 ->
  (forall ds i df, distances_now (d_mesh dom) p ds -> facet_choice ds i df -> df = D /\ P i) -> 0 < D < huge / 2 ->
  get_speed p * p_time_to_census p < huge / 2 ->
  exists o q, outcome_after dom p (get_speed p) false (0 : F Rops) = Ok (o, q) /\
    (D < get_speed p * p_time_to_census p -> o = OutFacetCrossing /\ p_segment_path_length q = D /\ P (p_facet q) /\
       p_time_to_census q = Rmax (p_time_to_census p - D / get_speed p) 0 /\ p_num_mean_free_paths q = p_num_mean_free_paths p - D / huge) /\
    (get_speed p * p_time_to_census p < D -> o = OutCensus /\ p_segment_path_length q = get_speed p * p_time_to_census p) /\
    p_coordinate q = along (p_coordinate p) (p_direction p) (p_segment_path_length q) /\
    p_direction q = p_direction p /\ p_cell q = p_cell p /\ p_kinetic_energy q = p_kinetic_energy p /\ p_num_segments q = p_num_segments p.
Proof.
  intros Hm Hc Ht Hn Hv Hns Hch HD Hdz. pose proof huge_large as Hh.
  assert (Hot : on_time p) by (split; [exact Ht|lra]).
  destruct (outcome_defined dom p (get_speed p) false 0 Hm Hc ltac:(lra) ltac:(lra) Hot) as (o & q & E).
  destruct (outcome_first _ _ _ _ _ _ E) as (n & ds & i & df & Pn & Hds & Hfc & Hev & Hi & Hx).
  destruct (Hch _ _ _ Hds Hfc) as (-> & Pi).
  assert (En : n = p_num_mean_free_paths p) by (destruct Pn as [(_ & Pn)|(C & _)]; [exact Pn|exfalso; lra]). subst n.
  assert (Em : mean_path 0 = huge) by (unfold mean_path; destruct (Req_EM_T 0 0); congruence). rewrite Em in Hev.
  assert (Hdc : huge / 2 <= Rmin huge (p_num_mean_free_paths p * huge)).
  { apply Rmin_glb; [lra|]. assert (/ 2 * huge <= p_num_mean_free_paths p * huge) by (apply Rmult_le_compat_r; lra). lra. }
  set (dc := Rmin huge (p_num_mean_free_paths p * huge)) in * . clearbody dc.
  destruct (outcome_parts _ _ _ _ _ _ _ E) as (i' & df' & p1 & d & Enf & _ & _ & Eq).
  destruct (nearest_facet_first _ _ _ _ Enf) as ((x1 & Hp1) & _).
  destruct (end_clock p1 (get_speed p) d o i') as (E1 & _ & E3 & E4 & E5 & E6 & E7 & E8). cbv zeta in * . rewrite <- Eq in * .
  destruct (prepared_paths p 0) as (Pn' & Pm & Pt & _ & Pc & Pd & Px & Ps).
  assert (En' : p_num_mean_free_paths (prepared_for p 0) = p_num_mean_free_paths p) by (destruct Pn' as [(_ & Pn')|(C & _)]; [exact Pn'|exfalso; lra]).
  exists o, q. split; [exact E|]. split; [|split; [|split; [|split; [|split; [|split]]]]].
  - intros Hlt. destruct o; cbn [first_event] in Hev; [exfalso; lra| |exfalso; lra]. split; [reflexivity|]. split; [lra|].
    split; [rewrite Hi by reflexivity; exact Pi|]. rewrite E3 in Hev. assert (Ed : d = D) by lra. rewrite Ed in * . split.
    + rewrite E1, (proj2 (Reqb_false D 0) ltac:(lra)). replace (p_time_to_census p1) with (p_time_to_census p : R) by (rewrite Hp1; symmetry; exact Pt). reflexivity.
    + rewrite E4. replace (p_num_mean_free_paths p1) with (p_num_mean_free_paths p : R) by (rewrite Hp1; symmetry; exact En').
      replace (p_mean_free_path p1) with (mean_path 0) by (rewrite Hp1; symmetry; exact Pm). rewrite Em. reflexivity.
  - intros Hlt. destruct o; cbn [first_event] in Hev; [exfalso; lra|exfalso; lra|]. split; [reflexivity|lra].
  - apply Hx; lra.
  - rewrite E7, Hp1. exact Pd.
  - rewrite E8, Hp1. exact Pc.
  - rewrite E5, Hp1. unfold prepared_for. cbv zeta. match goal with |- context [if feq ?a ?b then sample_num_mfp _ else _] => destruct (feq a b) end; reflexivity.
  - rewrite Eq. unfold segment_end. cbv zeta. transitivity (p_num_segments p1); [|rewrite Hp1; exact Ps].
    destruct o; destruct (feq d f0); reflexivity.
Qed.

(** ** Crossing to the next cell *)
Lemma cross_step g bc pt td (dom : domain Rops) (p q : particle Rops) c k : built g bc pt (d_mesh dom) -> on_time p ->
  outcome_after dom p (get_speed p) false (0 : F Rops) = Ok (OutFacetCrossing, q) ->
  local_to_global pt (N.to_nat (p_cell q)) c -> p_facet q = N.of_nat k -> (k < 24)%nat ->
  on_boundary (g_dims g) (cell_idx_to_tuple (g_dims g) c) (k / 4) = false ->
  exists p' c', seg_step td dom p (SegFacet TransitOnProcessor) true p' [] /\ local_to_global pt (N.to_nat (p_cell p')) c' /\
    cell_idx_to_tuple (g_dims g) c' = one_step (cell_idx_to_tuple (g_dims g) c) (k / 4) /\
    (p_cell p' < N.of_nat (List.length (me_conn (d_mesh dom))))%N /\
    p_coordinate p' = p_coordinate q /\ p_direction p' = p_direction q /\ p_time_to_census p' = p_time_to_census q /\
    p_num_mean_free_paths p' = p_num_mean_free_paths q /\ p_kinetic_energy p' = p_kinetic_energy q /\ p_num_segments p' = p_num_segments q + 1.
Proof.
  intros B Ht Ho L Ek Hk Eb. destruct (on_time_enters _ Ht) as (E1 & E2).
  assert (Lm : forall j cc, local_to_global pt j cc -> (j < List.length (me_conn (d_mesh dom)))%nat).
  { intros j cc Lj. destruct (built_mesh_is _ _ _ _ B) as (cs & boundary & Pc & Nc & _). unfold local_to_global in Lj. rewrite (cells_keys _ _ Nc) in Lj.
    destruct (facets_exist _ _ _ _ B) as (Ln & _). rewrite Ln. apply Permutation_length in Pc. assert (El : List.length cs = N.to_nat (total_cells (g_dims g))) by (rewrite Pc; apply FloodLemmas.nrange_length). rewrite <- El.
    apply nth_error_Some. intros C. pose proof (eq_trans (eq_sym Lj) C) as D. discriminate D. }
  destruct (facets_exist _ _ _ _ B) as (_ & _ & Hfa). destruct (Hfa _ k (Lm _ _ L) Hk) as (fa & Hat). pose proof Hat as (conn & Hconn & Hf).
  pose proof (boundary_events _ _ _ _ _ _ _ _ B L Hat) as Hbe. rewrite Eb in Hbe.
  destruct (adjacency_back _ _ _ _ _ _ _ _ B L Hat) as (j & k' & fa' & Ea & _ & _ & _ & Hnext). destruct (Hnext Eb) as (-> & c' & L' & Et').
  eexists. exists c'. split.
  { refine (eq_ind (fa_event fa) (fun ev => seg_step td dom p (SegFacet ev) (match ev with BoundaryEscape => false | _ => true end) _ []) _ _ Hbe).
    eapply (ss_facet td dom p 0 q conn fa).
    - rewrite E1, E2. exact Ho.
    - apply vec_get_nth. exact Hconn.
    - apply vec_get_nth. rewrite Ek, Nat2N.id. exact Hf.
    - unfold facet_crossing_event. rewrite Hbe, Ea. cbn [loc_domain loc_cell loc_facet unwrap rbind]. reflexivity.
    - rewrite Hbe. reflexivity. }
  cbn [p_cell p_coordinate p_direction p_time_to_census p_num_mean_free_paths p_kinetic_energy p_num_segments set_last_event set_facet set_cell set_domain set_num_segments].
  rewrite Nat2N.id. split; [exact L'|]. split; [exact Et'|]. split; [|repeat split]. pose proof (Lm _ _ L'). lia.
Qed.

(** ** Two segments along the y axis or nearly so *)

Definition up : nat := 2. (* the face with the largest y *)

Section Tracks.
Variables (gx gy e : R).
Hypothesis Hg : gx * gx + gy * gy = 1.
Hypothesis Hgx : 0 <= gx <= / 1000000000000.
Hypothesis Hgy : / 2 <= gy <= 1.
Hypothesis He : 1 <= e <= 5.
Hypothesis Hor : e = 5 \/ gx = 0.

Definition far : R := 20 / 3 / gy.
Variables (pt : partition) (dom : domain Rops) (td : track_data Rops).
Hypothesis B : built box "octant" pt (d_mesh dom).
Variable i0 : nat.
Hypothesis L0 : local_to_global pt i0 0.

Definition starter : particle Rops :=
  let p := set_cell (flyer (v3 (e - gx) (20 / 3 - gy) (15 / 4)) (v3 gx gy 0) 1 1) (N.of_nat i0) in
  set_time_to_census p (2 / get_speed p : R).

Lemma starter_speed : 20000000000 <= get_speed starter <= 30000000000.
Proof. apply speed_bounds. reflexivity. Qed.
Lemma starter_time : get_speed starter * p_time_to_census starter = 2.
Proof.
  pose proof starter_speed as H. change (get_speed starter * (2 / get_speed starter) = 2). field. lra.
Qed.
Lemma far_bounds : 6 < far < 14.
Proof.
  unfold far. split.
  - apply Rmult_lt_reg_r with gy; [lra|]. unfold Rdiv at 1. rewrite Rmult_assoc, Rinv_l by lra. lra.
  - apply Rmult_lt_reg_r with gy; [lra|]. unfold Rdiv at 1. rewrite Rmult_assoc, Rinv_l by lra. lra.
Qed.

Lemma start_tuple : cell_idx_to_tuple (g_dims box) 0 = (0, 0, 0)%N.
Proof. reflexivity. Qed.

Lemma real_zero : real_of 0 = 0. Proof. reflexivity. Qed.
Lemma real_one : real_of 1 = 1. Proof. reflexivity. Qed.

Ltac geo := unfold in_cell, beyond, along, dot; cbn [starter flyer v3 p_coordinate p_direction set_cell set_time_to_census outward vx vy vz];
  cbn; rewrite ?box_x, ?box_y, ?box_z, ?real_zero, ?real_one.

Lemma starter_in : in_cell box (0, 0, 0)%N (p_coordinate starter).
Proof.
  change (p_coordinate starter) with (v3 (e - gx) (20 / 3 - gy) (15 / 4)). unfold in_cell, v3. cbn [vx vy vz]. rewrite box_x, box_y, box_z, real_zero. lra.
Qed.
Lemma starter_flying : flying box pt starter.
Proof.
  split; [|split].
  - exists 0%N. change (p_cell starter) with (N.of_nat i0). rewrite Nat2N.id, start_tuple. split; [exact L0|]. split; [exact starter_in|].
    intros f Hf Hb. change (p_coordinate starter) with (v3 (e - gx) (20 / 3 - gy) (15 / 4)) in Hb. unfold beyond, v3 in Hb. cbn [vx vy vz] in Hb.
    rewrite box_x, box_y, box_z, real_zero in Hb. change (p_direction starter) with (v3 gx gy 0). unfold dot, v3. 
    do 6 (destruct f as [|f]; [cbn [outward vx vy vz]; first [exfalso; lra | lra]|]). lia.
  - unfold unit_vec, dot. change (p_direction starter) with (v3 gx gy 0). cbn [v3 vx vy vz]. change (gx * gx + gy * gy + 0 * 0 = 1). lra.
  - pose proof starter_speed. split; [|change (0 <= 1); lra]. change (0 <= 2 / get_speed starter). apply Rmult_le_pos; [lra|]. apply Rlt_le, Rinv_0_lt_compat. lra.
Qed.

(** The first segment reaches the upper face. *)
Lemma first_choice ds i df : distances_now (d_mesh dom) starter ds -> facet_choice ds i df -> df = 1 /\ (N.to_nat i / 4)%nat = up /\ (N.to_nat i < 24)%nat.
Proof.
  intros Hds Hch. pose proof starter_flying as ((c & L & Hin & Hst) & Hu & _).
  change (p_cell starter) with (N.of_nat i0) in L. rewrite Nat2N.id in L.
  assert (c = 0%N) by (unfold local_to_global in L, L0; rewrite L0 in L; injection L; auto). subst c.
  destruct (nearest_exit _ _ _ _ _ _ B box_sized box_fits L starter ds i df eq_refl Hin Hst Hu Hds Hch) as (Hi & Hdf & Hlv).
  rewrite start_tuple in Hlv, Hin. pose proof Hlv as (Hf & Ho & Hz & _).
  assert (E0 : along (p_coordinate starter) (p_direction starter) 1 = v3 e (20 / 3) (15 / 4)).
  { change (p_direction starter) with (v3 gx gy 0). change (p_coordinate starter) with (v3 (e - gx) (20 / 3 - gy) (15 / 4)). unfold along, v3. cbn [vx vy vz].
    f_equal; match goal with |- @eq _ ?a ?b => change (@eq R a b) end; ring. }
  assert (Hin1 : in_cell box (0, 0, 0)%N (v3 e (20 / 3) (15 / 4))).
  { unfold in_cell, v3. cbn [vx vy vz]. rewrite box_x, box_y, box_z, real_zero. lra. }
  assert (Hb1 : beyond box (0, 0, 0)%N 2 (v3 e (20 / 3) (15 / 4)) = 0).
  { unfold beyond, v3. cbn [vx vy vz]. rewrite box_y, real_zero. lra. }
  destruct (covered box (0, 0, 0)%N 2 _ box_sized ltac:(lia) Hin1 Hb1) as (k & Hk & Ek & Hbary).
  assert (Hk1 : nth_error ds k = Some 1).
  { apply (entry_hit _ _ _ _ _ _ B box_sized L starter ds k 1); try assumption; try reflexivity.
    - rewrite Ek. change (p_direction starter) with (v3 gx gy 0). unfold dot, v3. cbn [outward vx vy vz]. lra.
    - rewrite Ek, start_tuple, E0. exact Hb1.
    - rewrite start_tuple, E0. destruct (indirect k) as [[a b] d] eqn:Ei. cbv zeta in Hbary |- * . intros pl Hpl.
      pose proof (facet_cross box (0, 0, 0)%N k pl box_sized Hk Hpl) as Hpo. rewrite Ei in Hpo. cbv zeta in Hpo.
      destruct Hbary as (l0 & l1 & l2 & Hb & P0 & P1 & P2). apply (proj1 (triangle_test _ _ _ _ _ _ _ _ Hpo Hb)); assumption. }
  assert (Edf : df = 1).
  { assert (df <= 1).
    { destruct Hch as [(_ & _ & H3 & _)|[(H3 & -> & _)|(H3 & ->)]].
      - apply (H3 (N.of_nat k)); [rewrite Nat2N.id; exact Hk1|lra].
      - lra.
      - specialize (H3 (N.of_nat k) 1). rewrite Nat2N.id in H3. pose proof huge_large. destruct (H3 Hk1); lra. }
    set (f := (N.to_nat i / 4)%nat) in * . clearbody f. change (p_direction starter) with (v3 gx gy 0) in * . change (p_coordinate starter) with (v3 (e - gx) (20 / 3 - gy) (15 / 4)) in * .
    unfold dot, beyond, along, v3 in Ho, Hz. cbn [vx vy vz] in Ho, Hz. rewrite box_x, box_y, box_z, real_zero in Hz.
    do 6 (destruct f as [|f]; [cbn [outward vx vy vz] in Ho; nra|]). lia. }
  split; [exact Edf|]. split; [|exact Hi].
  assert (Hge : (N.of_nat k <= i)%N).
  { destruct Hch as [(_ & _ & _ & H4)|[(_ & E & _)|(_ & E)]]; [|exfalso; lra|exfalso; pose proof huge_large; lra].
    apply H4. rewrite Nat2N.id, Edf. exact Hk1. }
  assert ((8 <= N.to_nat i)%nat).
  { assert (8 <= k)%nat by (pose proof (Nat.div_mod k 4 ltac:(lia)); lia). lia. }
  assert (H2 : (2 <= N.to_nat i / 4)%nat) by (apply Nat.div_le_lower_bound; lia).
  set (f := (N.to_nat i / 4)%nat) in * . clearbody f.
  change (p_direction starter) with (v3 gx gy 0) in Ho. unfold dot, v3 in Ho. cbn [vx vy vz] in Ho.
  do 2 (destruct f as [|f]; [lia|]). destruct f as [|f]; [reflexivity|]. exfalso.
  do 3 (destruct f as [|f]; [cbn [outward vx vy vz] in Ho; lra|]). lia.
Qed.

(** The facet of the upper face of cell (0,1,0) that the second segment aims at. *)
Variable j : nat.
Hypothesis Hj : (j < 24)%nat /\ (j / 4)%nat = up.
Hypothesis Hhit : let '(a, b, d) := indirect j in let q n := cell_point box (0, 1, 0)%N (N.to_nat n) in
  forall pl : plane Rops, mkVec (K := Rops) (pl_a pl) (pl_b pl) (pl_c pl) = outward 2 ->
    dist_to_segment (mkVec (K := Rops) (e + gx * far) (40 / 3) (15 / 4)) pl (q a, q b, q d) = true.

(** The second one aims at the upper face of the next cell. *)
Lemma second_choice (p : particle Rops) k c ds i df : p_cell p = N.of_nat k -> local_to_global pt k c -> cell_idx_to_tuple (g_dims box) c = (0, 1, 0)%N ->
  p_coordinate p = v3 e (20 / 3) (15 / 4) -> p_direction p = v3 gx gy 0 ->
  distances_now (d_mesh dom) p ds -> facet_choice ds i df -> df = far /\ True.
Proof.
  intros Hc L Et Hx Hu Hds Hch. split; [|exact I]. pose proof far_bounds as Hfar. pose proof huge_large as Hh.
  assert (Ef : gy * far = 20 / 3) by (unfold far; field; lra).
  assert (Hin : in_cell box (0, 1, 0)%N (v3 e (20 / 3) (15 / 4))).
  { unfold in_cell, v3. cbn [vx vy vz]. rewrite box_x, box_y, box_z, real_zero, real_one. lra. }
  assert (Ea : along (v3 e (20 / 3) (15 / 4)) (v3 gx gy 0) far = v3 (e + gx * far) (40 / 3) (15 / 4)).
  { unfold along, v3. cbn [vx vy vz]. f_equal; match goal with |- @eq _ ?a ?b => change (@eq R a b) end; lra. }
  assert (Hfarin : nth_error ds j = Some far).
  { apply (entry_hit _ _ _ _ _ _ B box_sized L p ds j far); rewrite ?Hx, ?Hu, ?Et; try assumption; try apply Hj; rewrite ?(proj2 Hj).
    - unfold up, dot, v3. cbn [outward vx vy vz]. lra.
    - rewrite Ea. unfold up, beyond, v3. cbn [vx vy vz]. rewrite box_y, real_one. lra.
    - rewrite Ea. exact Hhit. }
  assert (Each : forall n y, nth_error ds n = Some y -> 0 < y -> y = far \/ y = huge).
  { intros n y En Hy. destruct (entry_is _ _ _ _ _ _ B box_sized L p ds n y Hc Hds En) as (Hn & [(H1 & H2)|H1]); [left|right; exact H1].
    rewrite Et, Hx, Hu in H2. rewrite Hu in H1. set (f := (n / 4)%nat) in * . assert (Hf : (f < 6)%nat) by (apply Nat.div_lt_upper_bound; lia). clearbody f.
    unfold dot, beyond, along, v3 in H1, H2. cbn [vx vy vz] in H1, H2. rewrite box_x, box_y, box_z, real_zero, real_one in H2.
    destruct f as [|[|[|[|[|[|f]]]]]]; [| | | | | |lia]; cbn [outward vx vy vz] in H1; try (exfalso; lra).
    - exfalso. destruct Hor as [-> | ->]; [|lra]. assert (0 < gx * y) by (apply Rmult_lt_0_compat; lra). lra.
    - apply Rmult_eq_reg_l with gy; lra. }
  destruct Hch as [(H1 & H2 & H3 & _)|[(H3 & _)|(H3 & _)]].
  - destruct (Each _ _ H1 ltac:(lra)) as [H|H]; [exact H|lra].
  - specialize (H3 (N.of_nat j) far). rewrite Nat2N.id in H3. specialize (H3 Hfarin). lra.
  - specialize (H3 (N.of_nat j) far). rewrite Nat2N.id in H3. destruct (H3 Hfarin); lra.
Qed.

Lemma two_segments : exists p1 p2, track_log td dom starter [Flew starter (SegFacet TransitOnProcessor) p1; Flew p1 SegCensus p2] p2 [] /\
  p_coordinate p1 = v3 e (20 / 3) (15 / 4) /\ p_coordinate p2 = v3 (e + gx) (20 / 3 + gy) (15 / 4) /\
  exists c, local_to_global pt (N.to_nat (p_cell p2)) c /\ cell_idx_to_tuple (g_dims box) c = (0, 1, 0)%N.
Proof.
  pose proof huge_large as Hh. pose proof starter_speed as Hv. pose proof starter_time as Htm. pose proof far_bounds as Hfar.
  destruct (built_complete _ _ _ _ B) as (Cg & Ln). pose proof starter_flying as (_ & _ & Hot).
  assert (Li : (i0 < List.length (me_conn (d_mesh dom)))%nat).
  { destruct (built_mesh_is _ _ _ _ B) as (cs & boundary & Pc & Nc & _). unfold local_to_global in L0. rewrite (cells_keys _ _ Nc) in L0.
    rewrite Ln. apply Permutation_length in Pc. assert (El : List.length cs = N.to_nat (total_cells (g_dims box))) by (rewrite Pc; apply FloodLemmas.nrange_length). rewrite <- El.
    apply nth_error_Some. intros C. pose proof (eq_trans (eq_sym L0) C) as D. discriminate D. }
  destruct (free_flight dom starter (fun i => (N.to_nat i / 4)%nat = up /\ (N.to_nat i < 24)%nat) 1 Cg) as (o & q & Ho & Hfac & _ & Hx & Hu & Hcl & Hke & Hns).
  { change (p_cell starter) with (N.of_nat i0). lia. }
  { exact (proj1 Hot). }
  { change (/ 2 <= 1). lra. }
  { lra. }
  { change (0 <= 10). lra. }
  { exact first_choice. }
  { lra. }
  { lra. }
  destruct Hfac as (-> & El & (Eup & Hi24) & Et & En); [lra|]. rewrite El in Hx.
  assert (E0 : along (p_coordinate starter) (p_direction starter) 1 = v3 e (20 / 3) (15 / 4)).
  { change (p_direction starter) with (v3 gx gy 0). change (p_coordinate starter) with (v3 (e - gx) (20 / 3 - gy) (15 / 4)). unfold along, v3. cbn [vx vy vz].
    f_equal; match goal with |- @eq _ ?a ?b => change (@eq R a b) end; ring. }
  rewrite E0 in Hx.
  destruct (cross_step box "octant" pt td dom starter q 0 (N.to_nat (p_facet q)) B Hot Ho) as (p1 & c1 & S1 & L1 & T1 & Hc1 & X1 & U1 & M1 & N1 & K1 & G1).
  { rewrite Hcl. change (p_cell starter) with (N.of_nat i0). rewrite Nat2N.id. exact L0. }
  { rewrite N2Nat.id. reflexivity. }
  { exact Hi24. }
  { rewrite Eup. reflexivity. }
  rewrite Eup in T1. change (one_step (cell_idx_to_tuple (g_dims box) 0) up) with (0, 1, 0)%N in T1.
  rewrite Hx in X1. rewrite Hu in U1. change (p_direction starter) with (v3 gx gy 0) in U1.
  assert (V1 : get_speed p1 = get_speed starter) by (unfold get_speed; rewrite K1, Hke; reflexivity).
  assert (Inv : 0 < 1 / get_speed starter < 1).
  { unfold Rdiv. rewrite Rmult_1_l. split; [apply Rinv_0_lt_compat; lra|]. rewrite <- Rinv_1. apply Rinv_lt_contravar; lra. }
  assert (Tm : p_time_to_census p1 = 1 / get_speed starter).
  { rewrite M1, Et. change (p_time_to_census starter) with (2 / get_speed starter). rewrite Rmax_left; [rfield; lra|]. 
    replace (2 / get_speed starter) with (2 * (1 / get_speed starter)) by (field; lra). lra. }
  assert (Ih : 0 < 1 / huge < 1 / 4).
  { unfold Rdiv. rewrite !Rmult_1_l. split; [apply Rinv_0_lt_compat; lra|]. apply Rinv_lt_contravar; lra. }
  assert (Dz : get_speed p1 * p_time_to_census p1 = 1) by (rewrite V1, Tm; field; lra).
  destruct (free_flight dom p1 (fun _ => True) far Cg) as (o & q2 & Ho2 & _ & Hcen & Hx2 & Hu2 & Hcl2 & Hke2 & Hns2).
  { exact Hc1. }
  { rewrite Tm. lra. }
  { rewrite N1, En. change (p_num_mean_free_paths starter) with 1. lra. }
  { rewrite V1. lra. }
  { rewrite G1, Hns. change (0 + 1 <= 10). lra. }
  { intros ds i df. apply (second_choice p1 (N.to_nat (p_cell p1)) c1); try assumption. rewrite N2Nat.id. reflexivity. }
  { lra. }
  { lra. }
  destruct Hcen as (-> & El2); [lra|]. rewrite El2, Dz, X1, U1 in Hx2.
  assert (Hot1 : on_time p1) by (split; [rewrite Tm; lra|rewrite N1, En; change (p_num_mean_free_paths starter) with 1; lra]).
  destruct (on_time_enters _ Hot1) as (F1 & F2).
  eexists p1, _. split.
  { change (@nil (particle Rops)) with (@nil (particle Rops) ++ []). eapply tl_more; [exact S1|]. apply tl_last. eapply (ss_census td dom p1 0). rewrite F1, F2. exact Ho2. }
  split; [exact X1|]. cbn [p_coordinate p_cell set_num_segments]. split.
  { rewrite Hx2. unfold along, v3. cbn [vx vy vz]. f_equal; match goal with |- @eq _ ?a ?b => change (@eq R a b) end; ring. }
  exists c1. rewrite Hcl2. auto.
Qed.

End Tracks.

(** ** The tolerance of the facet test *)

Lemma crosses_close (A l0 l1 l2 : R) : A <> 0 -> l0 + l1 + l2 = 1 -> - / 1000000000 < l0 -> - / 1000000000 < l1 -> - / 1000000000 < l2 ->
  crosses_agree (K := Rops) (A * l0) (A * l1) (A * l2) = true.
Proof.
  intros HA Hs H0 H1 H2. unfold crosses_agree. cbv zeta. cbn [flit Rops fmul fabs fadd flt fneg]. rewrite nine.
  replace (A * l0 + A * l1 + A * l2) with A by (rewrite <- !Rmult_plus_distr_l, Hs; ring).
  apply orb_true_iff. destruct (Rlt_dec 0 A) as [P|P].
  - left. rewrite Rabs_pos_eq by lra.
    assert (G : forall l, - / 1000000000 < l -> Rltb (- (/ 1000000000 * A)) (A * l) = true).
    { intros l Hl. apply Rltb_iff. apply Rmult_lt_compat_l with (r := A) in Hl; lra. }
    rewrite !G by assumption. reflexivity.
  - right. assert (N : A < 0) by lra. rewrite Rabs_left by lra.
    assert (G : forall l, - / 1000000000 < l -> Rltb (A * l) (/ 1000000000 * - A) = true).
    { intros l Hl. apply Rltb_iff. apply Rmult_lt_compat_l with (r := - A) in Hl; lra. }
    rewrite !G by assumption. reflexivity.
Qed.

Lemma close_test (pl : plane Rops) (q0 q1 q2 r : vec Rops) l0 l1 l2 : plane_of pl q0 q1 q2 -> barycentric q0 q1 q2 r l0 l1 l2 ->
  - / 1000000000 < l0 -> - / 1000000000 < l1 -> - / 1000000000 < l2 ->
  axis_rejects (K := Rops) (vx q0) (vx q1) (vx q2) (vx r) = false -> axis_rejects (K := Rops) (vy q0) (vy q1) (vy q2) (vy r) = false ->
  axis_rejects (K := Rops) (vz q0) (vz q1) (vz q2) (vz r) = false -> dist_to_segment r pl (q0, q1, q2) = true.
Proof.
  intros (k & Hk & Ka & Kb & Kc & Hn) (Hs & Ex & Ey & Ez) H0 H1 H2 R0 R1 R2.
  unfold dist_to_segment. cbv zeta. cbn [flit flt fabs Rops]. rewrite half, R0, R1, R2.
  assert (Hz : forall x, / 2 < Rabs x -> x <> 0) by (intros x Hx ->; rewrite Rabs_R0 in Hx; lra).
  destruct (Rltb (/ 2) (Rabs (pl_c pl))) eqn:E3.
  - apply Rltb_iff in E3. destruct (cross_bary (vx q0) (vy q0) (vx q1) (vy q1) (vx q2) (vy q2) l0 l1 l2 _ _ Hs Ex Ey) as (C1 & C2 & C3).
    rewrite C1, C2, C3, <- Kc. apply crosses_close; try assumption; [|lra].
    apply Rmult_integral_contrapositive; split; [exact Hk|apply Hz; exact E3].
  - apply Rltb_false in E3. destruct (Rltb (/ 2) (Rabs (pl_b pl))) eqn:E2.
    + apply Rltb_iff in E2. destruct (cross_bary (vz q0) (vx q0) (vz q1) (vx q1) (vz q2) (vx q2) l0 l1 l2 _ _ Hs Ez Ex) as (C1 & C2 & C3).
      rewrite C1, C2, C3, <- Kb. apply crosses_close; try assumption; [|lra].
      apply Rmult_integral_contrapositive; split; [exact Hk|apply Hz; exact E2].
    + apply Rltb_false in E2. destruct (Rltb (/ 2) (Rabs (pl_a pl))) eqn:E1.
      * apply Rltb_iff in E1. destruct (cross_bary (vy q0) (vz q0) (vy q1) (vz q1) (vy q2) (vz q2) l0 l1 l2 _ _ Hs Ey Ez) as (C1 & C2 & C3).
        rewrite C1, C2, C3, <- Ka. apply crosses_close; try assumption; [|lra].
        apply Rmult_integral_contrapositive; split; [exact Hk|apply Hz; exact E1].
      * apply Rltb_false in E1. exfalso.
        assert (Sq : forall x, Rabs x <= / 2 -> x * x <= / 4) by (intros x Hx; unfold Rabs in Hx; destruct (Rcase_abs x); nra).
        pose proof (Sq _ E1). pose proof (Sq _ E2). pose proof (Sq _ E3). lra.
Qed.

Lemma axis_close (a b d x : R) : (a <= x + / 1000000000 \/ b <= x + / 1000000000 \/ d <= x + / 1000000000) ->
  (x - / 1000000000 <= a \/ x - / 1000000000 <= b \/ x - / 1000000000 <= d) -> axis_rejects (K := Rops) a b d x = false.
Proof.
  intros H1 H2. unfold axis_rejects. cbv zeta. cbn [flit Rops fadd fsub flt]. rewrite nine. apply orb_false_iff.
  split; apply not_true_is_false; intros H; apply andb_true_iff in H as (H & C3); apply andb_true_iff in H as (C1 & C2); apply Rltb_iff in C1, C2, C3; lra.
Qed.

(** ** The two tracks *)

Definition lean_s : R := / 10000000000000.
Definition lean_x : R := 2 * lean_s / (1 + lean_s * lean_s).
Definition lean_y : R := (1 - lean_s * lean_s) / (1 + lean_s * lean_s).
Lemma lean : lean_x * lean_x + lean_y * lean_y = 1 /\ 0 < lean_x <= / 1000000000000 /\ / 2 <= lean_y <= 1.
Proof.
  unfold lean_x, lean_y. assert (Hs : 0 < lean_s <= / 10000000000000) by (unfold lean_s; lra). generalize dependent lean_s. intros s Hs.
  assert (P : 0 < 1 + s * s) by nra. split; [field; lra|]. split; [split|split].
  - apply Rmult_lt_0_compat; [lra|]. apply Rinv_0_lt_compat. exact P.
  - apply Rmult_le_reg_r with (1 + s * s); [exact P|]. unfold Rdiv. rewrite Rmult_assoc, Rinv_l by lra. nra.
  - apply Rmult_le_reg_r with (1 + s * s); [exact P|]. unfold Rdiv. rewrite Rmult_assoc, Rinv_l by lra. nra.
  - apply Rmult_le_reg_r with (1 + s * s); [exact P|]. unfold Rdiv. rewrite Rmult_assoc, Rinv_l by lra. nra.
Qed.

Lemma box_first : exists pt dom i0, built_domain box "octant" pt box_geoms box_mats dom /\ built box "octant" pt (d_mesh dom) /\ local_to_global pt i0 0.
Proof.
  destruct box_init as (pt & dom & _ & D). pose proof (domain_mesh _ _ _ _ _ _ D) as B.
  destruct (built_mesh_is _ _ _ _ B) as (cs & boundary & Pc & Nc & _).
  assert (H0 : In 0%N cs) by (apply (Permutation_in _ (Permutation_sym Pc)); vm_compute; auto).
  apply In_nth_error in H0. destruct H0 as (i0 & Hi). exists pt, dom, i0. split; [exact D|]. split; [exact B|].
  unfold local_to_global. rewrite (cells_keys _ _ Nc). exact Hi.
Qed.

Ltac the_facet := unfold indirect; cbn [nth NODE_INDIRECT]; cbv zeta; literal_indices.
Ltac the_points := unfold cell_point, cell_halves, grid_point; cbn [nth vx vy vz]; rewrite ?real_0, ?real_1, ?real_2, ?box_x, ?box_y, ?box_z.

Ltac the_bary := unfold barycentric; the_points; split; [lra|split; [|split]]; match goal with |- @eq _ ?a ?b => change (@eq R a b) end; lra.

Lemma facet_9 : (9 < 24)%nat /\ (9 / 4)%nat = up. Proof. split; [lia|reflexivity]. Qed.
Lemma facet_11 : (11 < 24)%nat /\ (11 / 4)%nat = up. Proof. split; [lia|reflexivity]. Qed.

(** From the middle of a face to the middle of the next cell. *)
Lemma straight_track td : exists pt dom p p1 p2, built_domain box "octant" pt box_geoms box_mats dom /\ flying box pt p /\
  track_log td dom p [Flew p (SegFacet TransitOnProcessor) p1; Flew p1 SegCensus p2] p2 [] /\
  Forall (clean box) [Flew p (SegFacet TransitOnProcessor) p1; Flew p1 SegCensus p2] /\ p_kinetic_energy p = neutron_mass_energy (K := Rops).
Proof.
  destruct box_first as (pt & dom & i0 & D & B & L0). exists pt, dom, (starter 0 1 (5 / 2) i0).
  destruct (two_segments 0 1 (5 / 2) ltac:(lra) ltac:(lra) ltac:(lra) ltac:(lra) (or_intror eq_refl) pt dom td B i0 L0 9%nat facet_9)
    as (p1 & p2 & Hl & X1 & X2 & _).
  { the_facet. intros pl Hpl. pose proof (facet_cross box (0, 1, 0)%N 9 pl box_sized ltac:(lia) Hpl) as Hpo. revert Hpo. the_facet. intros Hpo.
    match type of Hpo with plane_of _ ?a ?b ?c => assert (Hb : barycentric a b c (mkVec (K := Rops) (5 / 2 + 0 * far 1) (40 / 3) (15 / 4)) 0 0 1) end.
    { the_bary. }
    apply (proj1 (triangle_test _ _ _ _ _ 0 0 1 Hpo Hb)); lra. }
  exists p1, p2. split; [exact D|]. split; [apply starter_flying; try lra; exact L0|]. split; [exact Hl|]. split; [|reflexivity].
  assert (Off : forall (x : R) (n : N) d, x = real_of n * d -> 0 < d -> (exists k : Z, (IZR k * d < x < (IZR k + 1) * d)) -> False).
  { intros x n d E Hd (k & H1 & H2). unfold real_of in E. rewrite E in H1, H2. apply Rmult_lt_reg_r in H1; [|exact Hd]. apply Rmult_lt_reg_r in H2; [|exact Hd].
    apply lt_IZR in H1. rewrite <- plus_IZR in H2. apply lt_IZR in H2. lia. }
  constructor; [|constructor; [|constructor]]; cbn [clean]; [rewrite X1|rewrite X2]; unfold off_edges, off_faces, on_x_plane, on_y_plane, on_z_plane, v3; cbn [vx vy vz]; rewrite box_x, box_y, box_z.
  - split; [|split]; intros ((n & E) & (n' & E')).
    + apply (Off _ _ _ E); [lra|]. exists 0%Z. lra.
    + apply (Off _ _ _ E); [lra|]. exists 0%Z. lra.
    + apply (Off _ _ _ E'); [lra|]. exists 0%Z. lra.
  - split; [|split]; intros (n & E); (apply (Off _ _ _ E); [lra|]); [exists 0%Z|exists 1%Z|exists 0%Z]; lra.
Qed.

(** Past an edge and out of the cell. *)
Lemma leaning_track td : exists pt dom p p1 p2, built_domain box "octant" pt box_geoms box_mats dom /\ flying box pt p /\
  track_log td dom p [Flew p (SegFacet TransitOnProcessor) p1; Flew p1 SegCensus p2] p2 [] /\ at_home box pt p1 /\ ~ at_home box pt p2.
Proof.
  destruct box_first as (pt & dom & i0 & D & B & L0). destruct lean as (G1 & G2 & G3).
  exists pt, dom, (starter lean_x lean_y 5 i0).
  assert (Hfar : 6 < far lean_y < 14) by (apply (far_bounds lean_y); lra).
  destruct (two_segments lean_x lean_y 5 G1 ltac:(lra) G3 ltac:(lra) (or_introl eq_refl) pt dom td B i0 L0 11%nat facet_11)
    as (p1 & p2 & Hl & X1 & X2 & c & L2 & T2).
  { the_facet. intros pl Hpl. pose proof (facet_cross box (0, 1, 0)%N 11 pl box_sized ltac:(lia) Hpl) as Hpo. revert Hpo. the_facet. intros Hpo.
    assert (Hd : 0 < lean_x * far lean_y < / 10000000000) by nra. set (d := lean_x * far lean_y) in * . clearbody d.
    apply (close_test _ _ _ _ _ (/ 2 + d / 5) (/ 2 + d / 5) (- (2 * d / 5)) Hpo); [the_bary|lra|lra|lra| | |];
      apply axis_close; the_points; lra. }
  exists p1, p2. assert (Fl : flying box pt (starter lean_x lean_y 5 i0)) by (apply starter_flying; try lra; exact L0).
  split; [exact D|]. split; [exact Fl|]. split; [exact Hl|]. split.
  - inversion Hl as [|? ? ? nx1 ? ? nx2 Hst Hl2]; subst. exact (proj1 (step_home box "octant" pt dom B box_sized box_fits _ _ _ _ _ _ Hst Fl)).
  - intros (c' & L' & Hin). unfold local_to_global in L', L2. rewrite L2 in L'. injection L' as <-. rewrite T2, X2 in Hin.
    unfold in_cell, v3 in Hin. cbn [vx vy vz] in Hin. rewrite box_x, real_zero in Hin. lra.
Qed.
