(** A concrete track in exact arithmetic: one cell whose facets all lie in the plane x = 1, with
    reflection; a particle flies from the origin to the plane, is reflected and reaches census. *)
From Coq Require Import NArith ZArith QArith Qreals List Bool Lia Reals Lra.
From Verif Require Import Float RealOps RngModel RngLemmas ParticleModel NuclearModel MeshTypes Balance TrackModel CycleModel
  TrackSpec CycleSpec TrackAccount PopSpec SourceCount SegmentSpec NearestLemmas FacetLemmas SegmentFacts SegmentDefined.
Import ListNotations.
Local Open Scope R_scope.
Local Opaque huge tiny.

Definition v3 (x y z : R) : vec Rops := mkVec (K := Rops) x y z.
Definition wall : plane Rops := mkPlane (K := Rops) 1 0 0 (-1).
Definition corners : vec Rops * vec Rops * vec Rops := (v3 1 (-10) (-10), v3 1 10 (-10), v3 1 0 10).
Definition one_facet : facet_adj :=
  mkFacetAdj BoundaryReflection (mkLocation (Some 0%N) (Some 0%N) (Some 0%N)) (mkLocation (Some 0%N) (Some 0%N) (Some 0%N)) None None None (0, 1, 2)%N.
Definition room : mesh Rops :=
  mkMesh (K := Rops) 0 [v3 1 (-10) (-10); v3 1 10 (-10); v3 1 0 10] [mkCellConn (repeat one_facet 24) [0%N]] [repeat wall 24].
Definition room_cell : cell_state Rops := mkCellState (K := Rops) 0 1 1 0 0.
Definition room_dom : domain Rops := mkDomain (K := Rops) 0 [room_cell] room.
Definition room_td : track_data Rops := mkTrackData (K := Rops) 1 (mkNuclear (K := Rops) 1 [] []) [].
(** The kinetic energy is the mass energy of a neutron; one second is left. *)
Definition flyer (x u : vec Rops) (t n : R) : particle Rops :=
  set_num_mean_free_paths (set_time_to_census (set_kinetic_energy (set_direction (set_coordinate particle_default x) u)
    (neutron_mass_energy (K := Rops))) t) n.
Definition start : particle Rops := flyer (v3 0 0 0) (v3 1 0 0) 1 1.

Lemma room_complete : complete_geometry room.
Proof.
  split; [|split].
  - constructor; [|constructor]. split; [reflexivity|]. split; [repeat constructor|].
    apply Forall_forall. intros fa H. apply repeat_spec in H. subst fa. repeat constructor.
  - reflexivity.
  - repeat constructor.
Qed.

Lemma speed_bounds (p : particle Rops) : p_kinetic_energy p = neutron_mass_energy (K := Rops) -> 20000000000 <= get_speed p <= 30000000000.
Proof.
  intros H. unfold get_speed. cbv zeta. rewrite H. unfold neutron_mass_energy, light_speed, ftwo. cbn [fmul fadd fdiv Float.fsqrt flit Rops].
  set (M := Q2R (939565 # 1000)). assert (HM : 0 < M) by (unfold M, Q2R; cbn; lra).
  replace (Q2R 2) with 2 by (unfold Q2R; cbn; lra).
  replace (M * (M + 2 * M) / ((M + M) * (M + M))) with (3 / 4) by (field; lra).
  replace (Q2R (29979200000 # 1)) with 29979200000 by (unfold Q2R; cbn; lra).
  assert (H1 : 3 / 4 <= sqrt (3 / 4)).
  { apply Rsqr_incr_0; [|lra|apply sqrt_pos]. rewrite Rsqr_sqrt by lra. unfold Rsqr. lra. }
  assert (H2 : sqrt (3 / 4) <= 1) by (apply Rle_trans with (sqrt 1); [apply sqrt_le_1; lra|rewrite sqrt_1; lra]).
  change (20000000000 <= 29979200000 * sqrt (3 / 4) <= 30000000000). lra.
Qed.
Lemma huge_large : 1000000000000 < huge.
Proof. Local Transparent huge. unfold huge. cbn [fhuge Rops]. apply IZR_lt. reflexivity. Qed.
Local Opaque huge.

Lemma nth_repeat_inv {A} (x : A) n : forall k y, nth_error (repeat x n) k = Some y -> y = x.
Proof. induction n as [|n IH]; intros [|k] y; cbn; try discriminate; [congruence|apply IH]. Qed.

Lemma room_distance (p : particle Rops) ds : p_cell p = 0%N -> distances_now room p ds ->
  forall k d, nth_error ds k = Some d -> (k < 24)%nat /\
    facet_distance room 0 (p_coordinate p) (p_direction p) (plane_tolerance p) (N.of_nat k) wall = Ok d.
Proof.
  intros Hc (pls & E1 & E2) k d Hk. rewrite Hc in * . cbn in E1. injection E1; intros <-. clear E1.
  change (facet_distances room 0 (p_coordinate p) (p_direction p) (plane_tolerance p) 0 (repeat wall 24) = Ok ds) in E2.
  destruct (distances_each _ _ _ _ _ _ _ _ E2 _ _ Hk) as (pl & P1 & P2). 
  assert (L : (k < 24)%nat) by (apply (proj1 (nth_error_Some (repeat wall 24) k)); congruence).
  apply nth_repeat_inv in P1. subst pl. split; [exact L|exact P2].
Qed.

Lemma room_corners k : (k < 24)%nat -> get_facet_coords room 0 (N.of_nat k) = Ok corners.
Proof.
  intros H. unfold get_facet_coords. cbn [vec_get nth_error N.to_nat me_conn room unwrap rbind cc_facet].
  assert (E : vec_get (repeat one_facet 24) (N.of_nat k) = Ok one_facet).
  { unfold vec_get. rewrite Nat2N.id. destruct (nth_error (repeat one_facet 24) k) as [y|] eqn:E.
    - apply nth_repeat_inv in E. subst y. reflexivity.
    - apply nth_error_None in E. cbn in E. lia. }
  rewrite E. reflexivity.
Qed.

(** Towards the wall from inside: every facet at distance 1 - x. *)
Lemma towards (p : particle Rops) x ds : p_cell p = 0%N -> p_coordinate p = v3 x 0 0 -> p_direction p = v3 1 0 0 -> x < 1 ->
  distances_now room p ds -> forall k d, nth_error ds k = Some d -> d = 1 - x.
Proof.
  intros Hc Hx Hu Hlt H k d Hk. destruct (room_distance _ _ Hc H _ _ Hk) as (L & E). rewrite Hx, Hu in E.
  destruct (facet_distance_right _ _ _ _ _ _ _ _ E) as [(fc & _ & _ & _ & H3 & _)|(_ & C)].
  - unfold plane_value, along in H3. cbn [wall pl_a pl_b pl_c pl_d v3 vx vy vz] in H3. lra.
  - exfalso. apply (C corners (1 - x)); [apply room_corners, L|].
    assert (Ea : along (v3 x 0 0) (v3 1 0 0) (1 - x) = v3 1 0 0).
    { unfold along, v3. cbn [vx vy vz]. f_equal; match goal with |- @eq _ ?a ?b => change (@eq R a b) end; ring. }
    split; [unfold normal_speed; cbn [wall pl_a pl_b pl_c v3 vx vy vz]; lra|]. split; [left; unfold plane_value; cbn [wall pl_a pl_b pl_c pl_d v3 vx vy vz]; lra|].
    rewrite Ea. split; [unfold plane_value; cbn [wall pl_a pl_b pl_c pl_d v3 vx vy vz]; lra|].
    unfold corners. apply (triangle_test _ _ _ _ _ (1/4) (1/4) (1/2)); try lra.
    + exists 400. cbn [wall pl_a pl_b pl_c pl_d v3 vx vy vz]. repeat split; lra.
    + unfold barycentric. cbn [v3 vx vy vz]. repeat split; lra.
Qed.
(** Away from it: none. *)
Lemma away (p : particle Rops) ds : p_cell p = 0%N -> p_direction p = v3 (-1) 0 0 ->
  distances_now room p ds -> forall k d, nth_error ds k = Some d -> d = huge.
Proof.
  intros Hc Hu H k d Hk. destruct (room_distance _ _ Hc H _ _ Hk) as (L & E). rewrite Hu in E.
  destruct (facet_distance_right _ _ _ _ _ _ _ _ E) as [(fc & _ & H1 & _)|(C & _)]; [|exact C].
  exfalso. unfold normal_speed in H1. cbn [wall pl_a pl_b pl_c v3 vx vy vz] in H1. lra.
Qed.
Lemma room_count (p : particle Rops) ds : p_cell p = 0%N -> distances_now room p ds -> length ds = 24%nat.
Proof.
  intros Hc (pls & E1 & E2). rewrite Hc in * . cbn in E1. injection E1; intros <-. clear E1.
  change (facet_distances room 0 (p_coordinate p) (p_direction p) (plane_tolerance p) 0 (repeat wall 24) = Ok ds) in E2.
  assert (G : forall (pls : list (plane Rops)) i ds, facet_distances room 0 (p_coordinate p) (p_direction p) (plane_tolerance p) i pls = Ok ds -> length ds = length pls).
  { clear. induction pls as [|pl pls IH]; intros i ds H; cbn [facet_distances] in H; [injection H; intros; subst; reflexivity|].
    rb H as d Ed. rb H as ds' Eds. injection H; intros; subst. cbn [length]. f_equal. eapply IH; eauto. }
  rewrite (G _ _ _ E2). reflexivity.
Qed.

(** First segment: the facet with the highest index, at distance 1. *)
Lemma first_segment (xs : R) : 0 <= xs -> 1 < mean_path xs <= huge -> exists q, outcome_after room_dom start (get_speed start) false (xs : F Rops) = Ok (OutFacetCrossing, q) /\
  p_facet q = 23%N /\ p_segment_path_length q = 1 /\ p_coordinate q = v3 1 0 0 /\ p_direction q = v3 1 0 0 /\ p_cell q = 0%N /\
  p_time_to_census q = 1 - 1 / get_speed start /\ p_num_mean_free_paths q = 1 - 1 / mean_path xs /\
  p_kinetic_energy q = neutron_mass_energy (K := Rops).
Proof.
  intros Hxs Hmp. pose proof (speed_bounds start eq_refl) as Hs. pose proof huge_large as Hh.
  assert (Ht : on_time start) by (split; cbn; lra).
  destruct (outcome_defined room_dom start (get_speed start) false xs room_complete eq_refl ltac:(lra) Hxs Ht) as (o & q & E).
  destruct (outcome_first _ _ _ _ _ _ E) as (n & ds & i & df & Hn & Hds & Hch & Hev & Hi & _).
  assert (En : n = 1) by (destruct Hn as [(_ & ->)|(C & _)]; [reflexivity|cbn in C; lra]). subst n.
  assert (Hall : forall k d, nth_error ds k = Some d -> d = 1).
  { intros k d Hk. rewrite (towards start 0 ds eq_refl eq_refl eq_refl ltac:(lra) Hds k d Hk). lra. }
  pose proof (room_count start ds eq_refl Hds) as L.
  assert (H23 : nth_error ds 23 = Some 1).
  { destruct (nth_error ds 23) as [d|] eqn:E23; [rewrite (Hall _ _ E23); reflexivity|]. apply nth_error_None in E23. lia. }
  assert (Hdf : df = 1 /\ i = 23%N).
  { destruct Hch as [(A & B & C & D)|[(A & _)|(A & _)]].
    - pose proof (Hall _ _ A) as Edf. subst df. split; [reflexivity|].
      assert (N.to_nat i < 24)%nat by (rewrite <- L; apply nth_error_Some; intros C'; pose proof (eq_trans (eq_sym A) C'); discriminate).
      pose proof (D 23%N H23). lia.
    - exfalso. pose proof (A 23%N 1 H23 ltac:(lra)). lra.
    - exfalso. destruct (A 23%N 1 H23); lra. }
  destruct Hdf as (-> & ->).
  replace (1 * mean_path xs) with (mean_path xs) in Hev by ring. rewrite Rmin_right in Hev by lra.
  replace (p_time_to_census start : R) with 1 in Hev by reflexivity. rewrite Rmult_1_r in Hev.
  assert (Eo : o = OutFacetCrossing /\ p_segment_path_length q = 1) by (destruct o; cbn [first_event] in Hev; [exfalso; lra|split; [reflexivity|apply Hev]|exfalso; lra]).
  destruct Eo as (-> & El). exists q. split; [exact E|]. split; [exact (Hi eq_refl)|]. split; [exact El|].
  destruct (outcome_parts _ _ _ _ _ _ _ E) as (i' & df' & p1 & d & En & _ & _ & ->).
  destruct (nearest_facet_first _ _ _ _ En) as ((x1 & Hp1) & _).
  destruct (end_clock p1 (get_speed start) d OutFacetCrossing i') as (E1 & _ & E3 & E4 & E5 & E6 & E7 & E8). cbv zeta in * .
  rewrite E3 in El. subst d. destruct (prepared_paths start xs) as (Pn & Pm & Pt & _ & Pc & Pd & Px & _).
  assert (Pn' : p_num_mean_free_paths (prepared_for start xs) = 1) by (destruct Pn as [(_ & ->)|(C & _)]; [reflexivity|cbn in C; lra]).
  assert (Hp : p_coordinate p1 = v3 0 0 0).
  { destruct (outcome_first _ _ _ _ _ _ E) as (n' & ds' & i2 & df2 & _ & Hds' & Hch' & _ & _ & Hx).
    assert (df2 < huge).
    { destruct Hch' as [(_ & B & _)|[(_ & -> & _)|(A & _)]]; [lra|lra|]. exfalso.
      pose proof (room_count start ds' eq_refl Hds') as L'.
      destruct (nth_error ds' 0) as [d0|] eqn:E0; [|apply nth_error_None in E0; lia].
      pose proof (towards start 0 ds' eq_refl eq_refl eq_refl ltac:(lra) Hds' _ _ E0). destruct (A 0%N d0 E0); lra. }
    specialize (Hx H ltac:(cbn; lra)). rewrite E6, E3 in Hx. cbn [start flyer p_coordinate p_direction set_direction set_coordinate] in Hx.
    replace (p_direction p1) with (v3 1 0 0) in Hx by (rewrite Hp1; symmetry; exact Pd).
    destruct (p_coordinate p1) as [cx cy cz]. unfold along in Hx. cbn in Hx. injection Hx; intros X1 X2 X3. unfold v3. f_equal; lra. }
  split; [|split; [|split; [|split; [|split]]]].
  - rewrite E6, Hp. replace (p_direction p1) with (v3 1 0 0) by (rewrite Hp1; symmetry; exact Pd).
    unfold along, v3. cbn [vx vy vz]. f_equal; match goal with |- @eq _ ?a ?b => change (@eq R a b) end; ring.
  - rewrite E7, Hp1. exact Pd.
  - rewrite E8, Hp1. exact Pc.
  - rewrite E1, (proj2 (Reqb_false 1 0) ltac:(lra)). replace (p_time_to_census p1) with (1 : R) by (rewrite Hp1; symmetry; exact Pt).
    apply Rmax_left. assert (1 / get_speed start <= 1 / 20000000000) by (unfold Rdiv; rewrite !Rmult_1_l; apply Rinv_le_contravar; lra). lra.
  - rewrite E4. replace (p_num_mean_free_paths p1) with (1 : R) by (rewrite Hp1; symmetry; exact Pn').
    replace (p_mean_free_path p1) with (mean_path xs) by (rewrite Hp1; symmetry; exact Pm). reflexivity.
  - rewrite E5, Hp1. unfold prepared_for. cbv zeta. match goal with |- context [if feq ?a ?b then sample_num_mfp _ else _] => destruct (feq a b) end; reflexivity.
Qed.

(** Any particle of that energy that flies away from the wall reaches census. *)
Lemma second_segment (p : particle Rops) : p_cell p = 0%N -> p_direction p = v3 (-1) 0 0 -> 0 <= p_time_to_census p <= 1 ->
  p_num_mean_free_paths p = 1 - 1 / huge -> p_kinetic_energy p = neutron_mass_energy (K := Rops) ->
  exists q, outcome_after room_dom p (get_speed p) false (0 : F Rops) = Ok (OutCensus, q).
Proof.
  intros Hc Hu Ht Hn He. pose proof (speed_bounds p He) as Hs. pose proof huge_large as Hh.
  assert (Hi : 0 < 1 / huge < 1).
  { unfold Rdiv. rewrite Rmult_1_l. split; [apply Rinv_0_lt_compat; lra|]. rewrite <- Rinv_1. apply Rinv_lt_contravar; lra. }
  assert (Hot : on_time p) by (split; [lra|rewrite Hn; lra]).
  destruct (outcome_defined room_dom p (get_speed p) false 0 room_complete ltac:(rewrite Hc; reflexivity) ltac:(lra) ltac:(lra) Hot) as (o & q & E).
  destruct (outcome_first _ _ _ _ _ _ E) as (n & ds & i & df & Pn & Hds & Hch & Hev & _).
  assert (En : n = 1 - 1 / huge) by (destruct Pn as [(_ & ->)|(C & _)]; [exact Hn|rewrite Hn in C; lra]). subst n.
  pose proof (away p ds Hc Hu Hds) as Hall.
  assert (Edf : df = huge).
  { destruct Hch as [(A & B & _)|[(_ & _ & y & A & B & _)|(_ & ->)]]; [pose proof (Hall _ _ A); lra|pose proof (Hall _ _ A); lra|reflexivity]. }
  subst df.
  assert (Em : mean_path 0 = huge) by (unfold mean_path; destruct (Req_EM_T 0 0); congruence).
  rewrite Em in Hev.
  assert (Ec : (1 - 1 / huge) * huge = huge - 1) by (field; lra). rewrite Ec in Hev. rewrite Rmin_right in Hev by lra.
  assert (Hz : get_speed p * p_time_to_census p <= 30000000000 * 1) by (apply Rmult_le_compat; lra).
  exists q. destruct o; [exfalso; cbn [first_event] in Hev; lra|exfalso; cbn [first_event] in Hev; lra|exact E].
Qed.

Lemma demo_track : exists p' , track_path room_td room_dom start [SegFacet BoundaryReflection; SegCensus] p' [].
Proof.
  pose proof huge_large as Hh. assert (Em : mean_path 0 = huge) by (unfold mean_path; destruct (Req_EM_T 0 0); congruence).
  destruct (first_segment 0) as (q & E & Hf & _ & _ & Hu & Hc & Ht & Hn & He); [lra|rewrite Em; lra|]. rewrite Em in Hn.
  pose proof (speed_bounds start eq_refl) as Hs.
  set (q1 := reflect_particle (set_last_event (set_num_segments q (fadd (p_num_segments q) f1)) EvReflection) wall).
  assert (Hq1 : q1 = set_direction (set_last_event (set_num_segments q (fadd (p_num_segments q) f1)) EvReflection) (v3 (-1) 0 0)).
  { unfold q1, reflect_particle. cbv zeta. unfold ftwo.
    replace (p_direction (set_last_event (set_num_segments q (fadd (p_num_segments q) f1)) EvReflection)) with (v3 1 0 0) by (symmetry; exact Hu).
    cbn [wall pl_a pl_b pl_c]. unfold vdot, vsub, vscale, v3. cbn [vx vy vz flt fmul fadd fsub flit f0 Rops].
    replace (Q2R 2) with 2 by (unfold Q2R; cbn; lra).
    rewrite (proj2 (Rltb_iff _ _)) by lra.
    f_equal. f_equal; match goal with |- @eq _ ?a ?b => change (@eq R a b) end; ring. }
  assert (S1 : seg_step room_td room_dom start (SegFacet (fa_event one_facet)) true q1 []).
  { eapply (ss_facet room_td room_dom start 0 q _ one_facet).
    - assert (F : out_of_paths start = false) by (unfold out_of_paths; cbn [flt Rops]; apply Rltb_false; cbn; lra).
      unfold entering. rewrite F. exact E.
    - rewrite Hc. reflexivity.
    - rewrite Hf. reflexivity.
    - reflexivity.
    - cbn [fa_event one_facet]. exists (repeat wall 24), wall. split; [|split; [|reflexivity]].
      + cbn [p_cell set_last_event set_num_segments]. rewrite Hc. reflexivity.
      + cbn [p_facet set_last_event set_num_segments]. rewrite Hf. reflexivity. }
  assert (I : 0 < 1 / get_speed start < 1).
  { unfold Rdiv. rewrite Rmult_1_l. split; [apply Rinv_0_lt_compat; lra|]. rewrite <- Rinv_1. apply Rinv_lt_contravar; lra. }
  assert (I' : 0 < 1 / huge < 1).
  { unfold Rdiv. rewrite Rmult_1_l. split; [apply Rinv_0_lt_compat; lra|]. rewrite <- Rinv_1. apply Rinv_lt_contravar; lra. }
  destruct (second_segment q1) as (q2 & E2).
  - rewrite Hq1. exact Hc.
  - rewrite Hq1. reflexivity.
  - rewrite Hq1. cbn [p_time_to_census set_direction set_last_event set_num_segments]. rewrite Ht. lra.
  - rewrite Hq1. exact Hn.
  - rewrite Hq1. exact He.
  - eexists. change (@nil (particle Rops)) with (@nil (particle Rops) ++ []). eapply tp_more; [exact S1|]. apply tp_last.
    eapply (ss_census room_td room_dom q1 0).
    assert (F : out_of_paths q1 = false).
    { unfold out_of_paths. cbn [flt Rops]. apply Rltb_false. rewrite Hq1. cbn [p_num_mean_free_paths set_direction set_last_event set_num_segments]. rewrite Hn. cbn [f0 Rops]. lra. }
    unfold entering. rewrite F. exact E2.
Qed.

(** The same first segment from the program, with a cross section found in the cache. *)
Definition room_mem : mem Rops := mkMem [(1 / 10) : F Rops] [(0 : F Rops)].
Lemma demo_outcome : exists q m', run_seq 1 (outcome room_td room_dom start) room_mem = Ok ((OutFacetCrossing, q), m').
Proof.
  assert (Em : mean_path (1 / 10) = 10) by (unfold mean_path; destruct (Req_EM_T (1 / 10) 0); lra).
  pose proof huge_large as Hh.
  destruct (first_segment (1 / 10)) as (q & E & _); [lra|rewrite Em; lra|].
  exists q, room_mem. unfold outcome. cbv zeta.
  assert (Fn : flt (p_num_mean_free_paths start) f0 = false) by (cbn [flt Rops]; apply Rltb_false; cbn; lra).
  rewrite Fn. unfold get_xs. cbn [pbind run_seq].
  assert (V : vec_get (m_cache room_mem) (slot 1 (p_cell start) (p_energy_group start)) = Ok ((1 / 10) : F Rops)) by reflexivity.
  rewrite V. cbn [rbind].
  assert (P : flt (f0 : F Rops) ((1 / 10) : F Rops) = true) by (apply Rltb_iff; cbn; lra).
  rewrite P. cbn [pbind run_seq]. rewrite E. reflexivity.
Qed.
