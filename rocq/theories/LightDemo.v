(** A closed box of a thin light gas, in binary64, and a particle that flies in it for ever. *)
From Coq Require Import String NArith ZArith QArith Reals Lia Lra List Bool.
From Flocq Require Import Core IEEE754.BinarySingleNaN.
From Verif Require Import Float RngModel RngIeee Ieee ParticleModel NuclearModel MeshTypes Balance TrackModel CycleModel GridModel AssignModel MeshModel
  TrackSpec ProgLemmas TrackAccount IeeeEnergy SafeIeee SafeDemo LightSpec LightFacts LightBounce.
Import ListNotations.
Local Open Scope N_scope.

(** A gas of mass 1/2, hardly ever met by a particle: 1e-20 per cm. *)
Definition gas : material_params K1 :=
  mkMatParams "gas" (flit (1 # 2)) (flit (1 # 100000000000000000000)) 1 3 f0 "flat" "flat" "flat" f1 f1 f1.
Definition gas_nuclear : result (nuclear_data K1 * list (material K1)) :=
  init_materials [gas] (nuclear_new 1 (flit (1 # 1000)) (flit (20 # 1))) [("flat"%string, mkPoly f0 f0 f0 f0 f1)] [("flat"%string, flit (24 # 10))].
Definition gas_domain_of (mats : list (material K1)) : result (domain K1) :=
  init_mcunits (fun l => l) (mkDims 1 1 1) (flit (10 # 1)) (flit (10 # 1)) (flit (10 # 1)) 1029384756 "reflect"
    [mkGeomParams "gas" Brick f0 f0 f0 f0 f0 f0 f0 (flit (100 # 1)) (flit (100 # 1)) (flit (100 # 1))] mats.
Definition gas_dt : F K1 := flit (1 # 100000000).

(** The two walls, and the directions of the flights between them. *)
Definition wall_a : vec K1 := mkVec f0 (flit (4 # 1)) (flit (3 # 1)).
Definition to_b : vec K1 := mkVec f1 f0 f0.
Definition wall_b : vec K1 := mkVec (flit (10 # 1)) (flit (4 # 1)) (flit (3 # 1)).
Definition to_a : vec K1 := mkVec (fneg f1) f0 f0.

(** ** The legs as computations *)
Definition same64 (x y : f64) : bool :=
  match B2SF x, B2SF y with
  | SpecFloat.S754_zero a, SpecFloat.S754_zero b => Bool.eqb a b
  | SpecFloat.S754_finite a m e, SpecFloat.S754_finite b n f => Bool.eqb a b && Pos.eqb m n && Z.eqb e f
  | _, _ => false
  end.
Lemma same64_ok x y : same64 x y = true -> x = y.
Proof.
  unfold same64. intros H. apply B2SF_inj. destruct (B2SF x), (B2SF y); try discriminate.
  - apply eqb_prop in H. congruence.
  - apply andb_true_iff in H as (H & H3). apply andb_true_iff in H as (H1 & H2).
    apply eqb_prop in H1. apply Pos.eqb_eq in H2. apply Z.eqb_eq in H3. congruence.
Qed.
Definition same_vec (u v : vec K1) : bool := same64 (vx u) (vx v) && same64 (vy u) (vy v) && same64 (vz u) (vz v).
Lemma same_vec_ok u v : same_vec u v = true -> u = v.
Proof.
  destruct u as [a b c], v as [x y z]. unfold same_vec. cbn [vx vy vz]. intros H. apply andb_true_iff in H as (H & H3). apply andb_true_iff in H as (H1 & H2).
  apply same64_ok in H1, H2, H3. congruence.
Qed.

Definition reflecting (fa : facet_adj) : bool := match fa_event fa with BoundaryReflection => true | _ => false end.
Definition leg_check (dom : domain K1) (xs : F K1) (c d c' d' : vec K1) : bool :=
  let m := d_mesh dom in let mfp := fdiv f1 xs in
  ok_with (vec_get (me_geom m) 0) (fun planes => ok_with (facet_distances m 0 c d (tolerance_at c) 0 planes) (fun ds =>
  let '(i, len) := compute_nearest ds in
  negb (feq len fhuge) && negb (fle len f0) && same64 (fmax len f0) len && fle len fhuge && fle f0 len && negb (feq len f0)
  && flt len (fmul f1 mfp) && same64 (fsub f1 (fdiv len mfp) : F K1) (f1 : F K1) && same_vec (vadd c (vscale d len)) c'
  && ok_with (vec_get (me_conn m) 0) (fun conn => ok_with (vec_get (cc_facet conn) i) (fun fa => reflecting fa))
  && ok_with (vec_get planes i) (fun pl => flt f0 (fmul ftwo (vdot d (normal pl)))
       && same_vec (vsub d (vscale (normal pl) (fmul ftwo (vdot d (normal pl))))) d'))).
Lemma leg_check_ok dom xs c d c' d' : leg_check dom xs c d c' d' = true ->
  exists planes ds i len conn fa pl, leg dom xs c d c' d' planes ds i len conn fa pl.
Proof.
  unfold leg_check. cbv zeta. intros H.
  destruct (vec_get (me_geom (d_mesh dom)) 0) as [planes| |] eqn:E1; [|discriminate H|discriminate H]. cbn [ok_with] in H.
  destruct (facet_distances (d_mesh dom) 0 c d (tolerance_at c) 0 planes) as [ds| |] eqn:E2; [|discriminate H|discriminate H]. cbn [ok_with] in H.
  destruct (compute_nearest ds) as [i len] eqn:E3. rewrite !andb_true_iff in H.
  destruct H as ((((((((((A1 & A2) & A3) & A4) & A5) & A6) & A7) & A8) & A9) & A10) & A11).
  destruct (vec_get (me_conn (d_mesh dom)) 0) as [conn| |] eqn:E4; [|discriminate A10|discriminate A10]. cbn [ok_with] in A10.
  destruct (vec_get (cc_facet conn) i) as [fa| |] eqn:E5; [|discriminate A10|discriminate A10]. cbn [ok_with] in A10.
  destruct (vec_get planes i) as [pl| |] eqn:E6; [|discriminate A11|discriminate A11]. cbn [ok_with] in A11. apply andb_true_iff in A11 as (A11 & A12).
  exists planes, ds, i, len, conn, fa, pl.
  apply negb_true_iff in A1, A2, A6. apply same64_ok in A3, A8. apply same_vec_ok in A9, A12.
  assert (A10' : fa_event fa = BoundaryReflection) by (unfold reflecting in A10; destruct (fa_event fa); [discriminate A10|discriminate A10|reflexivity|discriminate A10|discriminate A10]).
  constructor; assumption.
Qed.

Definition gas_check : bool :=
  ok_with gas_nuclear (fun nm => let '(nd, mats) := nm in ok_with (gas_domain_of mats) (fun dom =>
    ok_with (cell_cross_section (mkTrackData gas_dt nd mats) dom 0 0) (fun xs =>
      leg_check dom xs wall_a to_b wall_b to_a && leg_check dom xs wall_b to_a wall_a to_b
      && negb (feq xs f0) && flt (fmul f1 (fdiv f1 xs)) fhuge
      && ok_with (vec_get (nd_energies nd) 0) (fun e => is_finite (e : f64) && fle f0 e)))).
Lemma gas_checked : gas_check = true.
Proof. vm_compute. reflexivity. Qed.

Lemma clockless_nan (p : particle K1) : below_zero (p_kinetic_energy p) -> clockless p.
Proof.
  intros H t d. rewrite (no_speed _ p H).
  replace (fmul (B754_nan : F K1) t) with (B754_nan : F K1); [reflexivity|]. symmetry. apply mul_nan_l.
Qed.

Lemma lowest_group (nd : nuclear_data K1) (e e0 : F K1) : vec_get (nd_energies nd) 0 = Ok e0 -> is_finite (e0 : f64) = true -> fle f0 e0 = true ->
  below_zero e -> get_energy_groups nd e = Ok 0.
Proof.
  intros E0 F0 P0 (Fe & He). unfold get_energy_groups. rewrite E0. cbn [rbind].
  assert (L : fle e e0 = true).
  { change (Bleb (e : f64) (e0 : f64) = true). rewrite Bleb_correct by assumption. apply Rle_bool_true.
    apply (leb64 zero64 e0 eq_refl F0) in P0. change (B2R zero64) with 0%R in P0.
    pose proof (bpow_gt_0 radix2 (-900)). lra. }
  rewrite L. reflexivity.
Qed.

Lemma prepared_fields {K : FloatOps} (td : track_data K) (p : particle K) g : get_energy_groups (td_nuclear td) (p_kinetic_energy p) = Ok g ->
  exists p1, prepare_particle td p = Ok p1 /\ p_coordinate p1 = p_coordinate p /\ p_direction p1 = p_direction p /\ p_cell p1 = p_cell p /\
    p_num_mean_free_paths p1 = p_num_mean_free_paths p /\ p_energy_group p1 = g /\ p_kinetic_energy p1 = p_kinetic_energy p.
Proof.
  intros H. unfold prepare_particle. destruct (fle (p_time_to_census p) f0); cbn [p_kinetic_energy set_age set_time_to_census]; rewrite H; cbn [rbind];
    eexists; (split; [reflexivity|]); repeat split.
Qed.

(** Any particle of negative energy that leaves wall [a] towards wall [b], with one mean free path left. *)
Definition starts_at_wall (p : particle K1) : Prop :=
  p_coordinate p = wall_a /\ p_direction p = to_b /\ p_cell p = 0 /\ p_num_mean_free_paths p = f1 /\ below_zero (p_kinetic_energy p).

Theorem gas_endless : exists nd mats dom, gas_nuclear = Ok (nd, mats) /\ gas_domain_of mats = Ok dom /\
  forall (p : particle K1), starts_at_wall p -> forall fuel cfuel b extra,
  run_seq 1 (cycle_tracking_guts fuel cfuel (mkTrackData gas_dt nd mats) dom p b extra) (mkMem [f0] [f0]) = NoFuel.
Proof.
  pose proof gas_checked as H. unfold gas_check in H.
  destruct gas_nuclear as [[nd mats]| |]; [|discriminate H|discriminate H]. cbn [ok_with] in H.
  exists nd, mats. destruct (gas_domain_of mats) as [dom| |]; [|discriminate H|discriminate H]. cbn [ok_with] in H.
  exists dom. split; [reflexivity|]. split; [reflexivity|].
  set (td := mkTrackData gas_dt nd mats) in * . 
  destruct (cell_cross_section td dom 0 0) as [xs| |] eqn:Ex; [|discriminate H|discriminate H]. cbn [ok_with] in H.
  rewrite !andb_true_iff in H. destruct H as ((((H1 & H2) & H3) & H4) & H5).
  destruct (vec_get (nd_energies nd) 0) as [e0| |] eqn:E0; [|discriminate H5|discriminate H5]. cbn [ok_with] in H5. apply andb_true_iff in H5 as (H5 & H6).
  apply leg_check_ok in H1 as (pls1 & ds1 & i1 & len1 & conn1 & fa1 & pl1 & L1).
  apply leg_check_ok in H2 as (pls2 & ds2 & i2 & len2 & conn2 & fa2 & pl2 & L2).
  apply negb_true_iff in H3.
  intros p (Pc & Pd & Pl & Pn & Pe) fuel cfuel b extra.
  destruct (prepared_fields td p 0 (lowest_group nd _ e0 E0 H5 H6 Pe)) as (p1 & Ep & Qc & Qd & Ql & Qn & Qg & Qe).
  unfold cycle_tracking_guts. rewrite Ep. cbn [lift pbind].
  eapply (bounce_forever td dom xs H3 H4); [| |exact Ex|exact L1|exact L2| |].
  - vm_compute. reflexivity.
  - vm_compute. reflexivity.
  - left. unfold flying. rewrite Qc, Qd, Ql, Qn, Qg, Pc, Pd, Pl, Pn. repeat (split; [reflexivity|]). apply clockless_nan. rewrite Qe. exact Pe.
  - split.
    + exists (f0 : F K1). split; [reflexivity|]. left. vm_compute. reflexivity.
    + exists (f0 : F K1). reflexivity.
Qed.

(** ** Concrete cases *)
Lemma minus_one_below : below_zero (f64_of_Z (-1)).
Proof.
  destruct of_Z_minus1 as (A & B). split; [exact A|]. rewrite B. split; [lra|].
  assert (bpow radix2 (-900) <= bpow radix2 0)%R by (apply bpow_le; lia). change (bpow radix2 0) with 1%R in H. lra.
Qed.
(** A particle of energy [e] at wall [a]. *)
Definition bouncer (e : F K1) : particle K1 :=
  set_kinetic_energy (set_num_mean_free_paths (set_species (set_direction (set_coordinate (set_weight particle_default f1) wall_a) to_b) Known) f1) e.
Lemma bouncer_starts : starts_at_wall (bouncer (f64_of_Z (-1))).
Proof. split; [reflexivity|]. split; [reflexivity|]. split; [reflexivity|]. split; [reflexivity|]. exact minus_one_below. Qed.

(** The same particle with a positive energy reaches the end of the cycle. *)
Definition is_census (p : particle K1) : bool := match p_last_event p with EvCensus => true | _ => false end.
Definition positive_check : bool :=
  ok_with gas_nuclear (fun nm => let '(nd, mats) := nm in ok_with (gas_domain_of mats) (fun dom =>
    ok_with (run_seq 1 (cycle_tracking_guts 10 10 (mkTrackData gas_dt nd mats) dom (bouncer f1) balance_zero []) (mkMem [f0] [f0]))
      (fun r => is_census (fst (fst (fst r)))))).
Lemma positive_ends : positive_check = true.
Proof. vm_compute. reflexivity. Qed.

(** With open walls the particle of negative energy escapes. *)
Definition open_domain_of (mats : list (material K1)) : result (domain K1) :=
  init_mcunits (fun l => l) (mkDims 1 1 1) (flit (10 # 1)) (flit (10 # 1)) (flit (10 # 1)) 1029384756 "escape"
    [mkGeomParams "gas" Brick f0 f0 f0 f0 f0 f0 f0 (flit (100 # 1)) (flit (100 # 1)) (flit (100 # 1))] mats.
Definition open_check : bool :=
  ok_with gas_nuclear (fun nm => let '(nd, mats) := nm in ok_with (open_domain_of mats) (fun dom =>
    ok_with (run_seq 1 (cycle_tracking_function 10 10 (mkTrackData gas_dt nd mats) dom (bouncer (f64_of_Z (-1))) balance_zero []) (mkMem [f0] [f0]))
      (fun r => true))).
Lemma open_ends : open_check = true.
Proof. vm_compute. reflexivity. Qed.
Lemma path_of_run (td : track_data K1) dom p fuel cfuel b mm :
  ok_with (run_seq 1 (cycle_tracking_function fuel cfuel td dom p b []) mm) (fun r => true) = true ->
  exists evs p' nx, track_path td dom p evs p' nx.
Proof.
  intros H. destruct (run_seq 1 _ _) as [[[[p' b'] ex'] mm']| |] eqn:E; [|discriminate H|discriminate H].
  pose proof (leaves_run_seq _ _ _ _ _ _ (tracking_leaves fuel cfuel td dom p b []) E) as (evs & nx & T & _ & _). exists evs, p', nx. exact T.
Qed.
Lemma open_path_of (nm : result (nuclear_data K1 * list (material K1))) (mk : list (material K1) -> result (domain K1)) p fuel cfuel b mm :
  ok_with nm (fun nm => let '(nd, mats) := nm in ok_with (mk mats) (fun dom =>
    ok_with (run_seq 1 (cycle_tracking_function fuel cfuel (mkTrackData gas_dt nd mats) dom p b []) mm) (fun r => true))) = true ->
  exists (td : track_data K1) dom evs p' nx, track_path td dom p evs p' nx.
Proof.
  intros H. destruct nm as [[nd mats]| |]; [|discriminate H|discriminate H]. cbn [ok_with] in H.
  destruct (mk mats) as [dom| |]; [|discriminate H|discriminate H]. cbn [ok_with] in H.
  exists (mkTrackData gas_dt nd mats), dom. exact (path_of_run _ _ _ _ _ _ _ H).
Qed.
Lemma open_path : exists (td : track_data K1) dom p evs p' nx, track_path td dom p evs p' nx /\ below_zero (p_kinetic_energy p).
Proof.
  destruct (open_path_of gas_nuclear open_domain_of (bouncer (f64_of_Z (-1))) 10 10 balance_zero (mkMem [f0] [f0]) open_ends) as (td & dom & evs & p' & nx & T).
  exists td, dom, (bouncer (f64_of_Z (-1))), evs, p', nx. split; [exact T|exact minus_one_below].
Qed.

(** A scattering on the gas, the first draw being above 3/4. *)
Definition scattered : particle K1 := set_random_number_seed (bouncer f1) 5.
Definition draw_check : bool := Bleb (f64_lit (3 # 4)) (fsample64 (rng_next (p_random_number_seed scattered))).
Lemma draw_checked : draw_check = true.
Proof. vm_compute. reflexivity. Qed.
Lemma three_quarters : is_finite (f64_lit (3 # 4)) = true /\ (B2R (f64_lit (3 # 4)) = 3 / 4)%R.
Proof.
  destruct (finite_value (f64_lit (3 # 4)) false 6755399441055744 (-53)) as (A & B); [vm_compute; reflexivity|].
  split; [exact A|]. rewrite B. unfold F2R. cbn [Fnum Fexp cond_Zopp bpow]. change (Z.pow_pos radix2 53) with 9007199254740992%Z. lra.
Qed.
Lemma half64 : is_finite (f64_lit (1 # 2)) = true /\ (B2R (f64_lit (1 # 2)) = 1 / 2)%R.
Proof.
  destruct (finite_value (f64_lit (1 # 2)) false 4503599627370496 (-53)) as (A & B); [vm_compute; reflexivity|].
  split; [exact A|]. rewrite B. unfold F2R. cbn [Fnum Fexp cond_Zopp bpow]. change (Z.pow_pos radix2 53) with 9007199254740992%Z. lra.
Qed.
Lemma scatter_case : (is_finite (f64_lit (1 # 2)) = true /\ 1 / 8 <= B2R (f64_lit (1 # 2)) <= 1 / 2 /\
  is_finite (p_kinetic_energy scattered : f64) = true /\ bpow radix2 (-800) <= B2R (p_kinetic_energy scattered : f64) <= 20 /\
  3 / 4 <= B2R (fsample64 (rng_next (p_random_number_seed scattered))))%R.
Proof.
  destruct half64 as (A & B). destruct one64 as (C & D). destruct three_quarters as (E & G).
  split; [exact A|]. split; [rewrite B; lra|]. split; [exact C|]. split.
  - change (p_kinetic_energy scattered : f64) with (f64_of_Z 1). rewrite D. assert (bpow radix2 (-800) <= bpow radix2 0)%R by (apply bpow_le; lia). change (bpow radix2 0) with 1%R in H. lra.
  - pose proof draw_checked as H. unfold draw_check in H. rewrite <- G. apply leb64; [exact E| |exact H].
    apply fsample64_between. apply RngLemmas.rng_next_lt.
Qed.
