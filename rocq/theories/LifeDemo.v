(** A fission at the very end of a cycle: the particles that it creates get the time of a whole cycle more (C64). *)
From Coq Require Import NArith ZArith QArith Qreals List Bool String Reals Lra Lia Psatz.
From Flocq Require Import Core.Raux.
From Verif Require Import Float RealOps RngModel ParticleModel NuclearModel MeshTypes Balance TrackModel CycleModel GridModel MeshModel GridSpec GridLemmas
  MeshFacts MeshSpec MeshTheorems WellBuilt TrackSpec TrackAccount CycleSpec PopSpec PopDemo SegmentSpec NearestLemmas FacetLemmas SegmentFacts SegmentDefined SegmentDemo CrossingLemmas
  NuclearSpec OutcomeLemmas GeomSpec GeomLemmas PlaneLemmas SourcePoint GeomDemo StaySpec StayLemmas StaySteps StayRun StayDemo QuietRun QuietSteps QuietTrack SpeedSpec SpeedFacts LifeSpec LifeRun ScheduleLemmas.
Import ListNotations.
Local Open Scope R_scope.
Local Opaque rng_next spawn_rn_seed huge tiny.

Definition late_reaction : reaction Rops := mkReaction (K := Rops) [(1 : R); (1 : R); (1 : R)] Fission (2 : R).
Definition late_td : track_data Rops :=
  mkTrackData (K := Rops) (1 : R) (mkNuclear (K := Rops) 3 [[late_reaction]] [(1 : R); (5 : R); (10 : R); (20 : R)])
    [mkMaterial (K := Rops) "fuel" (12 : R) [mkIsotope (K := Rops) 0 (1 : R)]].

(** In the middle of the first cell, one mean free path and as much time from the next collision. *)
Definition late (i0 : nat) : particle Rops :=
  let p := set_kinetic_energy (set_cell (flyer (v3 (5 / 2) (10 / 3) (15 / 4)) (v3 0 1 0) 1 1) (N.of_nat i0)) (2 : R) in
  set_time_to_census p (1 / get_speed p : R).

Lemma late_speed i0 : 0 < get_speed (late i0) /\ get_speed (late i0) * p_time_to_census (late i0) = 1.
Proof.
  assert (H : 0 < get_speed (late i0)) by (apply speed_pos; cbn; lra). split; [exact H|].
  change (get_speed (late i0) * (1 / get_speed (late i0)) = 1). field. apply Rgt_not_eq. exact H.
Qed.

Lemma late_deep i0 : deep box (0, 0, 0)%N (5 / 2) (p_coordinate (late i0)).
Proof.
  intros f Hf. change (p_coordinate (late i0)) with (v3 (5 / 2) (10 / 3) (15 / 4)). unfold beyond, v3. cbn [vx vy vz]. rewrite box_x, box_y, box_z.
  do 6 (destruct f as [|f]; [cbn; rewrite ?real_zero, ?real_one; lra|]). lia.
Qed.

Lemma late_flying pt i0 : local_to_global pt i0 0 -> flying box pt (late i0).
Proof.
  intros L. split; [|split].
  - exists 0%N. change (p_cell (late i0)) with (N.of_nat i0). rewrite Nat2N.id, start_tuple. split; [exact L|].
    pose proof (late_deep i0) as Hd. split; [eapply deep_in; [|exact Hd]; lra|]. apply off_faces_stays. eapply deep_off_faces; [exact box_sized| |exact Hd]. lra.
  - unfold unit_vec, dot. change (p_direction (late i0)) with (v3 0 1 0). cbn [v3 vx vy vz]. change (0 * 0 + 1 * 1 + 0 * 0 = 1). lra.
  - destruct (late_speed i0) as (H1 & H2). split; [|change (0 <= 1); lra].
    change (0 <= 1 / get_speed (late i0)). apply Rmult_le_pos; [lra|]. apply Rlt_le, Rinv_0_lt_compat. exact H1.
Qed.

Lemma late_pick (cur : R) g : (g < 3)%N -> 0 <= cur <= 1 -> pick_loop 2 late_td 0 (1 : R) g cur = Ok late_reaction.
Proof.
  intros Hg Hc. assert (Step : forall x : R, pick_isotope (td_nuclear late_td) [mkIsotope (K := Rops) 0 (1 : R)] (1 : R) g x =
    Ok (if Rltb (x - 1) 0 then inr late_reaction else inl (x - 1 : R))).
  { intros x. cbn [pick_isotope iso_gid td_nuclear late_td nd_isotopes iso_atom_fraction]. change (vec_get [[late_reaction]] 0) with (Ok [late_reaction]). cbn [rbind pick_reaction].
    cbn [feq f0 Rops]. rewrite (proj2 (Reqb_false 1 0)) by lra. cbn [orb].
    assert (E : vec_get (r_cross_section late_reaction) g = Ok (1 : F Rops)).
    { unfold vec_get. destruct (N.to_nat g) as [|[|[|k]]] eqn:Eg; try reflexivity. lia. }
    rewrite E. cbn [rbind fsub fmul flt f0 Rops]. replace (x - 1 * 1 * 1) with (x - 1) by ring. destruct (Rltb (x - 1) 0); reflexivity. }
  cbn [pick_loop fle f0 Rops]. rewrite (proj2 (Rleb_iff 0 cur)) by lra. change (vec_get (td_mats late_td) 0) with (Ok (mkMaterial (K := Rops) "fuel" (12 : R) [mkIsotope (K := Rops) 0 (1 : R)])).
  cbn [rbind mat_iso]. rewrite Step. cbn [rbind]. destruct (Rltb (cur - 1) 0) eqn:E1; [reflexivity|].
  apply Rltb_false in E1. rewrite (proj2 (Rleb_iff 0 (cur - 1))) by lra. rewrite Step. cbn [rbind].
  rewrite (proj2 (Rltb_iff (cur - 1 - 1) 0)) by lra. reflexivity.
Qed.

Lemma late_group (e : R) : 1 <= e <= 20 -> exists g, get_energy_groups (td_nuclear late_td) e = Ok g.
Proof.
  intros He. destruct (quiet_group e He) as (g & Eg & _). exists g. exact Eg.
Qed.

Theorem late_fission : exists pt dom p r n p' q nx q', built_domain box "octant" pt box_geoms box_mats dom /\ heavy late_td /\ 0 < td_dt late_td /\
  flying box pt p /\ 0 < p_kinetic_energy p /\ seg_step late_td dom p (SegCollision r n) true p' (q :: nx) /\ clean box (Flew p (SegCollision r n) p') /\
  prepare_particle late_td q = Ok q' /\ age_at_census p' = age_at_census p /\ age_at_census q' = age_at_census p + td_dt late_td.
Proof.
  destruct box_first as (pt & dom & i0 & D & B & L0). pose proof (late_flying pt i0 L0) as Hfl. destruct (late_speed i0) as (Hv & Hvt).
  set (p := late i0) in * . pose proof Hfl as ((c0 & L & Hin & Hst) & Hu & Hot).
  destruct (built_complete _ _ _ _ B) as (Cg & Ln). pose proof (built_domain_parts _ _ _ _ _ _ D) as (_ & _ & Lc & Hm).
  assert (Hi : (i0 < List.length (me_conn (d_mesh dom)))%nat).
  { destruct (built_mesh_is _ _ _ _ B) as (cs & boundary & Pc & Nc & _). pose proof L0 as L1. unfold local_to_global in L1. rewrite (cells_keys _ _ Nc) in L1.
    rewrite Ln. apply Permutation.Permutation_length in Pc. assert (El : List.length cs = N.to_nat (total_cells (g_dims box))) by (rewrite Pc; apply FloodLemmas.nrange_length). rewrite <- El.
    apply nth_error_Some. intros C. pose proof (eq_trans (eq_sym L1) C) as X. discriminate X. }
  destruct (on_time_enters _ Hot) as (E1 & E2).
  destruct (outcome_defined dom p (get_speed p) false 1 Cg) as (o & p1 & Ho); [change (p_cell p) with (N.of_nat i0); lia|lra|lra|exact Hot|].
  destruct (outcome_first _ _ _ _ _ _ Ho) as (k & ds & i & df & Pn & Hds & Hfc & Hev & _ & Hx).
  assert (Ec0 : c0 = 0%N). { change (p_cell p) with (N.of_nat i0) in L. rewrite Nat2N.id in L. unfold local_to_global in L, L0. pose proof (eq_trans (eq_sym L) L0) as E. congruence. }
  subst c0. rewrite start_tuple in Hin, Hst.
  destruct (nearest_exit box "octant" pt (d_mesh dom) i0 0 B box_sized box_fits L0 p ds i df eq_refl) as (_ & Hdf & Hlv); [exact Hin|exact Hst|exact Hu|exact Hds|exact Hfc|].
  assert (Hdf' : 5 / 2 <= df).
  { destruct Hlv as (Hf & _ & Hz & _). rewrite beyond_along in Hz. pose proof (late_deep i0 _ Hf) as Hb. fold p in Hb. rewrite start_tuple in Hz. pose proof (dot_outward (p_direction p) _ Hu Hf) as Hdo.
    set (e1 := beyond _ _ _ _) in * . set (e2 := dot _ _) in * . clearbody e1 e2. nra. }
  assert (Ek : k = 1). { destruct Pn as [(_ & ->)|(E0 & _)]; [reflexivity|]. exfalso. change (1 = 0) in E0. lra. }
  subst k. assert (Em : mean_path 1 = 1) by (unfold mean_path; destruct (Req_EM_T 1 0); [exfalso; lra|lra]). rewrite Em, Rmult_1_r in Hev.
  pose proof huge_large as Hh. rewrite (Rmin_right huge 1) in Hev by lra. rewrite Hvt in Hev.
  assert (Eo : o = OutCollision /\ p_segment_path_length p1 = 1) by (destruct o; cbn [first_event] in Hev; [split; [reflexivity|apply Hev]|exfalso; lra|exfalso; lra]).
  destruct Eo as (-> & Ed). specialize (Hx (proj2 Hdf) ltac:(change (0 <= 10000000); lra)). rewrite Ed in Hx.
  pose proof (outcome_clock _ _ _ _ _ _ Ho (speed_nonneg p) Hot) as (_ & _ & _ & _ & Ha & _ & Ae). specialize (Ha Hv).
  (* the time that is left *)
  assert (T0 : p_time_to_census p1 = 0).
  { destruct (outcome_parts _ _ _ _ _ _ _ Ho) as (i' & df' & pp & d & Enf & _ & _ & Eq).
    destruct (nearest_facet_first _ _ _ _ Enf) as ((x1 & Hp1) & _).
    destruct (end_clock pp (get_speed p) d OutCollision i') as (X1 & _ & X3 & _). cbv zeta in * . rewrite <- Eq in * .
    rewrite Ed in X3. rewrite X1, <- X3. destruct (prepared_paths p 1) as (_ & _ & Pt & _).
    rewrite (proj2 (Reqb_false 1 0)) by lra. replace (p_time_to_census pp) with (p_time_to_census p : R) by (rewrite Hp1; symmetry; exact Pt).
    rewrite Rmax_right; [reflexivity|]. change (1 / get_speed p - 1 / get_speed p <= 0). lra. }
  destruct (outcome_after_place _ _ _ _ _ _ _ Ho) as (Pc & Pg).
  assert (Xs : p_total_cross_section p1 = 1).
  { destruct (outcome_parts _ _ _ _ _ _ _ Ho) as (i' & df' & pp & d & Enf & _ & _ & Eq). destruct (nearest_facet_first _ _ _ _ Enf) as ((x1 & Hp1) & _).
    rewrite Eq. unfold segment_end. cbv zeta. transitivity (p_total_cross_section pp); [destruct (feq d f0); reflexivity|]. rewrite Hp1.
    unfold prepared_for. cbv zeta. match goal with |- context [if feq ?a ?b then sample_num_mfp _ else _] => destruct (feq a b) end; reflexivity. }
  (* the cell *)
  destruct (nth_error (d_cells dom) i0) as [cs|] eqn:Ecs; [|exfalso; apply nth_error_None in Ecs; rewrite Lc in Ecs; lia].
  assert (Ev : vec_get (d_cells dom) (p_cell p1) = Ok cs) by (apply vec_get_nth; rewrite Pc; change (p_cell p) with (N.of_nat i0); rewrite Nat2N.id; exact Ecs).
  destruct (cell_facts _ _ _ _ _ _ D box_sized i0 cs Ecs) as (cc & _ & _ & _ & _ & _ & Nd).
  assert (Mt : cs_material cs = 0%N). { rewrite Forall_forall in Hm. specialize (Hm cs (nth_error_In _ _ Ecs)). change (N.of_nat (List.length box_mats)) with 1%N in Hm. lia. }
  (* the partner *)
  set (p1' := set_num_segments p1 (fadd (p_num_segments p1) f1)). destruct (get_current_xs p1') as [cur p2] eqn:Ecur.
  assert (Hcur : 0 <= cur <= 1 /\ p_time_to_census p2 = p_time_to_census p1 /\ p_energy_group p2 = p_energy_group p1 /\ p_coordinate p2 = p_coordinate p1).
  { unfold get_current_xs in Ecur. rewrite draw_next in Ecur. apply pair_equal_spec in Ecur. destruct Ecur as (<- & <-).
    pose proof (draw_unit p1') as Du. change (p_total_cross_section p1') with (p_total_cross_section p1). rewrite Xs. cbn [fmul Rops]. split; [|repeat split].
    set (w := next_draw p1') in * . clearbody w. change (F Rops) with R in * . lra. }
  destruct Hcur as (Hcur & Ht2 & Hg2 & Hx2).
  assert (Hpick : pick_loop 2 late_td (cs_material cs) (cs_number_density cs) (p_energy_group p2) cur = Ok late_reaction).
  { rewrite Mt, Nd. apply late_pick; [|exact Hcur]. rewrite Hg2, Pg. reflexivity. }
  (* the fission *)
  pose proof (draw_unit p2) as Du. destruct (fission_real p2 late_reaction (12 : R) eq_refl) as (_ & Hf & _); [cbn; lra|]. cbv zeta in Hf.
  set (x := r_nu_bar late_reaction + next_draw p2) in * . assert (Hx' : 2 <= x <= 3) by (unfold x; change (r_nu_bar late_reaction) with 2; lra).
  destruct Hf as (q3 & sec & Hcol & Hlen & Hall); [lra|].
  assert (Hfl2 : (2 <= Zfloor x)%Z) by (apply Zfloor_lub; apply Hx').
  destruct sec as [|q nx]; [exfalso; cbn [List.length] in Hlen; lia|].
  destruct (Forall_inv Hall) as (Sq3 & Eq3). destruct (Forall_inv (Forall_inv_tail Hall)) as (Sq & Eq).
  destruct (late_group (p_kinetic_energy q3)) as (gr & Egr); [change (F Rops) with R in * ; lra|].
  destruct (late_group (p_kinetic_energy q)) as (gq & Egq); [change (F Rops) with R in * ; lra|].
  destruct (collision_clock _ _ _ _ _ _ Hcol) as (C1 & C2). pose proof (Forall_inv C2) as C3. cbv beta in C3.
  assert (Hn : (1 <=? Z.to_N (Zfloor x))%N = true) by (apply N.leb_le; lia).
  pose proof (ss_collision late_td dom p 1 p1 cs cur p2 2 late_reaction (mkMaterial (K := Rops) "fuel" (12 : R) [mkIsotope (K := Rops) 0 (1 : R)]) (Z.to_N (Zfloor x)) q3 (q :: nx) gr
    (set_energy_group q3 gr)) as Hstep. rewrite E1, E2 in Hstep.
  specialize (Hstep Ho Ev Ecur Hpick ltac:(rewrite Mt; reflexivity) Hcol Egr). cbv zeta in Hstep. rewrite Hn in Hstep. specialize (Hstep eq_refl).
  assert (Tq : p_time_to_census q = 0 /\ p_age q = p_age p1).
  { unfold clock in C3. assert (X : p_time_to_census q = p_time_to_census p2 /\ p_age q = p_age p2) by (split; congruence). destruct X as (X1 & X2). rewrite X1, X2, Ht2. split; [exact T0|].
    unfold get_current_xs in Ecur. rewrite draw_next in Ecur. apply (f_equal snd) in Ecur. cbn [snd] in Ecur. rewrite <- Ecur. reflexivity. }
  destruct Tq as (Tq & Aq).
  assert (Ap : p_age p1 = p_age p + p_time_to_census p). { unfold age_at_census in Ha. rewrite T0 in Ha. rewrite <- Ha. change (F Rops) with R in * . rring. }
  assert (A0 : 0 <= p_age p1). { rewrite Ap. destruct Hot as (Hot & _). change (p_age p) with 0. change (F Rops) with R in * . lra. }
  exists pt, dom, p, Fission, (Z.to_N (Zfloor x)), (set_energy_group q3 gr), q, nx.
  eexists. split; [exact D|]. split; [constructor; [cbn [mat_mass]; lra|constructor]|]. split; [cbn [td_dt late_td]; lra|]. split; [exact Hfl|].
  split; [change (0 < 2); lra|]. split; [exact Hstep|]. split; [|split; [|split]].
  - change (off_faces box (p_coordinate q3)). assert (Ex3 : p_coordinate q3 = p_coordinate p1) by (rewrite <- Hx2; apply Sq3). rewrite Ex3, Hx.
    eapply (deep_off_faces box (0, 0, 0)%N (5 / 2 - 1)); [exact box_sized|lra|]. apply deep_along; [exact Hu|lra|]. apply late_deep.
  - unfold prepare_particle. rewrite Tq. cbn [fle f0 Rops]. rewrite (proj2 (Rleb_iff 0 0)) by lra.
    change (p_kinetic_energy (set_age (set_time_to_census q (fadd (f := Rops) 0 (td_dt late_td))) _)) with (p_kinetic_energy q). cbv zeta. rewrite Egq. reflexivity.
  - unfold age_at_census. change (p_age (set_energy_group q3 gr)) with (p_age q3). change (p_time_to_census (set_energy_group q3 gr)) with (p_time_to_census q3).
    unfold clock in C1, C3. assert (X1 : p_time_to_census q3 = p_time_to_census q) by congruence. assert (X2 : p_age q3 = p_age q) by congruence. rewrite X1, X2, Tq, Aq, Ap.
    apply Rplus_0_r.
  - unfold age_at_census. cbn [p_age p_time_to_census set_energy_group set_age set_time_to_census fmax fadd f0 Rops].
    rewrite Aq. change (F Rops) with R in * . rewrite Rmax_left by exact A0. rewrite Ap. apply (f_equal (Rplus _)). apply Rplus_0_l.
Qed.
