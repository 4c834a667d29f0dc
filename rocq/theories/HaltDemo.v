(** A fission within a cycle, and a particle that only flies to the end of it (C67). *)
From Coq Require Import NArith ZArith QArith Qreals List Bool String Reals Lra Lia Psatz Permutation.
From Flocq Require Import Core.Raux.
From Verif Require Import Float RealOps RngModel ParticleModel NuclearModel MeshTypes Balance TrackModel CycleModel GridModel MeshModel GridSpec GridLemmas
  MeshFacts MeshSpec MeshTheorems WellBuilt TrackSpec TrackAccount CycleSpec PopSpec PopDemo SegmentSpec NearestLemmas FacetLemmas SegmentFacts SegmentDefined SegmentDemo CrossingLemmas
  NuclearSpec OutcomeLemmas GeomSpec GeomLemmas PlaneLemmas SourcePoint GeomDemo StaySpec StayLemmas StaySteps StayRun StayDemo QuietRun QuietSteps QuietTrack SpeedSpec SpeedFacts LifeSpec LifeRun LifeDemo
  ScheduleSpec ScheduleLemmas ScheduleFacts RangeSpec WeightDemo HaltSpec HaltRng HaltGap HaltSteps HaltWays HaltLine HaltEnds HaltRounds.
Import ListNotations.
Local Open Scope R_scope.
Local Opaque rng_next spawn_rn_seed huge tiny.

(** The particle [late] of LifeDemo.v with twice the time. *)
Definition soon (i0 : nat) : particle Rops := set_time_to_census (late i0) (2 / get_speed (late i0) : R).

Lemma soon_speed i0 : 0 < get_speed (soon i0) /\ get_speed (soon i0) * p_time_to_census (soon i0) = 2.
Proof.
  destruct (late_speed i0) as (H & _). change (get_speed (soon i0)) with (get_speed (late i0)). split; [exact H|].
  change (get_speed (late i0) * (2 / get_speed (late i0)) = 2). field. apply Rgt_not_eq. exact H.
Qed.
Lemma flying_timed pt (p : particle Rops) (t : R) : 0 <= t -> flying box pt p -> flying box pt (set_time_to_census p t).
Proof. intros Ht (A & B & C & D). split; [exact A|]. split; [exact B|]. split; [exact Ht|exact D]. Qed.
Lemma soon_flying pt i0 : local_to_global pt i0 0 -> flying box pt (soon i0).
Proof.
  intros L. apply flying_timed; [|exact (late_flying pt i0 L)]. destruct (late_speed i0) as (H & _). apply Rmult_le_pos; [lra|]. apply Rlt_le, Rinv_0_lt_compat. exact H.
Qed.

(** The cross-section is that of one particle per unit of length everywhere. *)
Lemma late_xs pt dom : built_domain box "octant" pt box_geoms box_mats dom -> forall cell group xs, cell_cross_section late_td dom cell group = Ok xs -> xs = 1 /\ (group < 3)%N.
Proof.
  intros D cell group xs H. pose proof (built_domain_parts _ _ _ _ _ _ D) as (_ & _ & Lc & Hm). unfold cell_cross_section in H. rb H as cs Ecs.
  apply vec_get_nth in Ecs. destruct (cell_facts _ _ _ _ _ _ D box_sized _ cs Ecs) as (cc & _ & _ & _ & _ & _ & Nd).
  assert (Mt : cs_material cs = 0%N). { rewrite Forall_forall in Hm. specialize (Hm cs (nth_error_In _ _ Ecs)). change (N.of_nat (List.length box_mats)) with 1%N in Hm. lia. }
  rewrite Mt, Nd in H. unfold weighted_macroscopic_cross_section in H. change (vec_get (td_mats late_td) 0) with (Ok (mkMaterial (K := Rops) "fuel" (12 : R) [mkIsotope (K := Rops) 0 (1 : R)])) in H.
  cbn [rbind mat_iso rmap] in H. rb H as ys Ey. rb Ey as y E1. apply Ok_inj in Ey. subst ys. unfold macroscopic_total_cross_section in E1. cbn [iso_atom_fraction iso_gid feq f0 Rops] in E1.
  rewrite (proj2 (Reqb_false 1 0)) in E1 by lra. cbn [orb] in E1. rb E1 as z Ez. apply Ok_inj in E1. subst y. unfold get_total_cross_section in Ez. change (vec_get (nd_isotopes (td_nuclear late_td)) 0) with (Ok [late_reaction]) in Ez.
  cbn [rbind rmap] in Ez. rb Ez as zs Ezs. rb Ezs as z1 E1. apply Ok_inj in Ezs. subst zs. apply Ok_inj in Ez. subst z. unfold vec_get in E1. cbn [r_cross_section late_reaction] in E1.
  assert (Hg : (group < 3)%N /\ z1 = 1).
  { destruct (N.to_nat group) as [|[|[|[|k]]]] eqn:Eg; cbn [nth_error unwrap] in E1; try discriminate E1; apply Ok_inj in E1; (split; [lia|symmetry; exact E1]). }
  destruct Hg as (Hg & ->). split; [|exact Hg]. apply Ok_inj in H. rewrite <- H. cbn. lra.
Qed.
Lemma late_no_denser pt dom : built_domain box "octant" pt box_geoms box_mats dom -> no_denser late_td dom 1.
Proof. intros D c g xs H. destruct (late_xs _ _ D _ _ _ H) as (-> & _). lra. Qed.
Lemma late_answered pt dom : built_domain box "octant" pt box_geoms box_mats dom -> answered late_td dom.
Proof.
  intros D. pose proof (built_domain_parts _ _ _ _ _ _ D) as (_ & _ & Lc & Hm). constructor; [cbn; lia|]. intros cell cs group xs Ecs H. destruct (late_xs _ _ D _ _ _ H) as (-> & Hg).
  apply vec_get_nth in Ecs. destruct (cell_facts _ _ _ _ _ _ D box_sized _ cs Ecs) as (cc & _ & _ & _ & _ & _ & Nd).
  assert (Mt : cs_material cs = 0%N). { rewrite Forall_forall in Hm. specialize (Hm cs (nth_error_In _ _ Ecs)). change (N.of_nat (List.length box_mats)) with 1%N in Hm. lia. }
  split; [lra|]. split; [rewrite Nd; lra|]. exists (mkMaterial (K := Rops) "fuel" (12 : R) [mkIsotope (K := Rops) 0 (1 : R)]). rewrite Mt. split; [reflexivity|]. split.
  - constructor; [|constructor]. split; [cbn [iso_atom_fraction]; lra|]. exists [late_reaction]. split; [reflexivity|]. constructor; [|constructor]. cbn [r_cross_section late_reaction List.length]. lia.
  - constructor; [|constructor]. rewrite Nd. unfold sigma. cbn [fst snd iso_atom_fraction r_cross_section late_reaction].
    destruct (N.to_nat group) as [|[|[|k]]]; cbn [nth]; try (change (0 <= 1 * 1 * 1); lra). change (0 <= 1 * 1 * nth k [] 0). destruct k; cbn [nth]; lra.
Qed.
Lemma late_heavy : heavy late_td.
Proof. constructor; [cbn [mat_mass]; lra|constructor]. Qed.
Lemma late_cross i0 pt dom : built_domain box "octant" pt box_geoms box_mats dom -> (i0 < List.length (d_cells dom))%nat -> forall group, (group < 3)%N ->
  cell_cross_section late_td dom (N.of_nat i0) group = Ok (1 : R).
Proof.
  intros D Hi group Hg. assert (E : exists xs, cell_cross_section late_td dom (N.of_nat i0) group = Ok xs).
  { pose proof (built_domain_parts _ _ _ _ _ _ D) as (_ & _ & Lc & Hm). unfold cell_cross_section. destruct (nth_error (d_cells dom) i0) as [cs|] eqn:Ecs; [|apply nth_error_None in Ecs; lia].
    unfold vec_get at 1. rewrite Nat2N.id, Ecs. cbn [unwrap rbind]. destruct (cell_facts _ _ _ _ _ _ D box_sized _ cs Ecs) as (cc & _ & _ & _ & _ & _ & Nd).
    assert (Mt : cs_material cs = 0%N). { rewrite Forall_forall in Hm. specialize (Hm cs (nth_error_In _ _ Ecs)). change (N.of_nat (List.length box_mats)) with 1%N in Hm. lia. }
    rewrite Mt, Nd. unfold weighted_macroscopic_cross_section. change (vec_get (td_mats late_td) 0) with (Ok (mkMaterial (K := Rops) "fuel" (12 : R) [mkIsotope (K := Rops) 0 (1 : R)])).
    cbn [rbind mat_iso rmap]. unfold macroscopic_total_cross_section. cbn [iso_atom_fraction iso_gid feq f0 Rops]. rewrite (proj2 (Reqb_false 1 0)) by lra. cbn [orb].
    unfold get_total_cross_section. change (vec_get (nd_isotopes (td_nuclear late_td)) 0) with (Ok [late_reaction]). cbn [rbind rmap]. unfold vec_get. cbn [r_cross_section late_reaction].
    destruct (N.to_nat group) as [|[|[|k]]] eqn:Eg; [| | |exfalso; lia]; cbn [nth_error unwrap rbind]; eexists; reflexivity. }
  destruct E as (xs & E). rewrite E. f_equal. exact (proj1 (late_xs _ _ D _ _ _ E)).
Qed.

Theorem soon_fission : exists pt dom p r n p' q nx q', built_domain box "octant" pt box_geoms box_mats dom /\
  flying box pt p /\ 0 < p_kinetic_energy p /\ seg_step late_td dom p (SegCollision r n) true p' (q :: nx) /\ regular box (Flew p (SegCollision r n) p') /\
  cell_cross_section late_td dom (p_cell p) (p_energy_group p) = Ok (p_total_cross_section p') /\ prepare_particle late_td q = Ok q'.
Proof.
  destruct box_first as (pt & dom & i0 & D & B & L0). pose proof (soon_flying pt i0 L0) as Hfl. destruct (soon_speed i0) as (Hv & Hvt).
  set (p := soon i0) in * . pose proof Hfl as ((c0 & L & Hin & Hst) & Hu & Hot).
  destruct (built_complete _ _ _ _ B) as (Cg & Ln). pose proof (built_domain_parts _ _ _ _ _ _ D) as (_ & _ & Lc & Hm).
  assert (Hi : (i0 < List.length (me_conn (d_mesh dom)))%nat).
  { destruct (built_mesh_is _ _ _ _ B) as (cs & boundary & Pc & Nc & _). pose proof L0 as L1. unfold local_to_global in L1. rewrite (cells_keys _ _ Nc) in L1.
    rewrite Ln. apply Permutation.Permutation_length in Pc. assert (El : List.length cs = N.to_nat (total_cells (g_dims box))) by (rewrite Pc; apply FloodLemmas.nrange_length). rewrite <- El.
    apply nth_error_Some. intros C. pose proof (eq_trans (eq_sym L1) C) as X. discriminate X. }
  destruct (on_time_enters _ Hot) as (E1 & E2).
  destruct (outcome_defined dom p (get_speed p) false 1 Cg) as (o & p1 & Ho); [change (p_cell p) with (N.of_nat i0); lia|lra|lra|exact Hot|].
  destruct (outcome_first _ _ _ _ _ _ Ho) as (k & ds & i & df & Pn & Hds & Hfc & Hev & _ & Hx).
  assert (Ec0 : c0 = 0%N). { change (p_cell p) with (N.of_nat i0) in L. rewrite Nat2N.id in L. unfold local_to_global in L, L0. pose proof (eq_trans (eq_sym L) L0) as E. congruence. }
  subst c0. rewrite start_tuple in Hin, Hst.
  destruct (nearest_exit box "octant" pt (d_mesh dom) i0 0 B box_sized box_fits L0 p ds i df eq_refl) as (_ & Hdf & Hlv); [exact Hin|exact Hst|exact Hu|exact Hds|exact Hfc|].
  assert (Hdf' : 5 / 2 <= df).
  { destruct Hlv as (Hf & _ & Hz & _). rewrite beyond_along in Hz. pose proof (late_deep i0 _ Hf) as Hb. change (p_coordinate (late i0)) with (p_coordinate p) in Hb. rewrite start_tuple in Hz. pose proof (dot_outward (p_direction p) _ Hu Hf) as Hdo.
    set (e1 := beyond _ _ _ _) in * . set (e2 := dot _ _) in * . clearbody e1 e2. nra. }
  assert (Ek : k = 1). { destruct Pn as [(_ & ->)|(E0 & _)]; [reflexivity|]. exfalso. change (1 = 0) in E0. lra. }
  subst k. assert (Em : mean_path 1 = 1) by (unfold mean_path; destruct (Req_EM_T 1 0); [exfalso; lra|lra]). rewrite Em, Rmult_1_r in Hev.
  pose proof huge_large as Hh. rewrite (Rmin_right huge 1) in Hev by lra. rewrite Hvt in Hev.
  assert (Eo : o = OutCollision /\ p_segment_path_length p1 = 1) by (destruct o; cbn [first_event] in Hev; [split; [reflexivity|apply Hev]|exfalso; lra|exfalso; lra]).
  destruct Eo as (-> & Ed). specialize (Hx (proj2 Hdf) ltac:(change (0 <= 10000000); lra)). rewrite Ed in Hx.
  pose proof (outcome_clock _ _ _ _ _ _ Ho (speed_nonneg p) Hot) as (_ & _ & _ & _ & Ha & _ & Ae). specialize (Ha Hv).
  (* the time that is left *)
  assert (T0 : 0 < p_time_to_census p1).
  { destruct (outcome_parts _ _ _ _ _ _ _ Ho) as (i' & df' & pp & d & Enf & _ & _ & Eq).
    destruct (nearest_facet_first _ _ _ _ Enf) as ((x1 & Hp1) & _).
    destruct (end_clock pp (get_speed p) d OutCollision i') as (X1 & _ & X3 & _). cbv zeta in * . rewrite <- Eq in * .
    rewrite Ed in X3. rewrite X1, <- X3. destruct (prepared_paths p 1) as (_ & _ & Pt & _).
    rewrite (proj2 (Reqb_false 1 0)) by lra. replace (p_time_to_census pp) with (p_time_to_census p : R) by (rewrite Hp1; symmetry; exact Pt).
    apply Rlt_le_trans with (2 := Rmax_l _ _). change (0 < 2 / get_speed p - 1 / get_speed p). assert (0 < / get_speed p) by (apply Rinv_0_lt_compat; exact Hv). unfold Rdiv. lra. }
  destruct (outcome_after_place _ _ _ _ _ _ _ Ho) as (Pc & Pg).
  assert (Xs : p_total_cross_section p1 = 1).
  { destruct (outcome_parts _ _ _ _ _ _ _ Ho) as (i' & df' & pp & d & Enf & _ & _ & Eq). destruct (nearest_facet_first _ _ _ _ Enf) as ((x1 & Hp1) & _).
    rewrite Eq. unfold segment_end. cbv zeta. transitivity (p_total_cross_section pp); [destruct (feq d f0); reflexivity|]. rewrite Hp1.
    unfold prepared_for. cbv zeta. match goal with |- context [if feq ?a ?b then sample_num_mfp _ else _] => destruct (feq a b) end; reflexivity. }
  (* the cell *)
  destruct (nth_error (d_cells dom) i0) as [cs|] eqn:Ecs; [|exfalso; apply nth_error_None in Ecs; rewrite Lc in Ecs; lia].
  assert (Ev : vec_get (d_cells dom) (p_cell p1) = Ok cs) by (apply vec_get_nth; rewrite Pc; change (p_cell p) with (N.of_nat i0); rewrite Nat2N.id; exact Ecs).
  destruct (cell_facts _ _ _ _ _ _ D box_sized i0 cs Ecs) as (cc & _ & _ & _ & _ & _ & Nd).
  assert (Mt : cs_material cs = 0%N). { rewrite Forall_forall in Hm. specialize (Hm cs (nth_error_In _ _ Ecs)). change (N.of_nat (List.length box_mats)) with 1%N in Hm. lia. }
  (* the partner *)
  set (p1' := set_num_segments p1 (fadd (p_num_segments p1) f1)). destruct (get_current_xs p1') as [cur p2] eqn:Ecur.
  assert (Hcur : 0 <= cur <= 1 /\ p_time_to_census p2 = p_time_to_census p1 /\ p_energy_group p2 = p_energy_group p1 /\ p_coordinate p2 = p_coordinate p1).
  { unfold get_current_xs in Ecur. rewrite draw_next in Ecur. apply pair_equal_spec in Ecur. destruct Ecur as (<- & <-).
    pose proof (draw_unit p1') as Du. change (p_total_cross_section p1') with (p_total_cross_section p1). rewrite Xs. cbn [fmul Rops]. split; [|repeat split].
    set (w := next_draw p1') in * . clearbody w. change (F Rops) with R in * . lra. }
  destruct Hcur as (Hcur & Ht2 & Hg2 & Hx2).
  assert (Hpick : pick_loop 2 late_td (cs_material cs) (cs_number_density cs) (p_energy_group p2) cur = Ok late_reaction).
  { rewrite Mt, Nd. apply late_pick; [|exact Hcur]. rewrite Hg2, Pg. reflexivity. }
  (* the fission *)
  pose proof (draw_unit p2) as Du. destruct (fission_real p2 late_reaction (12 : R) eq_refl) as (_ & Hf & _); [cbn; lra|]. cbv zeta in Hf.
  set (x := r_nu_bar late_reaction + next_draw p2) in * . assert (Hx' : 2 <= x <= 3) by (unfold x; change (r_nu_bar late_reaction) with 2; lra).
  destruct Hf as (q3 & sec & Hcol & Hlen & Hall); [lra|].
  assert (Hfl2 : (2 <= Zfloor x)%Z) by (apply Zfloor_lub; apply Hx').
  destruct sec as [|q nx]; [exfalso; cbn [List.length] in Hlen; lia|].
  destruct (Forall_inv Hall) as (Sq3 & Eq3). destruct (Forall_inv (Forall_inv_tail Hall)) as (Sq & Eq).
  destruct (late_group (p_kinetic_energy q3)) as (gr & Egr); [change (F Rops) with R in * ; lra|].
  destruct (late_group (p_kinetic_energy q)) as (gq & Egq); [change (F Rops) with R in * ; lra|].
  destruct (collision_clock _ _ _ _ _ _ Hcol) as (C1 & C2). pose proof (Forall_inv C2) as C3. cbv beta in C3.
  assert (Hn : (1 <=? Z.to_N (Zfloor x))%N = true) by (apply N.leb_le; lia).
  pose proof (ss_collision late_td dom p 1 p1 cs cur p2 2 late_reaction (mkMaterial (K := Rops) "fuel" (12 : R) [mkIsotope (K := Rops) 0 (1 : R)]) (Z.to_N (Zfloor x)) q3 (q :: nx) gr
    (set_energy_group q3 gr)) as Hstep. rewrite E1, E2 in Hstep.
  specialize (Hstep Ho Ev Ecur Hpick ltac:(rewrite Mt; reflexivity) Hcol Egr). cbv zeta in Hstep. rewrite Hn in Hstep. specialize (Hstep eq_refl).
  exists pt, dom, p, Fission, (Z.to_N (Zfloor x)), (set_energy_group q3 gr), q, nx.
  assert (Tq : p_time_to_census q3 = p_time_to_census p1) by (unfold clock in C1; rewrite <- Ht2; congruence).
  eexists. split; [exact D|]. split; [exact Hfl|]. split; [change (0 < 2); lra|]. split; [exact Hstep|]. split; [split|split].
  - change (off_faces box (p_coordinate q3)). assert (Ex3 : p_coordinate q3 = p_coordinate p1) by (rewrite <- Hx2; apply Sq3). rewrite Ex3, Hx.
    eapply (deep_off_faces box (0, 0, 0)%N (5 / 2 - 1)); [exact box_sized|lra|]. apply deep_along; [exact Hu|lra|]. apply late_deep.
  - unfold in_time. change (0 < p_time_to_census q3). rewrite Tq. exact T0.
  - change (p_cell p) with (N.of_nat i0). rewrite (late_cross i0 pt dom D); [|rewrite Lc; exact Hi|reflexivity]. f_equal. cbn [p_total_cross_section set_energy_group].
    rewrite (collision_xs _ _ _ _ _ _ Hcol). unfold get_current_xs in Ecur. rewrite draw_next in Ecur. apply (f_equal snd) in Ecur. cbn [snd] in Ecur. rewrite <- Ecur. change (@Ok R 1 = @Ok R (p_total_cross_section p1)). rewrite Xs. reflexivity.
  - unfold prepare_particle. cbv zeta. match goal with |- context [get_energy_groups _ ?e] => replace e with (p_kinetic_energy q) by (destruct (fle _ _); reflexivity) end. rewrite Egq. reflexivity.
Qed.

(** ** A particle that flies to the end of the cycle *)

Definition brief (i0 : nat) : particle Rops := set_time_to_census (late i0) (1 / (2 * light_speed (K := Rops)) : R).
Lemma brief_time i0 : 0 < p_time_to_census (brief i0) /\ light_speed (K := Rops) * p_time_to_census (brief i0) = 1 / 2.
Proof.
  assert (H : 0 < light_speed (K := Rops)) by (rewrite light_R; lra). change (p_time_to_census (brief i0)) with (1 / (2 * light_speed (K := Rops))). split.
  - apply Rmult_lt_0_compat; [lra|]. apply Rinv_0_lt_compat. lra.
  - set (l := light_speed (K := Rops) : R) in * . clearbody l. change (F Rops) with R in * . field. lra.
Qed.

Lemma brief_lines pt dom i0 p' : built_domain box "octant" pt box_geoms box_mats dom -> local_to_global pt i0 0 -> prepare_particle late_td (brief i0) = Ok p' ->
  flying box pt p' /\ 0 < p_kinetic_energy p' /\ p_time_to_census p' = p_time_to_census (brief i0) /\ forall hs q, line late_td dom p' hs q -> hs = [].
Proof.
  intros D L Hp. destruct (brief_time i0) as (T0 & T1). unfold prepare_particle in Hp. cbv zeta in Hp.
  assert (E : fle (p_time_to_census (brief i0)) f0 = false) by (apply Rleb_false; exact T0). rewrite E in Hp. rb Hp as gr Eg. apply Ok_inj in Hp.
  assert (Fl : flying box pt p').
  { rewrite <- Hp. pose proof (flying_timed pt _ (p_time_to_census (brief i0)) (Rlt_le _ _ T0) (late_flying pt i0 L)) as Fl. exact Fl. }
  assert (He : 0 < p_kinetic_energy p') by (rewrite <- Hp; change (0 < 2); lra).
  assert (Et : p_time_to_census p' = p_time_to_census (brief i0)) by (rewrite <- Hp; reflexivity).
  assert (Ex : p_coordinate p' = p_coordinate (late i0)) by (rewrite <- Hp; reflexivity).
  assert (En : p_num_mean_free_paths p' = (1 : R)) by (rewrite <- Hp; reflexivity).
  assert (Ec : p_cell p' = N.of_nat i0) by (rewrite <- Hp; reflexivity).
  clear Hp Eg E. split; [exact Fl|]. split; [exact He|]. split; [exact Et|]. intros hs q H.
  assert (B : built box "octant" pt (d_mesh dom)) by exact (domain_mesh _ _ _ _ _ _ D).
  assert (No : forall e keep p1 nx, seg_step late_td dom p' e keep p1 nx -> cell_cross_section late_td dom (p_cell p') (p_energy_group p') = Ok (p_total_cross_section p1) -> keep = false /\ nx = []).
  { intros e keep p1 nx St Hx. pose proof (step_flew box "octant" pt dom B box_sized box_fits _ _ _ _ _ _ St Fl He) as Fw. destruct (flew_within _ _ He (Forall_inv Fw)) as (W1 & W2).
    destruct (seg_clock _ _ _ _ _ _ _ St (proj2 (proj2 Fl))) as (Cl & _). destruct (Forall_inv Cl) as ((T2 & _) & _).
    destruct (Forall_inv (seg_clock_exact _ _ _ _ _ _ _ St (proj2 (proj2 Fl)) late_heavy He)) as (Ea & _). unfold age_at_census in Ea.
    assert (Lf : flight (Flew p' e p1) <= 1 / 2).
    { cbn [flight]. eapply Rle_trans; [exact W2|]. rewrite <- T1. apply Rmult_le_compat_l; [rewrite light_R; lra|]. rewrite <- Et. change (F Rops) with R in * . lra. }
    assert (L' : local_to_global pt (N.to_nat (p_cell p')) 0) by (rewrite Ec, Nat2N.id; exact L).
    pose proof (step_optics box "octant" pt dom B box_sized box_fits _ _ _ _ _ _ 1 St Fl (late_no_denser _ _ D _ _ _ Hx) (Rle_refl 1)) as Op. cbv zeta in Op.
    destruct (step_way box "octant" pt dom B box_sized box_fits _ _ _ _ _ _ _ St Fl L') as (_ & Wy).
    destruct e as [k n|fe|]; [| |destruct Op; auto].
    - exfalso. destruct Op as (Op & _). specialize (Op 1). assert (1 <= 1 * flight (Flew p' (SegCollision k n) p1)); [|lra]. apply Op. unfold paths_left. rewrite En. first [left; split; [lra|reflexivity] | right; split; [lra|reflexivity]| idtac].
    - split; [|apply Op]. destruct keep; [|reflexivity]. exfalso. destruct (Wy eq_refl) as (f & c' & Hf & _ & G). specialize (G (face_axis f)). cbv zeta in G.
      assert (Hg : 5 / 2 <= gap box (cell_idx_to_tuple (g_dims box) 0) (face_axis f) (p_coordinate p') (p_direction p')).
      { rewrite start_tuple, Ex. unfold gap. pose proof (late_deep i0 (up_face (face_axis f))) as D1. pose proof (late_deep i0 (down_face (face_axis f))) as D2.
        assert (U : (up_face (face_axis f) < 6)%nat /\ (down_face (face_axis f) < 6)%nat) by (destruct (face_axis f); cbn; lia). specialize (D1 (proj1 U)). specialize (D2 (proj2 U)).
        destruct (Rlt_dec _ _); change (F Rops) with R in * ; lra. }
      destruct (face_axis f); destruct G as (G & _); lra. }
  inversion H as [|? e p1 nx hs' ? St Hx Hl|? e keep p1 nx c c' hs' ? St Hx Hin Hpc Hl]; subst; [reflexivity| |].
  - destruct (No _ _ _ _ St Hx) as (C & _). discriminate C.
  - destruct (No _ _ _ _ St Hx) as (_ & C). rewrite C in Hin. contradiction Hin.
Qed.

(** The problem with this material. *)
Definition late_md : mcdata Rops :=
  mkMcData (K := Rops) (mkSimParams (K := Rops) 240 3 1 (1 : R) (20 : R) (0 : R) true true true) (mkExecInfo Rayon 4 0 1) late_td [("fuel"%string, tiny_mat)].
Lemma late_bounded : safe_energies (K := Rops) late_md (fun e : R => 0 <= e <= 20).
Proof.
  constructor; cbn [mc_params late_md sp_e_min sp_e_max mc_track td_mats late_td fmul fadd fsub fdiv f1 flit Rops flt].
  - intros x Hx. pose proof (sample_unit x Hx) as U. set (r := fsample (f := Rops) x) in * . clearbody r. change (F Rops) with R in * . nra.
  - intros e x mat He Hx [<-|[]]. pose proof (sample_unit x Hx) as U. cbn [mat_mass]. set (r := fsample (f := Rops) x) in * . clearbody r. change (F Rops) with R in * .
    assert (0 <= r * (1 / 12) <= 1) by lra. nra.
  - intros x Hx. pose proof (sample_unit x Hx) as U. set (r := fsample (f := Rops) x) in * . clearbody r. change (F Rops) with R in * .
    replace (Q2R (20 # 1)) with 20 by (unfold Q2R; cbn; lra). unfold ftwo. cbn [flit Rops]. replace (Q2R (2 # 1)) with 2 by (unfold Q2R; cbn; lra).
    assert (0 <= (r + 1) / 2 <= 1) by lra. set (q := (r + 1) / 2) in * . clearbody q. nra.
  - intros e el He Hl. unfold last_energy, energies in Hl. cbn in Hl. injection Hl as <-. apply Rltb_false. tauto.
Qed.
Lemma late_run : run_ok late_md.
Proof. intros _ _. cbn. discriminate. Qed.

(** The container with this one particle, at the start of the rounds of tracking. *)
Definition brief_unit (dom : domain Rops) : unit_state Rops := mkUnit (K := Rops) dom balance_zero (mkMem (K := Rops) (repeat f0 72) (repeat f0 72)) (0 : R).
Definition brief_cont (i0 : nat) : container Rops := mkContainer (K := Rops) [brief i0] [] [].
Lemma brief_rested pt dom i0 : built_domain box "octant" pt box_geoms box_mats dom -> (i0 < 24)%nat -> List.length (d_cells dom) = 24%nat ->
  rested (fun e : R => 0 <= e <= 20) late_md (brief_unit dom) (brief_cont i0).
Proof.
  intros D Hi Ln. constructor.
  - destruct (quiet_sound _ _ D) as [S1 S2 S3]. constructor; [reflexivity|reflexivity|exact S3].
  - constructor; [|constructor]. split; [change (N.of_nat i0 < n_cells dom)%N; unfold n_cells; rewrite Ln; lia|]. change (0 <= 2 <= 20). lra.
  - assert (E : (72 = n_cells dom * 3)%N) by (unfold n_cells; rewrite Ln; reflexivity). constructor.
    + exact E.
    + exact E.
    + intros c g v Hr Hv. left. cbn [u_mem brief_unit m_cache] in Hv. apply nth_error_In, repeat_spec in Hv. exact Hv.
  - reflexivity.
Qed.

Lemma whole_above (x : R) : exists n, x < INR n.
Proof.
  exists (Z.to_nat (Rdefinitions.up x)). destruct (archimed x) as (H & _). apply Rlt_le_trans with (1 := H). destruct (Z_le_gt_dec 0 (Rdefinitions.up x)) as [P|P].
  - rewrite INR_IZR_INZ, Z2Nat.id by exact P. apply Rle_refl.
  - apply Rle_trans with 0; [apply IZR_le; lia|apply pos_INR].
Qed.
