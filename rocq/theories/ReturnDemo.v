(** A run of four threads that returns (C68): the problem of QuietRun.v with the fissile material of LifeDemo.v. *)
From Coq Require Import NArith ZArith QArith Qreals List Bool String Reals Lra Lia Psatz Permutation.
From Flocq Require Import Core.Raux.
From Verif Require Import Float RealOps RngModel ParticleModel NuclearModel MeshTypes Balance TrackModel CycleModel GridModel MeshModel GridSpec GridLemmas
  MeshFacts MeshSpec MeshTheorems WellBuilt TrackSpec TrackAccount CycleSpec PopSpec PopLemmas SourceCount PopDemo SegmentSpec SegmentFacts CrossingLemmas
  NuclearSpec GeomSpec GeomLemmas PlaneLemmas SourceLemmas SourcePoint GeomDemo StaySpec StayLemmas StaySteps StayRun StayDemo QuietRun QuietSteps QuietTrack SpeedSpec SpeedFacts LifeSpec LifeRun LifeDemo
  ScheduleSpec ScheduleLemmas ScheduleFacts RangeSpec RunAgree SafeSpec SafeRun SafeReal WeightDemo HaltSpec HaltRng HaltGap HaltSteps HaltWays HaltLine HaltEnds HaltRounds HaltDemo
  ReturnSpec ReturnRounds ReturnRun.
Import ListNotations.
Local Open Scope R_scope.
Local Opaque rng_next spawn_rn_seed huge tiny.

Definition short_td : track_data Rops := mkTrackData (K := Rops) quiet_dt (td_nuclear late_td) (td_mats late_td).
Definition short_md : mcdata Rops := mkMcData (K := Rops) (mc_params quiet_md) (mkExecInfo Rayon 4 0 1) short_td (mc_material_params quiet_md).
Definition usual (e : R) : Prop := 0 < e <= 20.

Lemma short_bounded : safe_energies (K := Rops) short_md usual.
Proof.
  constructor; unfold usual; cbn [mc_params short_md quiet_md sp_e_min sp_e_max mc_track short_td td_mats late_td fmul fadd fsub fdiv f1 flit Rops flt].
  - intros x Hx. pose proof (sample_unit x Hx) as U. set (r := fsample (f := Rops) x) in * . clearbody r. change (F Rops) with R in * . nra.
  - intros e x mat He Hx [<-|[]]. pose proof (sample_unit x Hx) as U. cbn [mat_mass]. set (r := fsample (f := Rops) x) in * . clearbody r. change (F Rops) with R in * .
    assert (0 <= r * (1 / 12) <= 1 / 12) by lra. nra.
  - intros x Hx. pose proof (sample_unit x Hx) as U. set (r := fsample (f := Rops) x) in * . clearbody r. change (F Rops) with R in * .
    replace (Q2R (20 # 1)) with 20 by (unfold Q2R; cbn; lra). unfold ftwo. cbn [flit Rops]. replace (Q2R (2 # 1)) with 2 by (unfold Q2R; cbn; lra).
    assert (1 / 2 <= (r + 1) / 2 <= 1) by lra. set (q := (r + 1) / 2) in * . clearbody q. nra.
  - intros e el He Hl. unfold last_energy, energies in Hl. cbn in Hl. injection Hl as <-. apply Rltb_false. tauto.
Qed.
Lemma short_heavy : heavy short_td.
Proof. constructor; [cbn [mat_mass]; lra|constructor]. Qed.
Lemma short_run : run_ok short_md.
Proof. intros _ _. cbn. discriminate. Qed.
Lemma short_policy : loop_policy short_md.
Proof. right. reflexivity. Qed.

Section Short.
Variables (pt : partition) (dom : domain Rops).
Hypothesis D : built_domain box "octant" pt box_geoms box_mats dom.

Lemma short_denser : no_denser short_td dom 1.
Proof. exact (late_no_denser pt dom D). Qed.
Lemma short_answered : answered short_td dom.
Proof. destruct (late_answered pt dom D) as [A1 A2]. constructor; [exact A1|exact A2]. Qed.

Lemma short_cell cs : In cs (d_cells dom) -> cs_material cs = 0%N /\ cs_volume cs = 250 /\ cs_number_density cs = 1.
Proof.
  intros Hin. destruct (built_domain_parts _ _ _ _ _ _ D) as (_ & _ & _ & Hm). rewrite Forall_forall in Hm. specialize (Hm cs Hin). change (N.of_nat (List.length box_mats)) with 1%N in Hm.
  apply In_nth_error in Hin. destruct Hin as (i & Hi). destruct (cell_facts _ _ _ _ _ _ D box_sized i cs Hi) as (c & _ & _ & _ & Ev & _ & Nd).
  split; [lia|]. split; [rewrite Ev, box_x, box_y, box_z; lra|exact Nd].
Qed.
Lemma short_emits : Forall2 (emits short_md) (d_cells dom) (repeat (250 * quiet_dt) 24).
Proof.
  destruct (built_domain_parts _ _ _ _ _ _ D) as (B & _ & Lc & _). destruct (built_complete _ _ _ _ B) as (_ & Ln). change (N.to_nat (total_cells (g_dims box))) with 24%nat in Ln.
  rewrite <- Ln, <- Lc. assert (G : forall l, (forall cs, In cs l -> emits short_md cs (250 * quiet_dt : R)) -> Forall2 (emits short_md) l (repeat (250 * quiet_dt) (List.length l))).
  { induction l as [|cs l IH]; intros H; cbn [List.length repeat]; constructor; [apply H; left; reflexivity|apply IH; intros x Hx; apply H; right; exact Hx]. }
  apply G. intros cs Hin. destruct (short_cell cs Hin) as (E0 & Ev & _).
  exists (mkMaterial (K := Rops) "fuel" (12 : R) [mkIsotope (K := Rops) 0 (1 : R)]), tiny_mat. split; [rewrite E0; reflexivity|]. split; [reflexivity|]. rewrite Ev.
  change (@eq R (250 * quiet_dt) (250 * 1 * quiet_dt)). ring.
Qed.

Lemma short_indexed : sound_problem short_md dom /\ indexed short_md dom.
Proof.
  destruct (built_domain_parts _ _ _ _ _ _ D) as (B & _ & Lc & Hm). destruct (built_complete _ _ _ _ B) as (C & _).
  assert (Hfa : forall conn fa, In conn (me_conn (d_mesh dom)) -> In fa (cc_facet conn) -> crossable dom fa).
  { intros conn fa Hc Hf. apply In_nth_error in Hc. destruct Hc as (i & Ei). apply In_nth_error in Hf. destruct Hf as (k & Ek).
    destruct (facets_exist _ _ _ _ B) as (_ & Hl & _). destruct (Hl i) as (c & Li); [apply nth_error_Some; congruence|].
    assert (Fa : facet_at (d_mesh dom) i k fa) by (exists conn; auto).
    pose proof (boundary_events _ _ _ _ _ _ _ _ B Li Fa) as Ev. destruct (adjacency_back _ _ _ _ _ _ _ _ B Li Fa) as (j & k' & fa' & Ea & (cc' & Ej & _) & _).
    unfold crossable. destruct (on_boundary _ _ _).
    - unfold requested in Ev. change (String.eqb "octant" "reflect") with false in Ev. change (String.eqb "octant" "escape") with false in Ev. change (String.eqb "octant" "octant") with true in Ev.
      cbv iota in Ev. injection Ev as <-. destruct (face_up _); exact I.
    - rewrite Ev. exists 0%N, (N.of_nat j), (N.of_nat k'). split; [exact Ea|]. unfold n_cells.
      assert (j < List.length (me_conn (d_mesh dom)))%nat by (apply nth_error_Some; congruence). lia. }
  split.
  - destruct (quiet_sound _ _ D) as [S1 S2 S3]. constructor; [reflexivity|reflexivity|exact S3].
  - constructor.
    + exact C.
    + exact Lc.
    + intros cs Hcs. rewrite (proj1 (short_cell cs Hcs)). reflexivity.
    + intros mat iso [<-|[]] [<-|[]]. reflexivity.
    + intros rs r [<-|[]] [<-|[]]. reflexivity.
    + exact Hfa.
    + constructor; [eexists; reflexivity|constructor].
Qed.

Lemma short_values : safe_values (K := Rops) (fun x => 0 <= x) short_md dom.
Proof.
  pose proof (proj1 quiet_dt_small) as Hq. constructor.
  - apply Rltb_false. change (0 <= quiet_dt). lra.
  - intros c g xs _ H. destruct (late_xs pt dom D c g xs H) as (-> & _). lra.
  - intros cs mat iso rs r g x Hcs Em Hiso Er Hr Ex. destruct (short_cell cs Hcs) as (E0 & _ & Nd). rewrite E0 in Em. injection Em as <-. destruct Hiso as [<-|[]]. injection Er as <-.
    destruct Hr as [<-|[]]. cbn [r_cross_section late_reaction] in Ex. apply nth_error_In in Ex. rewrite Nd. cbn [iso_atom_fraction fmul Rops].
    destruct Ex as [<-|[<-|[<-|[]]]]; lra.
  - intros rs r s [<-|[]] [<-|[]] _ Hx. pose proof (sample_unit s Hx) as U. cbn [fto_usize fadd Rops r_nu_bar late_reaction]. set (q := fsample (f := Rops) s) in * . clearbody q. change (F Rops) with R in * .
    unfold Rto_usize. rewrite (proj2 (Rltb_iff (-1) (2 + q))) by lra.
    rewrite (proj2 (Rltb_iff (2 + q) (IZR (2 ^ 64)))) by (apply Rlt_trans with 5; [lra|apply IZR_lt; reflexivity]).
    cbn [andb]. eexists. split; [reflexivity|]. rewrite Ztrunc_floor by lra.
    assert (Zfloor (2 + q) < 5)%Z; [|lia]. apply lt_IZR. apply Rle_lt_trans with (2 + q); [apply Zfloor_lb|lra].
  - rewrite tenth. change (sp_n_particles (mc_params short_md)) with 240%N. cbn [fto_usize Rops]. change (IZR (Z.of_N 240)) with 240. replace (240 / 10) with (IZR 24) by lra.
    rewrite Rto_usize_Z by lia. exists 24%N. split; [reflexivity|lia].
  - intros w cs x Hw Hcs He. rewrite (unit_weight_is _ _ _ _ Hw short_emits), tenth, fsum_Rsum.
    assert (Ex : x = 250 * quiet_dt).
    { destruct (short_cell cs Hcs) as (E0 & Ev & _). apply (emits_fun short_md cs x (250 * quiet_dt : R) He).
      exists (mkMaterial (K := Rops) "fuel" (12 : R) [mkIsotope (K := Rops) 0 (1 : R)]), tiny_mat. split; [rewrite E0; reflexivity|]. split; [reflexivity|]. rewrite Ev.
      change (@eq R (250 * quiet_dt) (250 * 1 * quiet_dt)). ring. }
    rewrite Ex. assert (P2 : Rsum (repeat (250 * quiet_dt) 24) = 24 * (250 * quiet_dt)) by (cbn [repeat Rsum fold_right]; ring). rewrite P2.
    change (sp_n_particles (mc_params short_md)) with 240%N. cbn [fto_usize ffloor fdiv fadd f0 Rops]. change (IZR (Z.of_N 240)) with 240.
    replace (250 * quiet_dt / ((0 + 24 * (250 * quiet_dt)) / (240 / 10))) with 1 by (field; lra).
    change 1 with (IZR 1). rewrite Zfloor_IZR, Rto_usize_Z by lia. eexists. reflexivity.
  - intros global local Hg Hl. unfold compute_split_factor. change (ei_n_units (mc_exec short_md)) with 1%N. change (sp_n_particles (mc_params short_md)) with 240%N.
    destruct (sp_load_balance _).
    + destruct (N.eqb_spec local 0); [lia|]. cbn [negb]. cbn [fto_usize fceil fdiv fof_N Rops]. change (IZR (Z.of_N 1)) with 1.
      unfold Rdiv at 1. rewrite Rinv_1, Rmult_1_r, Zceil_IZR, Rto_usize_Z by lia. cbn [unwrap rbind]. eexists. split; [reflexivity|].
      intros Hf sd _. rewrite N2Z.id in * . apply problem_copies. cbn [flt f1 Rops] in Hf. apply Rltb_iff in Hf. split; [exact Hf|]. apply ratio_small; lia.
    + cbn [fdiv fof_N Rops]. eexists. split; [reflexivity|]. intros Hf sd _. apply problem_copies. cbn [flt f1 Rops] in Hf. apply Rltb_iff in Hf. split; [exact Hf|]. apply ratio_small; lia.
Qed.

Lemma short_sane : sane (K := Rops) (fun x => 0 <= x) short_md dom.
Proof. destruct short_indexed as (I1 & I2). constructor; [exact I1|exact I2|exact short_values]. Qed.

(** A calm particle flies to the end of the cycle. *)
Lemma calm_lines d p : d_mesh d = d_mesh dom -> no_denser short_td d 1 -> QuietRun.calm pt p -> starts_regular box short_td d p.
Proof.
  intros Em Nd Hc p' Hp. destruct (calm_prepared pt p Hc) as (q0 & Eq & Hq & _). assert (E0 : Ok p' = Ok q0) by (rewrite <- Hp; exact Eq). apply Ok_inj in E0. subst q0.
  assert (B : built box "octant" pt (d_mesh d)) by (rewrite Em; exact (domain_mesh _ _ _ _ _ _ D)).
  destruct Hq as ((c & L & Hd) & Hu & Ht & Hn & _ & He & _). pose proof mu_pos as Hm. destruct quiet_dt_small as (_ & Hsm).
  assert (Ho : off_faces box (p_coordinate p')) by exact (deep_off_faces _ _ _ _ box_sized Hm Hd).
  assert (Fl : flying box pt p').
  { split; [|split; [exact Hu|split; [apply Ht|apply Rle_trans with (2 := Hn); lra]]]. exists c. split; [exact L|]. split; [exact (deep_in _ _ _ _ (Rlt_le _ _ Hm) Hd)|apply off_faces_stays; exact Ho]. }
  assert (He' : 0 < p_kinetic_energy p') by (change (F Rops) with R in * ; lra).
  split; [exact Ho|]. intros hs q H.
  assert (No : forall e keep p1 nx, seg_step short_td d p' e keep p1 nx -> cell_cross_section short_td d (p_cell p') (p_energy_group p') = Ok (p_total_cross_section p1) -> keep = false /\ nx = []).
  { intros e keep p1 nx St Hx. pose proof (step_flew box "octant" pt d B box_sized box_fits _ _ _ _ _ _ St Fl He') as Fw. destruct (flew_within _ _ He' (Forall_inv Fw)) as (W1 & W2).
    destruct (seg_clock _ _ _ _ _ _ _ St (proj2 (proj2 Fl))) as (Cl & _). destruct (Forall_inv Cl) as ((T2 & _) & _).
    destruct (Forall_inv (seg_clock_exact _ _ _ _ _ _ _ St (proj2 (proj2 Fl)) short_heavy He')) as (Ea & _). unfold age_at_census in Ea.
    assert (Lf : flight (Flew p' e p1) < mu / 4).
    { cbn [flight]. eapply Rle_lt_trans; [exact W2|]. eapply Rle_lt_trans; [|exact Hsm]. rewrite light_R. change (F Rops) with R in * .
      apply Rle_trans with (29979200000 * quiet_dt); [apply Rmult_le_compat_l; lra|]. lra. }
    pose proof (step_optics box "octant" pt d B box_sized box_fits _ _ _ _ _ _ 1 St Fl (Nd _ _ _ Hx) (Rle_refl 1)) as Op. cbv zeta in Op.
    destruct (step_way box "octant" pt d B box_sized box_fits _ _ _ _ _ _ _ St Fl L) as (_ & Wy).
    destruct e as [k n|fe|]; [| |destruct Op; auto].
    - exfalso. destruct Op as (Op & _). specialize (Op (p_num_mean_free_paths p')). change (F Rops) with R in * . assert (p_num_mean_free_paths p' <= 1 * flight (Flew p' (SegCollision k n) p1)); [|lra].
      apply Op. unfold paths_left. left. split; [lra|reflexivity].
    - split; [|apply Op]. destruct keep; [|reflexivity]. exfalso. destruct (Wy eq_refl) as (f & c' & Hf & _ & G). specialize (G (face_axis f)). cbv zeta in G.
      assert (Hg : mu <= gap box (cell_idx_to_tuple (g_dims box) c) (face_axis f) (p_coordinate p') (p_direction p')).
      { unfold gap. pose proof (Hd (up_face (face_axis f))) as D1. pose proof (Hd (down_face (face_axis f))) as D2.
        assert (U : (up_face (face_axis f) < 6)%nat /\ (down_face (face_axis f) < 6)%nat) by (destruct (face_axis f); cbn; lia). specialize (D1 (proj1 U)). specialize (D2 (proj2 U)).
        destruct (Rlt_dec _ _); change (F Rops) with R in * ; lra. }
      destruct (face_axis f); destruct G as (G & _); lra. }
  inversion H as [|? e p1 nx hs' ? St Hx Hl|? e keep p1 nx c0 c' hs' ? St Hx Hin Hpc Hl]; subst; [constructor| |].
  - destruct (No _ _ _ _ St Hx) as (C & _). discriminate C.
  - destruct (No _ _ _ _ St Hx) as (_ & C). rewrite C in Hin. contradiction Hin.
Qed.

Lemma short_cells w rates d : forall cells i, source_cells short_md w rates d i cells = source_cells quiet_md w rates d i cells.
Proof.
  assert (Hp : forall c v x, source_particle short_md w d c v x = source_particle quiet_md w d c v x) by reflexivity.
  assert (Hn : forall cs, cell_n_particles short_md w rates cs = cell_n_particles quiet_md w rates cs) by reflexivity.
  induction cells as [|cs cells IH]; intros i; cbn [source_cells]; [reflexivity|]. rewrite Hn. destruct (cell_n_particles quiet_md w rates cs) as [k| |]; [|reflexivity|reflexivity]. cbn [rbind].
  rewrite IH. assert (E : forall l, rmap (source_particle short_md w d i (cs_volume cs)) l = rmap (source_particle quiet_md w d i (cs_volume cs)) l).
  { induction l as [|x l IHl]; cbn [rmap]; [reflexivity|]. rewrite Hp, IHl. reflexivity. }
  rewrite E. reflexivity.
Qed.
Lemma short_source w u c : source_now short_md w u c = source_now quiet_md w u c.
Proof.
  unfold source_now. change (source_rates short_md) with (Ok [(1 : R)]). rewrite quiet_rates. cbn [rbind]. rewrite short_cells. reflexivity.
Qed.

Lemma short_regular fuel cf n u c : (2 <= cf)%nat -> about_to_track fuel cf short_md dom n u c -> Forall (starts_regular box short_td (u_domain u)) (processing c).
Proof.
  intros Hcf (Hn & s & s1 & Hst & Hsy & Hpop). change (sp_n_steps (mc_params short_md)) with 1%N in Hn.
  assert (En : n = 0%N) by lia. subst n.
  assert (Es : s = initial_sim short_md dom).
  { remember 0%N as z eqn:Ez in Hst. remember (Ok s) as r eqn:Er in Hst. destruct Hst as [|m ? ? ? ? ? ?|m ? ? ?|m ? ? Hr]; [symmetry; apply Ok_inj; exact Er| | |]; exfalso; lia. }
  subst s. destruct (quiet_source pt dom D) as (s1' & u0 & c0 & Hsy' & Hsrc & Ec & _ & _ & _ & Hcalm & _).
  assert (E1 : Ok s1 = Ok s1') by (rewrite <- Hsy; exact Hsy'). apply Ok_inj in E1. subst s1'.
  assert (Hb : between box pt dom usual short_md (initial_sim short_md dom)) by exact (initial_between box "octant" pt box_geoms box_mats dom usual short_md D box_sized short_sane).
  assert (Hdt : 0 <= td_dt (mc_track short_md)) by (change (0 <= quiet_dt); pose proof (proj1 quiet_dt_small); lra).
  destruct (phase_ready box "octant" pt box_geoms box_mats dom usual short_md fuel cf D box_sized Hdt Hcf 0 _ _ _ _ eq_refl Hst Hb Hsy Hpop) as (Al & _).
  assert (Hc : Forall (QuietRun.calm pt) (processing c)).
  { eapply (population_from (QuietRun.calm pt) short_md s1 u0 c0); [exact (calm_same pt)|rewrite short_source; exact Hsrc|exact Hpop|rewrite Ec; reflexivity|exact Hcalm]. }
  eapply Forall_impl; [|exact Hc]. intros p Hp. apply calm_lines; [exact (proj1 (proj1 Al))| |exact Hp].
  exact (alike_denser box dom short_md 1 short_denser _ Al).
Qed.
End Short.

Lemma short_starts pt dom fuel cf : built_domain box "octant" pt box_geoms box_mats dom ->
  exists n u c, about_to_track fuel cf short_md dom n u c /\ (24 <= List.length (processing c))%nat.
Proof.
  intros D. destruct (quiet_source pt dom D) as (s1 & u0 & c0 & Hsy & Hsrc & Ec & _ & _ & Hl & _ & Hw & _).
  assert (Hsy' : cycle_sync short_md 0 (initial_sim short_md dom) = Ok s1) by exact Hsy.
  pose proof (initial_ok (K := Rops) (fun x => 0 <= x) usual short_md dom (short_sane pt dom D)) as Hb.
  destruct (sync_ok (K := Rops) _ usual short_md short_policy 0 _ Hb ltac:(lia)) as (s1' & E1 & HR). rewrite Hsy' in E1. apply Ok_inj in E1. subst s1'.
  destruct (SafeRun.population_ok (K := Rops) _ real_sign_laws usual short_md short_bounded s1 HR) as (u & c & Hpop & _).
  exists 0%N, u, c. split.
  - split; [reflexivity|]. exists (initial_sim short_md dom), s1. split; [constructor|]. auto.
  - assert (Hp : population_phase quiet_md s1 = Ok (u, c)).
    { rewrite <- Hpop. unfold population_phase. rewrite short_source. reflexivity. }
    apply (quiet_population s1 u0 c0 u c Hsrc Hp); [rewrite Ec; reflexivity|exact Hl|exact Hw].
Qed.

Theorem short_case : exists pt dom fuel, built_domain box "octant" pt box_geoms box_mats dom /\ sized box /\ fits box /\ heavy (mc_track short_md) /\ 0 <= td_dt (mc_track short_md) /\
  safe_energies (K := Rops) short_md usual /\ (forall e, usual e -> 0 < e) /\ run_ok short_md /\ loop_policy short_md /\
  sound_problem short_md dom /\ indexed short_md dom /\ safe_values (K := Rops) (fun x => 0 <= x) short_md dom /\
  no_denser (mc_track short_md) dom 1 /\ answered (mc_track short_md) dom /\ most_segments box 1 (td_dt (mc_track short_md)) < INR fuel /\
  (forall n u c, about_to_track fuel 2 short_md dom n u c -> Forall (starts_regular box (mc_track short_md) (u_domain u)) (processing c)) /\
  ei_policy (mc_exec short_md) = Rayon /\ (exists n u c, about_to_track fuel 2 short_md dom n u c /\ (24 <= List.length (processing c))%nat).
Proof.
  destruct box_first as (pt & dom & i0 & D & B & L0). destruct (whole_above (most_segments box 1 (td_dt (mc_track short_md)))) as (fuel & Hf). exists pt, dom, fuel.
  split; [exact D|]. split; [exact box_sized|]. split; [exact box_fits|]. split; [exact short_heavy|]. split; [change (0 <= quiet_dt); pose proof (proj1 quiet_dt_small); lra|].
  split; [exact short_bounded|]. split; [intros e He; apply He|]. split; [exact short_run|]. split; [exact short_policy|].
  split; [exact (proj1 (short_indexed pt dom D))|]. split; [exact (proj2 (short_indexed pt dom D))|]. split; [exact (short_values pt dom D)|].
  split; [exact (short_denser pt dom D)|]. split; [exact (short_answered pt dom D)|]. split; [exact Hf|].
  split; [intros n u c; apply (short_regular pt dom D fuel 2 n u c); lia|]. split; [reflexivity|]. exact (short_starts pt dom fuel 2 D).
Qed.
