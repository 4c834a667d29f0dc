(** A run set up from physical parameters does not panic, in exact arithmetic (C49). *)
From Coq Require Import NArith ZArith QArith Qreals List Bool Lia Reals Lra Psatz String.
From Flocq Require Import Core.
From Verif Require Import Float RealOps RngModel ParticleModel NuclearModel MeshTypes Balance TrackModel CycleModel GridModel MeshModel GridSpec MeshSpec
  GeomSpec ScheduleSpec ScheduleFacts RangeSpec RunAgree PopSpec SegmentSpec SegmentFacts NuclearSpec NuclearFacts NuclearReal TrackAccount SourceLemmas PopLemmas SourceCount
  SourcePoint InitReal WellBuilt ParamModel ParamSpec SetUpSpec IntegrityLemmas SetUpReal SafeSpec SafeRun SafeBuilt.
Import ListNotations.
Local Open Scope R_scope.

Lemma real_sign_laws : sign_laws (K := Rops) (fun x => 0 <= x).
Proof.
  constructor; unfold not_negative; cbn [f0 f1 fadd fsub fmul fdiv fneg fmax fmin flt fle feq fsqrt fhuge ftiny fsmall flit fof_N Rops]; intros.
  - apply Rltb_false. lra.
  - apply Rleb_iff. apply IZR_le. apply Z.pow_nonneg. lia.
  - apply Rleb_iff. lra.
  - apply Rleb_iff. assert (0 <= IZR (10 ^ 76)) by (apply IZR_le, Z.pow_nonneg; lia). lra.
  - apply Rleb_iff. unfold Q2R. cbn. lra.
  - apply Rltb_false. unfold Q2R. cbn. lra.
  - apply Rltb_false. unfold light_speed. cbn [flit Rops]. unfold Q2R. cbn. lra.
  - apply Reqb_false. unfold N_POINTS_INTERSEC. cbn. lra.
  - apply Rleb_iff in H, H0. apply Rleb_iff. lra.
  - apply Rleb_iff in H. apply Rltb_false. exact H.
  - apply Rltb_false in H0. apply Rleb_iff. exact H0.
  - apply Rltb_false. apply Rmax_r.
  - apply Rleb_iff in H. apply Rleb_iff. apply Rmax_lub; [exact H|]. apply IZR_le, Z.pow_nonneg. lia.
  - apply Rltb_false in H. apply Rltb_false. apply Rmin_glb; [lra|exact H].
  - apply Rltb_false in H, H0. apply Rltb_false. apply Rmult_le_pos; assumption.
  - apply Rltb_false in H, H0. apply Rltb_false. lra.
  - apply Rltb_false. apply sqrt_pos.
  - apply Reqb_false in H0. apply Rltb_false. unfold Rdiv. rewrite Rmult_1_l. apply Rlt_le, Rinv_0_lt_compat. lra.
  - apply Rltb_false. apply (sample_unit s H).
  - apply Rltb_false. pose proof (sample_unit s H) as S. cbn [fln Rops]. set (x := fsample (f := Rops) s) in * . clearbody x.
    change (F Rops) with R in * . assert (ln x <= 0); [|nra].
    destruct (Rle_lt_or_eq_dec 0 x) as [Hp| <- ]; [tauto| |].
    + rewrite <- ln_1. destruct (Rle_lt_or_eq_dec x 1) as [Hl| -> ]; [lra| |lra]. apply Rlt_le, ln_increasing; lra.
    + unfold ln. destruct (Rlt_dec 0 0); [exfalso; eapply Rlt_irrefl; eassumption|apply Rle_refl].
  - apply Rleb_iff. exact H.
  - unfold Q2R. cbn. lra.
  - apply Rmult_le_pos; [exact H|]. apply (sample_unit s H0).
  - apply Rltb_false in H1. exact H1.
Qed.

(** ** Nuclear data *)
Lemma values_nonneg p : forall (es : list (F Rops)) (n : F Rops), 0 <= (n : R) -> Forall (fun x : R => 0 <= x) (fst (reaction_values (K := Rops) p es n)) /\ 0 <= (snd (reaction_values (K := Rops) p es n) : R).
Proof.
  induction es as [|e0 es IH]; intros n Hn; [cbn; auto|]. destruct es as [|e1 es]; [cbn; auto|].
  rewrite reaction_values_cons. cbv zeta.
  match goal with |- context [fpow10 ?y] => set (x := fpow10 (f := Rops) y) end.
  assert (Hx : 0 <= (x : R)) by (unfold x; cbn [fpow10 Rops]; apply Rlt_le, exp_pos). clearbody x.
  match goal with |- context [reaction_values p (e1 :: es) ?m] => assert (Hm : 0 <= (m : R)) by (destruct (_ && _); assumption); specialize (IH m Hm); destruct (reaction_values p (e1 :: es) m) as [l k] end.
  cbn [fst snd] in * . split; [constructor; [exact Hx|]|]; apply IH.
Qed.
Lemma reaction_nonneg t nu (es : list (F Rops)) p (x : R) : 0 <= x -> Forall (fun y : R => 0 <= y) (r_cross_section (reaction_new (K := Rops) t nu es p x)).
Proof.
  intros Hx. unfold reaction_new. destruct (values_nonneg p es 0 (Rle_refl 0)) as (A & B).
  change (@f0 Rops) with 0. destruct (reaction_values (K := Rops) p es 0) as [l n]. cbn [fst snd] in * . cbn [r_cross_section].
  apply Forall_map. eapply Forall_impl; [|exact A]. cbv beta. intros y Hy. cbn [fmul fdiv Rops]. apply Rmult_le_pos; [exact Hy|].
  unfold Rdiv. apply Rmult_le_pos; [exact Hx|]. destruct (Rle_lt_or_eq_dec 0 n B) as [H|E]; [apply Rlt_le, Rinv_0_lt_compat; exact H|].
  rewrite <- E, Rinv_0. lra.
Qed.

Lemma nonneg_div a b : 0 <= a -> 0 <= b -> 0 <= a / b.
Proof. intros Ha Hb. unfold Rdiv. apply Rmult_le_pos; [exact Ha|]. destruct (Rle_lt_or_eq_dec 0 b Hb) as [H| <- ]; [apply Rlt_le, Rinv_0_lt_compat; exact H|rewrite Rinv_0; lra]. Qed.
Lemma nonneg_N n : 0 <= IZR (Z.of_N n).
Proof. apply IZR_le. lia. Qed.

Section Problem.
Variables (p : params Rops) (md0 : mcdata Rops) (threads : N) (bc : string) (pt : partition) (dom : domain Rops).
Let s := pa_sim p.
Let g := grid_new (K := Rops) (dims_of s) (si_lx s) (si_ly s) (si_lz s).
Let md := set_threads threads md0.
Hypothesis Hphys : physical p.
Hypothesis Hinit : init_mcdata p = Ok md0.
Hypothesis Hnamed : well_named p.
Hypothesis Hsizes : sane_sizes s.
Hypothesis D : built_domain g bc pt (pa_geom p) (td_mats (mc_track md0)) dom.

Lemma problem_sized : sized g.
Proof.
  destruct Hsizes as (P & _ & _ & Bx & By & Bz & _). destruct P as (Px & Py & Pz). unfold sized, g, grid_new. cbn [g_dx g_dy g_dz fdiv fof_N Rops dims_of nx ny nz] in * .
  unfold box_ok in * . repeat split; (apply Rdiv_lt_0_compat; [tauto|apply IZR_lt; lia]).
Qed.

Lemma problem_indexed : sound_problem md dom /\ indexed md dom.
Proof. eapply set_up_indexed; eauto. apply Hphys. Qed.

Lemma the_materials : exists nd, td_nuclear (mc_track md) = nd /\ mc_params md = cycle_params s /\ td_dt (mc_track md) = si_dt s /\
  Forall (Forall (fun r : reaction Rops => Forall (fun x : R => 0 <= x) (r_cross_section r) /\ 0 <= (r_nu_bar r : R) < 4)) (nd_isotopes nd) /\
  nd_energies nd = nuclear_energies (K := Rops) (si_n_groups s) (si_e_min s) (si_e_max s) /\
  forall mat, In mat (td_mats (mc_track md)) -> 1 <= (mat_mass mat : R) /\ forall iso, In iso (mat_iso mat) -> 0 <= (iso_atom_fraction iso : R).
Proof.
  destruct (initialised _ _ Hinit) as (nd & Ep & Edt & En & Emp & Em). destruct (threads_same threads md0) as (T1 & T2 & T3 & _).
  exists nd. unfold md. rewrite T1, T2. split; [exact En|]. split; [exact Ep|]. split; [exact Edt|].
  destruct (init_materials_mix _ _ _ _ _ _ Em) as (_ & Ee & _ & HM & _).
  split; [|split; [exact Ee|]].
  - eapply reactions_from; [exact Em| |constructor]. intros mp nu t q x Hmp Hnu Hx. cbn [nuclear_new nd_energies].
    destruct (reaction_new_shape t nu (nuclear_energies (si_n_groups (pa_sim p)) (si_e_min (pa_sim p)) (si_e_max (pa_sim p))) q x) as (_ & Enu & _).
    apply in_map_iff in Hmp. destruct Hmp as (e & <- & He). destruct Hphys as [_ _ _ Hn _ Ht Hr _]. rewrite Forall_forall in Hn, Ht, Hr.
    specialize (Ht _ He). specialize (Hr _ He). cbv beta in Ht, Hr.
    split.
    + apply reaction_nonneg. unfold wanted in Hx. cbn [fmul fdiv fadd fof_N Rops] in Hx. change (F Rops) with R in * .
      destruct Hr as (H1 & H2 & H3 & _).
      destruct Hx as [<-|[<-|[<-|[]]]]; (apply nonneg_div; apply Rmult_le_pos; try assumption; try apply nonneg_N; lra).
    + rewrite Enu. clear - Hnu Hn. induction (pa_xs p) as [|(k & v) l IH]; cbn [map map_get fst snd] in Hnu; [discriminate|].
      destruct (String.eqb k _); [injection Hnu as <-; apply (Hn (k, v)); left; reflexivity|]. apply IH; [exact Hnu|]. intros e0 He. apply Hn. right. exact He.
  - intros mat Hmat. destruct (Forall2_in_r _ _ _ HM mat Hmat) as (mp & Hmp & (_ & Hma & _ & HI)). apply in_map_iff in Hmp. destruct Hmp as (e & <- & He).
    destruct Hphys as [_ _ _ _ Hms _ _ _]. rewrite Forall_forall in Hms. rewrite Hma. split; [apply Hms; exact He|].
    intros iso Hiso. rewrite Forall_forall in HI. destruct (HI _ Hiso) as (-> & _). cbn [fdiv f1 fof_N Rops]. apply nonneg_div; [lra|apply nonneg_N].
Qed.

Definition fine (e : R) : Prop := 0 <= e <= si_e_max s.
Lemma problem_energies : safe_energies md fine.
Proof.
  destruct the_materials as (nd & En & Ep & _ & _ & Ee & HM). destruct (ph_energies _ Hphys) as ((E1 & E2) & E3). fold s in E1, E2, E3.
  assert (Es : sp_e_min (mc_params md) = si_e_min s /\ sp_e_max (mc_params md) = si_e_max s) by (rewrite Ep; split; reflexivity).
  destruct Es as (Em & EM). unfold fine.
  constructor; rewrite ?Em, ?EM; cbn [fmul fadd fsub fdiv f1 flit ftwo Rops flt].
  - intros x Hx. pose proof (sample_unit x Hx) as S. set (r := fsample (f := Rops) x) in * . clearbody r. change (F Rops) with R in * . nra.
  - intros e x mat He Hx Hmat. pose proof (sample_unit x Hx) as S. destruct (HM _ Hmat) as (Hma & _). set (r := fsample (f := Rops) x) in * . clearbody r.
    change (F Rops) with R in * . assert (Hi : 0 < 1 / mat_mass mat <= 1).
    { unfold Rdiv. rewrite Rmult_1_l. split; [apply Rinv_0_lt_compat; lra|]. rewrite <- Rinv_1. apply Rinv_le_contravar; lra. }
    set (i := 1 / mat_mass mat) in * . clearbody i. assert (0 <= r * i <= 1) by nra. nra.
  - intros x Hx. pose proof (sample_unit x Hx) as S. set (r := fsample (f := Rops) x) in * . clearbody r. change (F Rops) with R in * .
    replace (Q2R (20 # 1)) with 20 by (unfold Q2R; cbn; lra). unfold ftwo. cbn [flit Rops]. replace (Q2R (2 # 1)) with 2 by (unfold Q2R; cbn; lra).
    assert (0 <= (r + 1) / 2 <= 1) by lra. set (q := (r + 1) / 2) in * . clearbody q. nra.
  - intros e el He Hl. unfold last_energy, energies in Hl. rewrite En, Ee, energies_end in Hl. injection Hl as <-. apply Rltb_false. tauto.
Qed.

Lemma cell_volumes cs : In cs (d_cells dom) -> cs_volume cs = g_dx g * g_dy g * g_dz g /\ cs_number_density cs = 1.
Proof.
  intros H. apply In_nth_error in H. destruct H as (i & Ei). destruct (cell_facts _ _ _ _ _ _ D problem_sized i cs Ei) as (c & _ & _ & _ & V & _ & Nd). auto.
Qed.

Lemma fsum_nonneg (l : list R) : Forall (fun x => 0 <= x) l -> 0 <= (fsum (K := Rops) l : R).
Proof. intros H. rewrite fsum_Rsum. apply Rsum_nonneg. exact H. Qed.

Lemma rmap_In {A B} (f : A -> result B) l : forall ys, rmap f l = Ok ys -> forall y, In y ys -> exists x, In x l /\ f x = Ok y.
Proof.
  induction l as [|x l IH]; intros ys H y Hy; cbn [rmap] in H; [apply Ok_inj in H; subst; destruct Hy|].
  rb H as y0 E0. rb H as ys0 E1. apply Ok_inj in H. subst ys. destruct Hy as [<-|Hy]; [exists x; cbn; auto|]. destruct (IH _ E1 _ Hy) as (z & Hz & E). exists z. cbn. auto.
Qed.

Lemma problem_total c gr (xs : R) : cell_cross_section (K := Rops) (mc_track md) dom c gr = Ok xs -> 0 <= xs.
Proof.
  destruct the_materials as (nd & En & _ & _ & HF & _ & HM).
  unfold cell_cross_section, weighted_macroscopic_cross_section. intros H. rb H as cs Ecs. rb H as mat Emat. rb H as l El. apply Ok_inj in H. subst xs.
  apply fsum_nonneg. apply Forall_forall. intros x Hx. destruct (rmap_In _ _ _ El _ Hx) as (iso & Hiso & E). unfold macroscopic_total_cross_section in E.
  destruct (_ || _)%bool; [apply Ok_inj in E; subst x; cbn [flit Rops]; unfold Q2R; cbn; lra|]. rb E as micro Emi. apply Ok_inj in E. subst x.
  destruct (HM mat (vec_get_in _ _ _ Emat)) as (_ & Hfr). destruct (cell_volumes cs (vec_get_in _ _ _ Ecs)) as (_ & Nd).
  cbn [fmul Rops]. rewrite Nd. apply Rmult_le_pos; [rewrite Rmult_1_r; apply Hfr; exact Hiso|].
  unfold get_total_cross_section in Emi. rewrite En in Emi. rb Emi as rs Ers. rb Emi as l' El'. apply Ok_inj in Emi. subst micro.
  apply fsum_nonneg. apply Forall_forall. intros x Hx'. destruct (rmap_In _ _ _ El' _ Hx') as (r & Hr & E).
  rewrite Forall_forall in HF. specialize (HF _ (vec_get_in _ _ _ Ers)). rewrite Forall_forall in HF. destruct (HF _ Hr) as (HP & _).
  rewrite Forall_forall in HP. apply HP. eapply vec_get_in; eauto.
Qed.

Lemma problem_copies (f r : R) : 1 < f < IZR (2 ^ 64) -> exists n, fto_usize (f := Rops) (copies (K := Rops) f r) = Some n.
Proof.
  intros Hf. unfold copies. cbn [fto_usize flt fsub ffloor f1 Rops].
  assert (B : (1 <= Zfloor f < 2 ^ 64)%Z).
  { split; [apply Zfloor_lub; lra|]. apply lt_IZR. apply Rle_lt_trans with (2 := proj2 Hf). apply Zfloor_lb. }
  destruct (Rltb _ _); [|rewrite Rto_usize_Z by lia; eexists; reflexivity].
  change 1 with (IZR 1). rewrite <- minus_IZR, Rto_usize_Z by lia. eexists; reflexivity.
Qed.

Lemma ratio_small (a b : N) : (a < 2 ^ 64)%N -> (0 < b)%N -> 0 <= IZR (Z.of_N a) / IZR (Z.of_N b) < IZR (2 ^ 64).
Proof.
  intros Ha Hb. assert (B : 1 <= IZR (Z.of_N b)) by (apply IZR_le; lia). assert (A : 0 <= IZR (Z.of_N a) < IZR (2 ^ 64)) by (split; [apply IZR_le|apply IZR_lt]; lia).
  split; [apply nonneg_div; lra|]. apply Rle_lt_trans with (2 := proj2 A). apply Rmult_le_reg_r with (IZR (Z.of_N b)); [lra|].
  unfold Rdiv. rewrite Rmult_assoc, Rinv_l, Rmult_1_r by lra. rewrite <- (Rmult_1_r (IZR (Z.of_N a))) at 1. apply Rmult_le_compat_l; lra.
Qed.

Lemma particle_bounds : (10 <= si_n_particles s < 2 ^ 62)%N.
Proof.
  destruct Hsizes as (_ & _ & _ & _ & _ & _ & H10 & H4 & _). unfold two64 in H4. split; [|lia].
  apply N.le_trans with (1 := H10). destruct (N.eq_dec (total_cells (dims_of s)) 0) as [-> |Hn]; [destruct (si_n_particles s); cbn; lia|].
  apply N.div_le_upper_bound; [exact Hn|]. set (a := total_cells _) in * . clearbody a. nia.
Qed.

Lemma problem_emissions cs x : In cs (d_cells dom) -> emits md cs x -> 0 <= (x : R).
Proof.
  intros Hcs He. assert (He0 : emits md0 cs x).
  { unfold emits, md in * . destruct (threads_same threads md0) as (_ & T2 & T3 & _). rewrite T2, T3 in He. exact He. }
  destruct (material_source _ _ Hinit Hnamed cs x He0) as (mp & Hmp & ->). apply in_map_iff in Hmp. destruct Hmp as (e & <- & Hin).
  destruct (cell_volumes cs Hcs) as (V & _). destruct Hphys as [Hdt _ _ _ _ _ _ Hs]. rewrite Forall_forall in Hs. specialize (Hs _ Hin). cbv beta in Hs.
  cbn [fmul Rops]. change (F Rops) with R in * . rewrite V. destruct problem_sized as (S1 & S2 & S3).
  apply Rmult_le_pos; [|exact Hdt]. apply Rmult_le_pos; [|exact Hs]. change (F Rops) with R in * . apply Rmult_le_pos; [apply Rmult_le_pos|]; lra.
Qed.

Lemma problem_emitted : exists xs : list R, Forall2 (emits md) (d_cells dom) xs /\ Forall (fun x => 0 <= x) xs.
Proof.
  assert (G : forall cells, (forall cs, In cs cells -> In cs (d_cells dom)) -> exists xs : list R, Forall2 (emits md) cells xs /\ Forall (fun x => 0 <= x) xs).
  { induction cells as [|cs cells IH]; intros Hin; [exists []; split; constructor|].
    destruct IH as (xs & H1 & H2); [intros c Hc; apply Hin; right; exact Hc|].
    assert (He : exists x : R, emits md cs x).
    { destruct problem_indexed as (_ & Hx). pose proof (ix_material _ _ Hx cs (Hin cs (or_introl eq_refl))) as Hm.
      destruct (nth_error (td_mats (mc_track md)) (N.to_nat (cs_material cs))) as [mat|] eqn:E; [|apply nth_error_None in E; lia].
      pose proof (ix_names _ _ Hx) as Hk. unfold materials_known in Hk. rewrite Forall_forall in Hk. destruct (Hk mat (nth_error_In _ _ E)) as (mp & Emp).
      eexists. exists mat, mp. split; [exact E|]. split; [exact Emp|reflexivity]. }
    destruct He as (x & He). exists (x :: xs). split; constructor; auto. apply (problem_emissions cs x); [apply Hin; left; reflexivity|exact He]. }
  apply G. auto.
Qed.

Lemma problem_values : has_source md dom -> safe_values (K := Rops) (fun x => 0 <= x) md dom.
Proof.
  intros (cs0 & x0 & Hc0 & He0 & Hx0). destruct the_materials as (nd & En & Ep & Edt & HF & _ & HM).
  assert (Enp : sp_n_particles (mc_params md) = si_n_particles s) by (rewrite Ep; reflexivity).
  pose proof particle_bounds as Hnp.
  constructor; rewrite ?Enp.
  - rewrite Edt. unfold not_negative. cbn [flt f0 Rops]. apply Rltb_false. apply (ph_dt _ Hphys).
  - intros c gr xs _ H. eapply problem_total; eauto.
  - intros cs mat iso rs r gr x Hcs Emat Hiso Ers Hr Ex. destruct (cell_volumes cs Hcs) as (_ & Nd). destruct (HM mat (nth_error_In _ _ Emat)) as (_ & Hfr).
    cbn [fmul Rops]. rewrite Nd. apply Rmult_le_pos; [rewrite Rmult_1_r; apply Hfr; exact Hiso|]. rewrite En in Ers. rewrite Forall_forall in HF.
    specialize (HF _ (nth_error_In _ _ Ers)). rewrite Forall_forall in HF. destruct (HF _ Hr) as (HP & _). rewrite Forall_forall in HP. apply HP. eapply nth_error_In; eauto.
  - intros rs r x Hrs Hr _ Hx. rewrite En in Hrs. rewrite Forall_forall in HF. specialize (HF _ Hrs). rewrite Forall_forall in HF. destruct (HF _ Hr) as (_ & Hnu).
    pose proof (sample_unit x Hx) as S. cbn [fto_usize fadd Rops]. set (q := fsample (f := Rops) x) in * . clearbody q. change (F Rops) with R in * .
    unfold Rto_usize. replace (Rltb (-1) (r_nu_bar r + q)) with true by (symmetry; apply Rltb_iff; lra).
    replace (Rltb (r_nu_bar r + q) (IZR (2 ^ 64))) with true.
    2:{ symmetry. apply Rltb_iff. apply Rlt_trans with 5; [lra|]. apply IZR_lt. reflexivity. }
    cbn [andb]. eexists. split; [reflexivity|]. rewrite Ztrunc_floor by lra.
    assert (Zfloor (r_nu_bar r + q) < 5)%Z; [|lia]. apply lt_IZR. apply Rle_lt_trans with (r_nu_bar r + q); [apply Zfloor_lb|lra].
  - rewrite tenth. cbn [fto_usize Rops]. set (np := si_n_particles s) in * . clearbody np.
    assert (B : 1 <= IZR (Z.of_N np) / 10 < IZR (2 ^ 64)).
    { assert (10 <= IZR (Z.of_N np)) by (apply (IZR_le 10); lia). assert (IZR (Z.of_N np) < IZR (2 ^ 64)) by (apply IZR_lt; lia). lra. }
    unfold Rto_usize. replace (Rltb (-1) _) with true by (symmetry; apply Rltb_iff; lra). replace (Rltb _ (IZR (2 ^ 64))) with true by (symmetry; apply Rltb_iff; lra).
    cbn [andb]. eexists. split; [reflexivity|]. rewrite Ztrunc_floor by lra. assert (1 <= Zfloor (IZR (Z.of_N np) / 10))%Z by (apply Zfloor_lub; lra). lia.
  - intros w cs x Hw Hcs He. destruct problem_emitted as (xs & H1 & H2). rewrite (unit_weight_is _ _ _ _ Hw H1), tenth, fsum_Rsum.
    assert (Hin : forall c y, In c (d_cells dom) -> emits md c y -> In y xs).
    { clear - H1. intros c y Hc Hy. induction H1 as [|c' y' l l' E F2 IH]; [destruct Hc|]. destruct Hc as [-> |Hc]; [left; eapply emits_fun; eauto|right; auto]. }
    pose proof (Rsum_ge xs x H2 (Hin _ _ Hcs He)) as Hle. pose proof (Rsum_ge xs x0 H2 (Hin _ _ Hc0 He0)) as Hle0.
    pose proof (problem_emissions cs x Hcs He) as Hx.
    cbn [fto_usize ffloor fdiv fadd f0 Rops]. change (F Rops) with R in * . rewrite Rplus_0_l. set (S := Rsum xs) in * . clearbody S.
    set (np := si_n_particles s) in * . clearbody np.
    assert (Np : 10 <= IZR (Z.of_N np) < IZR (2 ^ 64)) by (split; [apply (IZR_le 10)|apply IZR_lt]; lia). set (n := IZR (Z.of_N np)) in * . clearbody n.
    assert (Hq : x / (S / (n / 10)) = x / S * (n / 10)) by (field; lra). rewrite Hq.
    assert (Hr : 0 <= x / S <= 1).
    { split; [apply nonneg_div; lra|]. apply Rmult_le_reg_r with S; [lra|]. unfold Rdiv. rewrite Rmult_assoc, Rinv_l by lra. lra. }
    set (r := x / S) in * . clearbody r. assert (Hrn : 0 <= r * (n / 10) < IZR (2 ^ 64)) by nra.
    rewrite Rto_usize_Z; [eexists; reflexivity|]. split; [apply Zfloor_lub; tauto|]. apply lt_IZR. eapply Rle_lt_trans; [apply Zfloor_lb|tauto].
  - intros global local Hg Hl. unfold compute_split_factor. destruct (threads_same threads md0) as (_ & _ & _ & Eu). unfold md. rewrite Eu.
    assert (E1 : ei_n_units (mc_exec md0) = 1%N).
    { destruct Hsizes as (_ & _ & _ & _ & _ & _ & _ & _ & Hu & _). pose proof Hinit as Hi. unfold init_mcdata in Hi. rb Hi as ei Eei. rb Hi as [nd0 mats0] E2. apply Ok_inj in Hi.
      rewrite <- Hi. cbn [mc_exec]. unfold exec_info_new in Eei. fold s in Eei. rewrite Hu in Eei. change (1 =? 1)%N with true in Eei. cbn [negb] in Eei.
      destruct (negb (si_n_rayon_threads s =? 1)%N); apply Ok_inj in Eei; subst ei; reflexivity. }
    rewrite E1. set (np := si_n_particles s) in * . clearbody np.
    destruct (sp_load_balance _).
    + destruct (N.eqb_spec local 0); [lia|]. cbn [negb]. cbn [fto_usize fceil fdiv fof_N Rops]. change (IZR (Z.of_N 1)) with 1.
      unfold Rdiv at 1. rewrite Rinv_1, Rmult_1_r, Zceil_IZR, Rto_usize_Z by lia. cbn [unwrap rbind]. eexists. split; [reflexivity|].
      intros Hf sd _. rewrite N2Z.id in * . apply problem_copies. cbn [flt f1 Rops] in Hf. apply Rltb_iff in Hf. split; [exact Hf|]. apply ratio_small; lia.
    + cbn [fdiv fof_N Rops]. eexists. split; [reflexivity|]. intros Hf sd _. apply problem_copies. cbn [flt f1 Rops] in Hf. apply Rltb_iff in Hf. split; [exact Hf|]. apply ratio_small; lia.
Qed.

Lemma problem_policy : (0 < threads)%N \/ si_chunk_size s <> 0%N -> run_ok md /\ loop_policy md.
Proof.
  intros Ht. assert (He : mc_exec md0 = mkExecInfo Rayon (si_n_rayon_threads s) (si_chunk_size s) 1 \/ mc_exec md0 = mkExecInfo Sequential 1 (si_chunk_size s) 1).
  { destruct Hsizes as (_ & _ & _ & _ & _ & _ & _ & _ & Hu & _). pose proof Hinit as Hi. unfold init_mcdata in Hi. rb Hi as ei Eei. rb Hi as [nd0 mats0] E2. apply Ok_inj in Hi.
    rewrite <- Hi. cbn [mc_exec]. unfold exec_info_new in Eei. fold s in Eei. rewrite Hu in Eei. change (1 =? 1)%N with true in Eei. cbn [negb] in Eei.
    destruct (negb (si_n_rayon_threads s =? 1)%N); apply Ok_inj in Eei; subst ei; auto. }
  unfold run_ok, loop_policy, md, set_threads. destruct He as [E|E]; rewrite E; cbn; rewrite ?E; cbn; split; auto.
  - intros _ Hc. destruct Ht; [lia|congruence].
  - intros [H|H]; discriminate.
Qed.

Lemma problem_never_panics fuel cf r : has_source md dom -> (0 < threads)%N \/ si_chunk_size s <> 0%N ->
  core_loop fuel cf md (initial_sim md dom) r -> r <> Panic.
Proof.
  intros Hs Ht H. destruct (problem_policy Ht) as (H1 & H2).
  apply (run_never_panics _ real_sign_laws _ md problem_energies H1 H2 fuel cf dom r); [|exact H].
  destruct problem_indexed as (I1 & I2). constructor; [exact I1|exact I2|exact (problem_values Hs)].
Qed.
End Problem.

(** ** The whole program *)
Section Program.
Context (real : string -> option (F Rops)) (yaml : string -> option block) (Hy : forall text b, yaml text = Some b -> distinct_keys b).
Variables (read : string -> option string) (order : list (N * N) -> list (N * N)) (threads : N) (c : cli Rops) (p : params Rops).
Hypothesis Ho : any_order order.
Hypothesis Hp : get_parameters real yaml read c = Ok (inl p).
Hypothesis Hs : sane_sizes (pa_sim p).
Hypothesis Hphys : physical p.
Hypothesis Hgeo : geometry_everywhere (pa_sim p) (pa_geom p).
Hypothesis Hbc : requested (si_boundary_condition (pa_sim p)) 0 <> None.

Lemma physical_nu : nu_bars_small p.
Proof. unfold nu_bars_small. eapply Forall_impl; [|exact (ph_nu _ Hphys)]. cbv beta. intros e He. lra. Qed.

Lemma program_set_up : exists md0 dom pt, init_mcdata p = Ok md0 /\ well_named p /\ set_up real yaml read order threads c = Ok (Some (set_threads threads md0, dom)) /\
  built_domain (grid_new (K := Rops) (dims_of (pa_sim p)) (si_lx (pa_sim p)) (si_ly (pa_sim p)) (si_lz (pa_sim p))) (si_boundary_condition (pa_sim p)) pt (pa_geom p) (td_mats (mc_track md0)) dom.
Proof.
  destruct (set_up_succeeds real yaml Hy read order threads c p Ho Hp Hs physical_nu Hgeo Hbc) as (md0 & dom & pt & E1 & _ & E2 & B).
  destruct (accepted_means real yaml Hy read c p Hp) as (_ & _ & _ & _ & W & _). exists md0, dom, pt. auto.
Qed.

Lemma program_never_panics fuel cf r : (0 < threads)%N \/ si_chunk_size (pa_sim p) <> 0%N ->
  (forall md dom, set_up real yaml read order threads c = Ok (Some (md, dom)) -> has_source md dom) ->
  program real yaml fuel cf read order threads c r -> r <> Panic.
Proof.
  intros Ht Hsrc H. destruct program_set_up as (md0 & dom & pt & E1 & W & E2 & B).
  inversion H as [md dom' q E T|E|E|E]; subst; try congruence. rewrite E2 in E. apply Ok_inj in E. injection E as <- <-.
  pose proof (problem_never_panics p md0 threads _ pt dom Hphys E1 W Hs B fuel cf q (Hsrc _ _ E2) Ht T) as N1.
  destruct q as [s| |]; cbn [rbind]; [discriminate|congruence|discriminate].
Qed.

(** When every material has a source, so has every cell. *)
Lemma every_cell_source md dom : 0 < (si_dt (pa_sim p) : R) -> Forall (fun e : string * material_params Rops => 0 < (mp_source_rate (snd e) : R)) (pa_mats p) ->
  set_up real yaml read order threads c = Ok (Some (md, dom)) -> has_source md dom.
Proof.
  intros Hdt Hr E. destruct program_set_up as (md0 & dom' & pt & E1 & W & E2 & B). rewrite E2 in E. apply Ok_inj in E. injection E as <- <-.
  set (g := grid_new (K := Rops) (dims_of (pa_sim p)) (si_lx (pa_sim p)) (si_ly (pa_sim p)) (si_lz (pa_sim p))) in * .
  pose proof (problem_sized p Hs) as Z. fold g in Z.
  assert (L : List.length (d_cells dom') = N.to_nat (total_cells (dims_of (pa_sim p)))) by (exact (domain_size _ _ _ _ _ _ B)).
  destruct Hs as ((P1 & P2 & P3) & _). assert (T : total_cells (dims_of (pa_sim p)) <> 0%N).
  { unfold total_cells. set (a := nx _) in * . set (b := ny _) in * . set (d := nz _) in * . clearbody a b d. apply N.neq_mul_0. split; [apply N.neq_mul_0; split|]; lia. }
  destruct (d_cells dom') as [|cs l] eqn:Ec; [cbn [List.length] in L; lia|].
  assert (Hcs : In cs (d_cells dom')) by (rewrite Ec; left; reflexivity).
  destruct (problem_emitted p md0 threads _ pt dom' Hphys E1 W Hs B) as (xs & F2 & _). rewrite Ec in F2. inversion F2 as [|? x ? ? Hx _]; subst.
  exists cs, x. split; [exact Hcs|]. split; [exact Hx|].
  assert (He0 : emits md0 cs x).
  { unfold emits in * . destruct (threads_same threads md0) as (_ & T2 & T3 & _). rewrite T2, T3 in Hx. exact Hx. }
  destruct (material_source _ _ E1 W cs x He0) as (mp & Hmp & ->). apply in_map_iff in Hmp. destruct Hmp as (e & <- & Hin).
  destruct (cell_volumes p md0 _ pt dom' Hs B cs Hcs) as (V & _). rewrite Forall_forall in Hr. specialize (Hr _ Hin). cbv beta in Hr.
  cbn [fmul Rops]. change (F Rops) with R in * . rewrite V. fold g. destruct Z as (S1 & S2 & S3). change (F Rops) with R in * .
  apply Rmult_lt_0_compat; [|exact Hdt]. apply Rmult_lt_0_compat; [|exact Hr]. apply Rmult_lt_0_compat; [apply Rmult_lt_0_compat|]; assumption.
Qed.
End Program.

(** ** The default problem *)
Lemma default_parameters real yaml read (c : cli Rops) : cl_input_file c = None ->
  get_parameters real yaml read c = Ok (inl (supply_defaults (mkParams (from_cli c) [] [] []))).
Proof.
  intros Hn. set (s := from_cli c) in * .
  assert (Eover : cli_over c s = s) by (unfold s, from_cli, cli_over, or_default; destruct (cl_energy_spectrum c), (cl_cross_sections_out c); reflexivity).
  assert (Hi : integrity (supply_defaults (mkParams s [] [] []))) by (apply (defaults_integrity (mkParams s [] [] [])); [reflexivity|constructor|]; intros name m []).
  rewrite get_parameters_unfold. unfold input_pieces. rewrite Hn. cbn [rev parse_blocks rbind pa_sim]. cbv zeta. fold s.
  change (set_sim (mkParams s [] [] []) (cli_over c s)) with (mkParams (cli_over c s) [] [] []). rewrite Eover. apply check_integrity_nil in Hi. rewrite Hi. reflexivity.
Qed.

Lemma default_physical (c : cli Rops) : 0 < (si_dt (from_cli c) : R) -> physical (supply_defaults (mkParams (from_cli c) [] [] [])).
Proof.
  intros Hdt. constructor; cbn -[from_cli Q2R Rle Rlt].
  - lra.
  - cbn. lia.
  - unfold from_cli, simulation_default. cbn [si_e_min si_e_max flit Rops]. unfold Q2R. cbn. lra.
  - constructor; [|constructor]. cbn. unfold Q2R. cbn. lra.
  - constructor; [|constructor]. cbn. unfold Q2R. cbn. lra.
  - constructor; [|constructor]. cbn. unfold Q2R. cbn. lra.
  - constructor; [|constructor]. cbn. unfold Q2R. cbn. lra.
  - constructor; [|constructor]. cbn. unfold Q2R. cbn. lra.
Qed.

Lemma default_never_panics real yaml (Hy : forall text b, yaml text = Some b -> distinct_keys b) read order threads (c : cli Rops) fuel cf r :
  any_order order -> cl_input_file c = None -> sane_sizes (from_cli c) -> 0 < (si_dt (from_cli c) : R) -> (0 < threads)%N ->
  program real yaml fuel cf read order threads c r -> r <> Panic.
Proof.
  intros Ho Hn Hs Hdt Ht H. pose proof (default_parameters real yaml read c Hn) as Ep. pose proof (default_physical c Hdt) as Hp.
  eapply (program_never_panics real yaml Hy read order threads c _ Ho Ep); [exact Hs|exact Hp|apply (default_everywhere (from_cli c)); exact Hs|discriminate|left; exact Ht| |exact H].
  intros md dom E. eapply (every_cell_source real yaml Hy read order threads c _ Ho Ep); [exact Hs|exact Hp|apply (default_everywhere (from_cli c)); exact Hs|discriminate|exact Hdt| |exact E].
  constructor; [|constructor]. cbn. unfold Q2R. cbn. lra.
Qed.
