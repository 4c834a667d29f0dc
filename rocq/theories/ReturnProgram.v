(** The program returns, in exact arithmetic (C68): the bounds that a run needs, from its parameters. *)
From Coq Require Import NArith ZArith QArith Qreals String List Bool Reals Lra Lia Psatz.
From Flocq Require Import Core.Raux.
From Verif Require Import Float RealOps ParticleModel NuclearModel MeshTypes Balance TrackModel CycleModel GridModel MeshModel GridSpec MeshSpec
  GeomSpec ScheduleSpec ScheduleFacts RangeSpec RunAgree PopSpec SegmentSpec SegmentFacts NuclearSpec NuclearFacts NuclearReal TrackAccount SourceLemmas PopLemmas SourceCount
  SourcePoint InitReal WellBuilt ParamModel ParamSpec SetUpSpec IntegrityLemmas SetUpReal SafeSpec SafeRun SafeBuilt SafeReal CrossingLemmas StaySpec HaltSpec ExcludeSpec ExcludeBuilt ReturnSpec ReturnRounds ReturnRun.
Import ListNotations.
Local Open Scope R_scope.

(** ** Reactions that happen *)
Lemma values_positive p : forall (es : list (F Rops)) (n : F Rops), Forall (fun x : R => 0 < x) (fst (reaction_values (K := Rops) p es n)).
Proof.
  induction es as [|e0 es IH]; intros n; [cbn; auto|]. destruct es as [|e1 es]; [cbn; auto|].
  rewrite reaction_values_cons. cbv zeta.
  match goal with |- context [reaction_values p (e1 :: es) ?m] => specialize (IH m); destruct (reaction_values p (e1 :: es) m) as [l k] end.
  cbn [fst] in * . constructor; [|exact IH]. apply pow10_pos.
Qed.
Lemma normal_positive p : forall (es : list (F Rops)) (n hi : R), 0 <= n -> (2 <= List.length es)%nat -> nth_error es (List.length es - 1) = Some hi -> 1 <= hi ->
  0 < (snd (reaction_values (K := Rops) p es n) : R).
Proof.
  induction es as [|e0 es IH]; intros n hi Hn Hl He Hh; [cbn in Hl; lia|]. destruct es as [|e1 es]; [cbn in Hl; lia|].
  rewrite reaction_values_cons. cbv zeta. pose proof (pow10_pos (poly_val p (flog10 (fdiv (fadd (f := Rops) e0 e1) ftwo)))) as P.
  set (x := fpow10 (poly_val p (flog10 (fdiv (fadd (f := Rops) e0 e1) ftwo)))) in * . clearbody x.
  set (m := if (fle f1 e1 && feq (n : F Rops) f0)%bool then x else n). assert (Hm : 0 <= (m : R)) by (unfold m; destruct (_ && _)%bool; [apply Rlt_le; exact P|exact Hn]).
  destruct es as [|e2 es].
  - cbn [nth_error List.length Nat.sub] in He. assert (E1 : e1 = hi) by congruence. subst e1.
    cbn [reaction_values snd]. unfold m. assert (L : fle (f := Rops) f1 hi = true) by (apply Rleb_iff; exact Hh). rewrite L. cbn [andb].
    destruct (feq (f := Rops) n f0) eqn:E; [exact P|]. apply Reqb_false in E. change (@f0 Rops) with 0 in E. change (F Rops) with R in * . lra.
  - specialize (IH m hi Hm). destruct (reaction_values p (e1 :: e2 :: es) m) as [l k]. cbn [snd] in * . apply IH; [cbn; lia| |exact Hh].
    rewrite <- He. cbn [List.length]. replace (S (S (S (List.length es))) - 1)%nat with (S (S (S (List.length es)) - 1 - 0))%nat by lia. cbn [nth_error]. f_equal.
Qed.
Lemma reaction_positive t (nu : R) (es : list (F Rops)) p (x hi : R) : 0 < x -> (2 <= List.length es)%nat -> nth_error es (List.length es - 1) = Some hi -> 1 <= hi ->
  Forall (fun y : R => 0 < y) (r_cross_section (reaction_new (K := Rops) t nu es p x)).
Proof.
  intros Hx Hl He Hh. unfold reaction_new. pose proof (values_positive p es f0) as A. pose proof (normal_positive p es 0 hi (Rle_refl 0) Hl He Hh) as B.
  change (@f0 Rops) with 0 in * . destruct (reaction_values (K := Rops) p es 0) as [l n]. cbn [fst snd] in * . cbn [r_cross_section].
  apply Forall_map. eapply Forall_impl; [|exact A]. cbv beta. intros y Hy. cbn [fmul fdiv Rops]. change (F Rops) with R in * . apply Rmult_lt_0_compat; [exact Hy|]. apply Rdiv_lt_0_compat; assumption.
Qed.

Definition happens (r : reaction Rops) : Prop := Forall (fun y : R => 0 < y) (r_cross_section r).
Definition proper (mp : material_params Rops) : Prop :=
  0 <= (mp_total_cross_section mp : R) /\ 0 <= (mp_scattering_ratio mp : R) /\ 0 <= (mp_fission_ratio mp : R) /\ 0 <= (mp_absorption_ratio mp : R) /\
  0 < (mp_scattering_ratio mp + mp_fission_ratio mp + mp_absorption_ratio mp).

Lemma asked_positive (mp : material_params Rops) k : proper mp -> 0 < mp_total_cross_section mp -> 0 < (ratio_of k mp : R) -> (0 < number_of k (mp_n_reactions mp))%N -> 0 < (asked mp k : R).
Proof.
  intros (_ & _ & _ & _ & Hw) Ht Hr Hn. unfold asked. cbn [fdiv fmul fadd fof_N Rops]. change (F Rops) with R in * .
  apply Rdiv_lt_0_compat; [apply Rmult_lt_0_compat; assumption|]. apply Rmult_lt_0_compat; [apply (IZR_lt 0); lia|lra].
Qed.
(** One of the first three reactions is asked for. *)
Lemma one_asked (mp : material_params Rops) : proper mp -> 0 < normal_total mp ->
  0 < mp_total_cross_section mp /\ ((1 <= mp_n_reactions mp)%N /\ 0 < (mp_scattering_ratio mp : R) \/ (2 <= mp_n_reactions mp)%N /\ 0 < (mp_fission_ratio mp : R) \/
    (3 <= mp_n_reactions mp)%N /\ 0 < (mp_absorption_ratio mp : R)).
Proof.
  intros (Ht & H1 & H2 & H3 & Hw) H. unfold normal_total, weight_sum, present in H. change (F Rops) with R in * .
  set (n := mp_n_reactions mp) in * . set (s := mp_scattering_ratio mp : R) in * . set (f := mp_fission_ratio mp : R) in * . set (a := mp_absorption_ratio mp : R) in * . set (t := mp_total_cross_section mp : R) in * .
  clearbody n s f a t. change (F Rops) with R in * .
  destruct (Rle_lt_or_eq_dec 0 t Ht) as [T|T]; [|exfalso; rewrite <- T in H; unfold Rdiv in H; lra]. split; [exact T|].
  destruct (N.leb_spec 1 n), (N.leb_spec 2 n), (N.leb_spec 3 n); try lia.
  - destruct (Rle_lt_or_eq_dec 0 s H1) as [S1|S1]; [left; auto|]. destruct (Rle_lt_or_eq_dec 0 f H2) as [S2|S2]; [right; left; auto|]. destruct (Rle_lt_or_eq_dec 0 a H3) as [S3|S3]; [right; right; auto|]. lra.
  - destruct (Rle_lt_or_eq_dec 0 s H1) as [S1|S1]; [left; auto|]. destruct (Rle_lt_or_eq_dec 0 f H2) as [S2|S2]; [right; left; auto|]. exfalso. rewrite <- S1, <- S2 in H. unfold Rdiv in H. lra.
  - destruct (Rle_lt_or_eq_dec 0 s H1) as [S1|S1]; [left; auto|]. exfalso. rewrite <- S1 in H. unfold Rdiv in H. lra.
  - exfalso. unfold Rdiv in H. lra.
Qed.

Lemma isotope_happens (nd nd' : nuclear_data Rops) xs mp (nu hi : R) gid : add_isotope nd xs mp nu = Ok (nd', gid) -> proper mp -> 0 < normal_total mp ->
  (2 <= List.length (nd_energies nd))%nat -> nth_error (nd_energies nd) (List.length (nd_energies nd) - 1) = Some hi -> 1 <= hi ->
  Forall (Exists happens) (nd_isotopes nd) -> Forall (Exists happens) (nd_isotopes nd') /\ nd_energies nd' = nd_energies nd.
Proof.
  unfold add_isotope. intros H Hp Hn Hl He Hh HF. rb H as ff E1. rb H as sf E2. rb H as af E3. apply Ok_inj in H. injection H as <- _.
  cbn [nd_isotopes nd_energies]. split; [|reflexivity]. apply Forall_app. split; [exact HF|]. constructor; [|constructor].
  destruct (one_asked mp Hp Hn) as (Ht & Hc). apply Exists_exists.
  assert (Hin : forall k, (k < mp_n_reactions mp)%N -> In k (nrange 0 (N.to_nat (mp_n_reactions mp)))) by (intros k Hk; apply In_nrange; lia).
  assert (Hd : forall n, (1 <= n)%N -> (0 < n_scatter n)%N).
  { intros n H0. unfold n_scatter. pose proof (N.div_mod n 3 ltac:(lia)). pose proof (N.mod_upper_bound n 3 ltac:(lia)). destruct (N.eqb_spec (n mod 3) 2); [lia|]. destruct (N.eqb_spec (n mod 3) 1); lia. }
  assert (Hd2 : forall n, (2 <= n)%N -> (0 < n_fission n)%N).
  { intros n H0. unfold n_fission. pose proof (N.div_mod n 3 ltac:(lia)). pose proof (N.mod_upper_bound n 3 ltac:(lia)). destruct (N.eqb_spec (n mod 3) 2); lia. }
  assert (Hd3 : forall n, (3 <= n)%N -> (0 < n_absorption n)%N).
  { intros n H0. unfold n_absorption. pose proof (N.div_mod n 3 ltac:(lia)). pose proof (N.mod_upper_bound n 3 ltac:(lia)). lia. }
  destruct Hc as [(Hk & Hr)|[(Hk & Hr)|(Hk & Hr)]].
  - eexists. split; [apply in_map; apply (Hin 0%N); lia|]. change ((0 mod 3)%N) with 0%N. cbv iota. eapply reaction_positive; [|exact Hl|exact He|exact Hh].
    exact (asked_positive mp Scatter Hp Ht Hr (Hd _ Hk)).
  - eexists. split; [apply in_map; apply (Hin 1%N); lia|]. change ((1 mod 3)%N) with 1%N. cbv iota. eapply reaction_positive; [|exact Hl|exact He|exact Hh].
    exact (asked_positive mp Fission Hp Ht Hr (Hd2 _ Hk)).
  - eexists. split; [apply in_map; apply (Hin 2%N); lia|]. change ((2 mod 3)%N) with 2%N. cbv iota. eapply reaction_positive; [|exact Hl|exact He|exact Hh].
    exact (asked_positive mp Absorption Hp Ht Hr (Hd3 _ Hk)).
Qed.
Lemma isotopes_happen xs mp (nu hi : R) : forall n (nd nd' : nuclear_data Rops) l, add_isotopes n nd xs mp nu = Ok (nd', l) -> proper mp -> 0 < normal_total mp ->
  (2 <= List.length (nd_energies nd))%nat -> nth_error (nd_energies nd) (List.length (nd_energies nd) - 1) = Some hi -> 1 <= hi ->
  Forall (Exists happens) (nd_isotopes nd) -> Forall (Exists happens) (nd_isotopes nd') /\ nd_energies nd' = nd_energies nd.
Proof.
  induction n as [|n IH]; intros nd nd' l H Hp Hn Hl He Hh HF; cbn [add_isotopes] in H.
  - apply Ok_inj in H. injection H as <- _. auto.
  - rb H as [nd1 gid] E1. rb H as [nd2 l2] E2. apply Ok_inj in H. injection H as <- _.
    destruct (isotope_happens _ _ _ _ _ _ _ E1 Hp Hn Hl He Hh HF) as (F1 & Ee). destruct (IH _ _ _ E2 Hp Hn) as (F2 & Ee2); rewrite ?Ee; auto.
    split; [exact F2|congruence].
Qed.
Lemma reactions_happen xs nus (hi : R) : forall mps (nd nd' : nuclear_data Rops) mats, init_materials mps nd xs nus = Ok (nd', mats) ->
  (forall mp, In mp mps -> proper mp /\ 0 < normal_total mp) ->
  (2 <= List.length (nd_energies nd))%nat -> nth_error (nd_energies nd) (List.length (nd_energies nd) - 1) = Some hi -> 1 <= hi ->
  Forall (Exists happens) (nd_isotopes nd) -> Forall (Exists happens) (nd_isotopes nd').
Proof.
  induction mps as [|mp mps IH]; intros nd nd' mats H HP Hl He Hh HF; cbn [init_materials] in H.
  - apply Ok_inj in H. injection H as <- _. exact HF.
  - rb H as [nd1 iso] E1. rb H as [nd2 mats2] E2. apply Ok_inj in H. injection H as <- _.
    assert (G : Forall (Exists happens) (nd_isotopes nd1) /\ nd_energies nd1 = nd_energies nd).
    { destruct (N.to_nat (mp_n_isotopes mp)) as [|k]; [apply Ok_inj in E1; injection E1 as <- _; auto|].
      rb E1 as nu En. destruct (HP mp (or_introl eq_refl)) as (P1 & P2). exact (isotopes_happen _ _ _ _ _ _ _ _ E1 P1 P2 Hl He Hh HF). }
    destruct G as (F1 & Ee). eapply IH; [exact E2| | | |exact Hh|exact F1]; rewrite ?Ee; auto. intros mp' Hin. apply HP. right. exact Hin.
Qed.

(** ** The problem *)
Section Problem.
Variables (p : params Rops) (md0 : mcdata Rops) (threads : N) (bc : string) (pt : partition) (dom : domain Rops).
Let s := pa_sim p.
Let g := grid_new (K := Rops) (dims_of s) (si_lx s) (si_ly s) (si_lz s).
Let md := set_threads threads md0.
Hypothesis Hphys : physical p.
Hypothesis Hinit : init_mcdata p = Ok md0.
Hypothesis Hnamed : well_named p.
Hypothesis Hsizes : sane_sizes s.
Hypothesis D : built_domain g bc pt (pa_geom p) (td_mats (mc_track md0)) dom.
Hypothesis Hreact : Forall (fun e : string * material_params Rops => reacts (snd e)) (pa_mats p).

Lemma problem_fits : fits g.
Proof.
  destruct Hsizes as ((Px & Py & Pz) & _ & _ & Bx & By & Bz & _). unfold fits, g, grid_new. cbn [g_dx g_dy g_dz fdiv fof_N Rops]. unfold box_ok in * .
  assert (G : forall (l : R) n, 0 < l < IZR (2 ^ 64) -> (0 < n)%N -> l / IZR (Z.of_N n) < IZR (2 ^ 64)).
  { intros l n Hl Hn. assert (1 <= IZR (Z.of_N n)) by (apply IZR_le; lia). apply Rle_lt_trans with l; [|tauto]. apply Rmult_le_reg_r with (IZR (Z.of_N n)); [lra|].
    unfold Rdiv. rewrite Rmult_assoc, Rinv_l by lra. nra. }
  pose proof (G _ _ Bx Px) as G1. pose proof (G _ _ By Py) as G2. pose proof (G _ _ Bz Pz) as G3. change (F Rops) with R in * .
  assert (3 * IZR (2 ^ 64) < huge); [|lra]. unfold huge. cbn [fhuge Rops]. rewrite <- mult_IZR. apply IZR_lt. reflexivity.
Qed.

Lemma problem_materials : exists nd, td_nuclear (mc_track md) = nd /\ td_dt (mc_track md) = si_dt s /\
  nd_energies nd = nuclear_energies (K := Rops) (si_n_groups s) (si_e_min s) (si_e_max s) /\
  Forall (Exists happens) (nd_isotopes nd) /\
  Forall (fun mat => exists e nus, In e (pa_mats p) /\ material_for nd nus (snd e) mat) (td_mats (mc_track md)).
Proof.
  destruct (initialised _ _ Hinit) as (nd & Ep & Edt & En & Emp & Em). destruct (threads_same threads md0) as (T1 & T2 & T3 & _).
  exists nd. unfold md. rewrite T2. split; [exact En|]. split; [exact Edt|].
  destruct (init_materials_mix _ _ _ _ _ _ Em) as (_ & Ee & _ & HM & _). cbn [nuclear_new nd_energies] in Ee. split; [exact Ee|].
  pose proof (energies_count (K := Rops) (si_n_groups s) (si_e_min s) (si_e_max s)) as Ct. pose proof (ph_groups _ Hphys) as Hg. fold s in Hg. split.
  - eapply (reactions_happen _ _ (si_e_max s)); [exact Em| | | | |constructor].
    + intros mp Hmp. apply in_map_iff in Hmp. destruct Hmp as (e & <- & He). rewrite Forall_forall in Hreact. destruct (Hreact e He) as (_ & _ & Hn). split; [|exact Hn].
      destruct Hphys as [_ _ _ _ _ Ht Hr _]. rewrite Forall_forall in Ht, Hr. specialize (Ht _ He). specialize (Hr _ He). cbv beta in Ht, Hr. unfold proper. tauto.
    + cbn [nuclear_new nd_energies]. fold s. lia.
    + cbn [nuclear_new nd_energies]. exact (energies_end (K := Rops) _ _ _).
    + pose proof (ph_energies _ Hphys) as (_ & H20). fold s in H20. lra.
  - apply Forall_forall. intros mat Hmat. destruct (Forall2_in_r _ _ _ HM mat Hmat) as (mp & Hmp & Hf). apply in_map_iff in Hmp. destruct Hmp as (e & <- & He). exists e. eauto.
Qed.

Lemma problem_heavy : heavy (mc_track md).
Proof.
  destruct problem_materials as (nd & _ & _ & _ & _ & HM). unfold heavy. eapply Forall_impl; [|exact HM]. intros mat (e & nus & He & (_ & -> & _)).
  rewrite Forall_forall in Hreact. apply (Hreact e He).
Qed.

Definition in_range (e : R) : Prop := 0 < e <= si_e_max s.
Lemma problem_range : safe_energies (K := Rops) md in_range.
Proof.
  pose proof problem_heavy as HV. destruct (the_materials p md0 threads Hphys Hinit) as (nd & En & Ep & _ & _ & Ee & HM). fold md in En, Ep, HM. fold s in Ee, Ep.
  destruct (ph_energies _ Hphys) as ((E1 & E2) & E3). fold s in E1, E2, E3.
  assert (Es : sp_e_min (mc_params md) = si_e_min s /\ sp_e_max (mc_params md) = si_e_max s) by (rewrite Ep; split; reflexivity).
  destruct Es as (Em & EM). unfold in_range.
  constructor; rewrite ?Em, ?EM; cbn [fmul fadd fsub fdiv f1 flit ftwo Rops flt].
  - intros x Hx. pose proof (sample_unit x Hx) as S1. set (r := fsample (f := Rops) x) in * . clearbody r. change (F Rops) with R in * . nra.
  - intros e x mat He Hx Hmat. pose proof (sample_unit x Hx) as S1. unfold heavy in HV. rewrite Forall_forall in HV. pose proof (HV mat Hmat) as Hma. set (r := fsample (f := Rops) x) in * . clearbody r.
    change (F Rops) with R in * . assert (Hi : 0 < 1 / mat_mass mat < 1).
    { unfold Rdiv. rewrite Rmult_1_l. split; [apply Rinv_0_lt_compat; lra|]. rewrite <- Rinv_1. apply Rinv_lt_contravar; lra. }
    set (i := 1 / mat_mass mat) in * . clearbody i. assert (0 <= r * i < 1) by nra. nra.
  - intros x Hx. pose proof (sample_unit x Hx) as S1. set (r := fsample (f := Rops) x) in * . clearbody r. change (F Rops) with R in * .
    replace (Q2R (20 # 1)) with 20 by (unfold Q2R; cbn; lra). unfold ftwo. cbn [flit Rops]. replace (Q2R (2 # 1)) with 2 by (unfold Q2R; cbn; lra).
    assert (1 / 2 <= (r + 1) / 2 <= 1) by lra. set (q := (r + 1) / 2) in * . clearbody q. nra.
  - intros e el He Hl. unfold last_energy, energies in Hl. rewrite En, Ee, energies_end in Hl. injection Hl as <-. apply Rltb_false. tauto.
Qed.

Lemma fsum_positive (l : list R) x : Forall (fun x => 0 <= x) l -> In x l -> 0 < x -> 0 < (fsum (K := Rops) l : R).
Proof. intros H Hin Hx. rewrite fsum_Rsum. pose proof (Rsum_ge l x H Hin). change (F Rops) with R in * . lra. Qed.
Lemma rmap_hits {A B} (f : A -> result B) l ys : rmap f l = Ok ys -> forall x, In x l -> exists y, In y ys /\ f x = Ok y.
Proof.
  revert ys. induction l as [|x l IH]; intros ys H z Hz; [destruct Hz|]. cbn [rmap] in H. rb H as y0 E0. rb H as ys0 E1. apply Ok_inj in H. subst ys.
  destruct Hz as [<-|Hz]; [exists y0; cbn; auto|]. destruct (IH _ E1 _ Hz) as (y & Hy & E). exists y. cbn. auto.
Qed.

Lemma problem_answers cell cs group (xs : R) : vec_get (d_cells dom) cell = Ok cs -> cell_cross_section (K := Rops) (mc_track md) dom cell group = Ok xs ->
  0 < xs /\ cs_number_density cs <> 0 /\ (group < si_n_groups s)%N /\
  exists mat, vec_get (td_mats (mc_track md)) (cs_material cs) = Ok mat /\ material_data (td_nuclear (mc_track md)) group (mat_iso mat) /\
    Forall (fun pr => 0 <= sigma (cs_number_density cs) group pr) (partners (td_nuclear (mc_track md)) (mat_iso mat)).
Proof.
  destruct problem_materials as (nd & En & _ & Ee & HE & HM). destruct (the_materials p md0 threads Hphys Hinit) as (nd' & En' & _ & _ & HF & _ & Hfr). fold md in En', Hfr.
  assert (Ex : nd' = nd) by congruence. rewrite Ex in HF. clear En' Ex nd'.
  intros Ecs H. unfold cell_cross_section, weighted_macroscopic_cross_section in H. rewrite Ecs in H. cbn [rbind] in H. rb H as mat Emat. rb H as l El. apply Ok_inj in H. subst xs.
  destruct (cell_volumes p md0 bc pt dom Hsizes D cs (vec_get_in _ _ _ Ecs)) as (_ & Nd).
  pose proof (vec_get_in _ _ _ Emat) as Hmat. rewrite Forall_forall in HM. destruct (HM mat Hmat) as (e & nus & He & (_ & _ & Hlen & HI)). rewrite Forall_forall in HI.
  rewrite Forall_forall in Hreact. destruct (Hreact e He) as (_ & Hni & _).
  pose proof (energies_count (K := Rops) (si_n_groups s) (si_e_min s) (si_e_max s)) as Ct.
  assert (Fr : forall iso, In iso (mat_iso mat) -> 0 < (iso_atom_fraction iso : R)).
  { intros iso Hiso. destruct (HI iso Hiso) as (-> & _). cbn [fdiv f1 fof_N Rops]. apply Rdiv_lt_0_compat; [lra|]. apply (IZR_lt 0). lia. }
  assert (Sm : forall iso, In iso (mat_iso mat) -> exists rs nu, nth_error (nd_isotopes nd) (N.to_nat (iso_gid iso)) = Some rs /\
     reaction_mix (N.to_nat (mp_n_reactions (snd e))) (List.length (nd_energies nd) - 1) nu rs /\ (group < si_n_groups s)%N /\
     exists y, In y l /\ 0 < (y : R)).
  { intros iso Hiso. destruct (HI iso Hiso) as (_ & rs & nu & _ & Ers & Hmix). exists rs, nu. split; [exact Ers|]. split; [exact Hmix|].
    destruct (rmap_hits _ _ _ El iso Hiso) as (y & Hy & E). unfold macroscopic_total_cross_section in E.
    assert (Z : (feq (iso_atom_fraction iso) f0 || feq (cs_number_density cs) f0)%bool = false).
    { apply orb_false_iff. split; apply Reqb_false; [pose proof (Fr iso Hiso); change (@f0 Rops) with 0; change (F Rops) with R in * ; lra|rewrite Nd; change (@f0 Rops) with 0; lra]. }
    rewrite Z in E. rb E as micro Emi. apply Ok_inj in E. unfold get_total_cross_section in Emi. rewrite En in Emi. rb Emi as rs' Ers'. assert (rs' = rs) by (apply vec_get_nth in Ers'; congruence). subst rs'.
    rb Emi as l' El'. apply Ok_inj in Emi.
    rewrite Forall_forall in HE. pose proof (HE rs (nth_error_In _ _ Ers)) as Hex. apply Exists_exists in Hex. destruct Hex as (r & Hr & Hpos).
    destruct (rmap_hits _ _ _ El' r Hr) as (z & Hz & Ez).
    assert (Hg : (group < si_n_groups s)%N).
    { apply vec_get_nth in Ez. assert (L : (N.to_nat group < List.length (r_cross_section r))%nat) by (apply nth_error_Some; rewrite Ez; discriminate).
      apply In_nth_error in Hr. destruct Hr as (k & Hk). destruct Hmix as (_ & Hmix & _). destruct (Hmix k r Hk) as (_ & _ & Ln). rewrite Ln, Ee in L. lia. }
    split; [exact Hg|]. exists y. split; [exact Hy|]. subst y micro. cbn [fmul Rops]. rewrite Nd, Rmult_1_r. apply Rmult_lt_0_compat; [apply Fr; exact Hiso|].
    eapply fsum_positive; [|exact Hz|].
    - apply Forall_forall. intros z' Hz'. destruct (rmap_In _ _ _ El' _ Hz') as (r' & Hr' & E'). rewrite Forall_forall in HF. specialize (HF _ (nth_error_In _ _ Ers)). rewrite Forall_forall in HF.
      destruct (HF _ Hr') as (HP & _). rewrite Forall_forall in HP. apply HP. eapply vec_get_in; eauto.
    - unfold happens in Hpos. rewrite Forall_forall in Hpos. apply Hpos. eapply vec_get_in; eauto. }
  destruct (mat_iso mat) as [|iso0 isos] eqn:Eiso; [cbn [List.length] in Hlen; lia|].
  destruct (Sm iso0 (or_introl eq_refl)) as (_ & _ & _ & _ & Hg & y & Hy & Hpos).
  split; [|split; [rewrite Nd; lra|split; [exact Hg|]]].
  - eapply fsum_positive; [|exact Hy|exact Hpos]. apply Forall_forall. intros x Hx. destruct (rmap_In _ _ _ El _ Hx) as (iso & Hiso & E).
    unfold macroscopic_total_cross_section in E. destruct (_ || _)%bool; [apply Ok_inj in E; subst x; cbn [flit Rops]; unfold Q2R; cbn; lra|]. rb E as micro Emi. apply Ok_inj in E. subst x.
    cbn [fmul Rops]. rewrite Nd, Rmult_1_r. apply Rmult_le_pos; [apply Rlt_le, Fr; exact Hiso|]. unfold get_total_cross_section in Emi. rewrite En in Emi. rb Emi as rs Ers. rb Emi as l' El'. apply Ok_inj in Emi. subst micro.
    apply fsum_nonneg. apply Forall_forall. intros z' Hz'. destruct (rmap_In _ _ _ El' _ Hz') as (r' & Hr' & E'). rewrite Forall_forall in HF. specialize (HF _ (vec_get_in _ _ _ Ers)). rewrite Forall_forall in HF.
    destruct (HF _ Hr') as (HP & _). rewrite Forall_forall in HP. apply HP. eapply vec_get_in; eauto.
  - exists mat. split; [exact Emat|]. rewrite En, Eiso. split.
    + unfold material_data. apply Forall_forall. intros iso Hiso. pose proof (Fr iso Hiso) as Hpf. split; [change (F Rops) with R in * ; lra|].
      destruct (Sm iso Hiso) as (rs & nu & Ers & (_ & Hmix & _) & _). exists rs. split; [exact Ers|]. apply Forall_forall. intros r Hr. apply In_nth_error in Hr. destruct Hr as (k & Hk).
      destruct (Hmix k r Hk) as (_ & _ & Ln). rewrite Ln, Ee. lia.
    + apply Forall_forall. intros (iso & r) Hpr. unfold partners in Hpr. apply in_flat_map in Hpr. destruct Hpr as (iso' & Hiso & Hpr).
      destruct (nth_error (nd_isotopes nd) (N.to_nat (iso_gid iso'))) as [rs|] eqn:Ers; [|destruct Hpr]. apply in_map_iff in Hpr. destruct Hpr as (r' & Epr & Hr). injection Epr as <- <-.
      unfold sigma. cbn [fst snd]. rewrite Nd, Rmult_1_r. apply Rmult_le_pos; [apply Rlt_le, Fr; exact Hiso|].
      rewrite Forall_forall in HF. specialize (HF _ (nth_error_In _ _ Ers)). rewrite Forall_forall in HF. destruct (HF _ Hr) as (HP & _).
      destruct (nth_in_or_default (N.to_nat group) (r_cross_section r') (0 : R)) as [Hn|Hn]; [|rewrite Hn; lra]. rewrite Forall_forall in HP. apply HP. exact Hn.
Qed.

Lemma problem_answered : answered (mc_track md) dom.
Proof.
  constructor.
  - destruct problem_materials as (nd & -> & _ & -> & _). pose proof (energies_count (K := Rops) (si_n_groups s) (si_e_min s) (si_e_max s)) as Ct. pose proof (ph_groups _ Hphys) as Hg. fold s in Hg. lia.
  - intros cell cs group xs Ecs H. destruct (problem_answers cell cs group xs Ecs H) as (A & B & _ & C). auto.
Qed.

(** There are finitely many cells and groups. *)
Lemma problem_bounded : exists X, 1 <= X /\ no_denser (mc_track md) dom X.
Proof.
  set (val := fun cell group => match cell_cross_section (K := Rops) (mc_track md) dom cell group with Ok x => x | _ => (0 : R) end).
  set (all := flat_map (fun cell => map (val cell) (nrange 0 (N.to_nat (si_n_groups s)))) (nrange 0 (List.length (d_cells dom)))).
  assert (Hall : Forall (fun x : R => 0 <= x) all).
  { apply Forall_forall. intros x Hx. unfold all in Hx. apply in_flat_map in Hx. destruct Hx as (cell & _ & Hx). apply in_map_iff in Hx. destruct Hx as (group & <- & _). unfold val.
    destruct (cell_cross_section (mc_track md) dom cell group) as [x| |] eqn:E; [|lra|lra]. eapply problem_total; eauto. }
  exists (1 + Rsum all). pose proof (Rsum_nonneg all Hall) as Hs0. split; [lra|]. intros cell group xs H. pose proof H as H'. unfold cell_cross_section in H'. rb H' as cs Ecs.
  destruct (problem_answers cell cs group xs Ecs H) as (A & _ & Hg & _). split; [lra|]. assert (Hin : In xs all).
  { unfold all. apply in_flat_map. exists cell. split.
    - apply In_nrange. apply vec_get_nth in Ecs. assert (N.to_nat cell < List.length (d_cells dom))%nat by (apply nth_error_Some; rewrite Ecs; discriminate). lia.
    - apply in_map_iff. exists group. split; [unfold val; rewrite H; reflexivity|]. apply In_nrange. lia. }
  pose proof (Rsum_ge all xs Hall Hin). change (F Rops) with R in * . lra.
Qed.

Lemma problem_returns : has_source md dom -> (0 < threads)%N \/ si_chunk_size s <> 0%N -> exists enough, forall fuel cf, (enough <= fuel)%nat -> (2 <= cf)%nat ->
  (forall n u c, about_to_track fuel cf md dom n u c -> Forall (starts_regular g (mc_track md) (u_domain u)) (processing c)) ->
  (exists q, core_loop fuel cf md (initial_sim md dom) (Ok q)) /\ forall r, core_loop fuel cf md (initial_sim md dom) r -> exists q, r = Ok q.
Proof.
  intros Hsrc Ht. destruct problem_bounded as (X & HX & Hb). destruct problem_materials as (nd & _ & Edt & _).
  destruct (problem_policy p md0 threads Hinit Hsizes Ht) as (P1 & P2). destruct (problem_indexed p md0 threads bc pt dom Hphys Hinit Hnamed D) as (I1 & I2).
  set (T := most_segments g X (td_dt (mc_track md))). assert (He : exists n, T < INR n).
  { exists (Z.to_nat (Rdefinitions.up T)). destruct (archimed T) as (H & _). apply Rlt_le_trans with (1 := H). destruct (Z_le_gt_dec 0 (Rdefinitions.up T)) as [P|P].
    - rewrite INR_IZR_INZ, Z2Nat.id by exact P. lra.
    - apply Rle_trans with 0; [apply IZR_le; lia|apply pos_INR]. }
  destruct He as (enough & He). exists enough. intros fuel cf Hf Hcf Hreg.
  apply (run_comes_back g bc pt (pa_geom p) (td_mats (mc_track md0)) dom in_range md X fuel cf D (problem_sized p Hsizes) problem_fits problem_heavy); auto.
  - rewrite Edt. exact (ph_dt _ Hphys).
  - exact problem_range.
  - intros e Hr. apply Hr.
  - exact (problem_values p md0 threads bc pt dom Hphys Hinit Hnamed Hsizes D Hsrc).
  - exact problem_answered.
  - fold T. apply Rlt_le_trans with (1 := He). apply le_INR. exact Hf.
Qed.
End Problem.

(** ** The whole program *)
Lemma program_returns real yaml : (forall text b, yaml text = Some b -> distinct_keys b) -> forall read order threads (c : cli Rops) (p : params Rops),
  any_order order -> get_parameters real yaml read c = Ok (inl p) -> sane_sizes (pa_sim p) -> physical p -> geometry_everywhere (pa_sim p) (pa_geom p) ->
  requested (si_boundary_condition (pa_sim p)) 0 <> None -> Forall (fun e : string * material_params Rops => reacts (snd e)) (pa_mats p) ->
  (0 < threads)%N \/ si_chunk_size (pa_sim p) <> 0%N ->
  exists md dom, set_up real yaml read order threads c = Ok (Some (md, dom)) /\
  (has_source md dom -> exists enough, forall fuel cf, (enough <= fuel)%nat -> (2 <= cf)%nat ->
    (forall n u q, about_to_track fuel cf md dom n u q ->
       Forall (starts_regular (grid_new (K := Rops) (dims_of (pa_sim p)) (si_lx (pa_sim p)) (si_ly (pa_sim p)) (si_lz (pa_sim p))) (mc_track md) (u_domain u)) (processing q)) ->
    (exists s, program real yaml fuel cf read order threads c (Ok (Some s))) /\
    forall r, program real yaml fuel cf read order threads c r -> exists s, r = Ok (Some s)).
Proof.
  intros Hy read order threads c p Ho Ep Hs Hp Hg Hb Hr Ht.
  destruct (program_set_up real yaml Hy read order threads c p Ho Ep Hs Hp Hg Hb) as (md0 & dom & pt & Hi & W & Es & D).
  exists (set_threads threads md0), dom. split; [exact Es|]. intros Hsrc.
  destruct (problem_returns p md0 threads _ pt dom Hp Hi W Hs D Hr Hsrc Ht) as (enough & HE). exists enough. intros fuel cf Hf Hcf Hreg.
  destruct (HE fuel cf Hf Hcf Hreg) as ((s & Hrun) & Hall). split.
  - exists s. exact (pg_run real yaml fuel cf read order threads c _ _ (Ok s) Es Hrun).
  - intros r H. inversion H as [md dom' q E T|E|E|E]; subst; try congruence. rewrite Es in E. apply Ok_inj in E. injection E as <- <-.
    destruct (Hall q T) as (s' & ->). exists s'. reflexivity.
Qed.
