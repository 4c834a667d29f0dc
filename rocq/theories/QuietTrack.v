(** The tracks of the run of QuietRun.v, and the run (C04, C39, C59). *)
From Coq Require Import NArith ZArith QArith Qreals List Bool String Reals Lra Lia Psatz Permutation Sorted.
From Flocq Require Import Core.Raux.
From Verif Require Import Float RealOps RngModel ParticleModel NuclearModel MeshTypes Balance TrackModel CycleModel GridModel MeshModel GridSpec GridLemmas
  FloodLemmas MeshFacts MeshSpec MeshTheorems WellBuilt TrackSpec TrackAccount CycleSpec CycleFacts CycleAccount ScheduleLemmas PopSpec SortLemmas SourceLemmas PopLemmas SourceCount PopDemo SegmentSpec NearestLemmas FacetLemmas
  SegmentFacts SegmentDefined SegmentDemo CrossingLemmas NuclearSpec NuclearFacts NuclearReal NuclearIeee GeomSpec GeomLemmas PlaneLemmas SourcePoint GeomDemo StaySpec StayLemmas StaySteps
  StayRun StayDemo QuietRun QuietSteps.
Import ListNotations.
Local Open Scope R_scope.

Lemma run_seq_pbind {K : FloatOps} {A B} ng (p : prog K A) (k : A -> prog K B) : forall m,
  run_seq ng (pbind p k) m = (do (a, m') <- run_seq ng p m ; run_seq ng (k a) m').
Proof.
  induction p as [a| | |c g f IH|c g v q IH|c g v q IH]; intros m; cbn [pbind run_seq rbind]; try reflexivity; destruct (vec_get _ _); cbn [rbind]; auto.
Qed.

Lemma relativistic (e M : R) : 0 < e -> 0 < M -> sqrt (e * (e + (1 + 1) * M) / ((e + M) * (e + M))) <= 1.
Proof.
  intros He HM. apply Rle_trans with (sqrt 1); [|rewrite sqrt_1; lra]. apply sqrt_le_1_alt. apply Rmult_le_reg_r with ((e + M) * (e + M)); [nra|].
  unfold Rdiv. rewrite Rmult_assoc, Rinv_l by nra. nra.
Qed.
Lemma quiet_speed (p : particle Rops) : 0 < p_kinetic_energy p -> get_speed p <= 30000000000.
Proof.
  intros He. unfold get_speed, light_speed, neutron_mass_energy, ftwo. cbv zeta. cbn [fmul Float.fsqrt Rops flit fadd f1 fdiv].
  assert (HM : 0 < Q2R (939565 # 1000)) by (unfold Q2R; cbn; lra).
  pose proof (relativistic _ _ He HM) as H. replace (1 + 1) with (Q2R 2) in H by (unfold Q2R; cbn; lra).
  assert (C : 0 <= Q2R (29979200000 # 1) <= 30000000000) by (unfold Q2R; cbn; lra).
  eapply Rle_trans; [apply Rmult_le_compat_l; [apply C|exact H]|]. rewrite Rmult_1_r. apply C.
Qed.

Lemma quiet_group (e : R) : 1 <= e <= 20 -> exists g, get_energy_groups quiet_nd e = Ok g /\ (g < 3)%N.
Proof.
  intros He. destruct (lookupR quiet_nd e 1 20) as (_ & H).
  - cbn. lia.
  - unfold quiet_nd, increasing. cbn [nd_energies]. repeat constructor; lra.
  - reflexivity.
  - reflexivity.
  - destruct (H He) as (g & E & Hg & _). exists g. split; [exact E|]. unfold in_group in Hg. cbn [nd_energies quiet_nd List.length] in Hg. 
    destruct Hg as (a & b & _ & Hb & _).
    assert (nth_error [(1 : R); (5 : R); (10 : R); (20 : R)] (S (N.to_nat g)) <> None) by (rewrite Hb; discriminate).
    apply nth_error_Some in H0. cbn [List.length] in H0. lia.
Qed.

Section Quiet.
Variables (pt : partition) (dom d : domain Rops).
Hypothesis D : built_domain box "octant" pt box_geoms box_mats dom.
Hypothesis Sd : sourced_domain dom d.

Lemma calm_prepared p : calm pt p -> exists q, prepare_particle quiet_td p = Ok q /\ calm pt q /\ (p_energy_group q < 3)%N.
Proof.
  intros (Hc & Hu & Ht & Hn & Hs & He & Hv & Hi). destruct (quiet_group _ He) as (g & Eg & Hg). destruct quiet_dt_small as (Hq & _).
  unfold prepare_particle. cbv zeta. set (p1 := if fle (p_time_to_census p) f0 then _ else p).
  assert (E1 : p_kinetic_energy (set_age p1 (fmax (p_age p1) f0)) = p_kinetic_energy p) by (unfold p1; destruct (fle _ _); reflexivity).
  rewrite E1. change (td_nuclear quiet_td) with quiet_nd. rewrite Eg. cbn [rbind]. eexists. split; [reflexivity|]. split; [|exact Hg].
  unfold p1. cbn [fle f0 Rops]. unfold Rleb. destruct (Rle_dec (p_time_to_census p) 0) as [H|H].
  - repeat (split; [assumption|]). split; [|repeat (split; [assumption|]); assumption].
    change (0 <= (p_time_to_census p : R) + quiet_dt <= quiet_dt). lra.
  - repeat (split; [assumption|]). assumption.
Qed.

Lemma calm_segment q : calm pt q -> exists q', outcome_after d q (get_speed q) false (0 : R) = Ok (OutCensus, q') /\
  off_faces box (p_coordinate q') /\ is_valid q' = true.
Proof.
  intros ((c & L & Hd) & Hu & Ht & Hn & Hs & He & Hv & Hi). destruct Sd as (Em & Lc & _).
  pose proof (domain_mesh _ _ _ _ _ _ D) as B0. assert (B : built box "octant" pt (d_mesh d)) by (rewrite Em; exact B0).
  destruct (built_complete _ _ _ _ B) as (Cg & Ln). change (N.to_nat (total_cells (g_dims box))) with 24%nat in Ln. pose proof mu_pos as Hm.
  assert (Hsp : 0 < get_speed q) by (apply speed_pos; change (F Rops) with R in * ; lra).
  pose proof (quiet_speed q ltac:(change (F Rops) with R in * ; lra)) as Hsp'.
  destruct (outcome_defined d q (get_speed q) false 0 Cg) as (o & q' & Ho); [rewrite Ln; exact Hi|apply Rlt_le; exact Hsp|apply Rle_refl|split; [apply Ht|lra]|].
  destruct (outcome_first _ _ _ _ _ _ Ho) as (n & ds & k & df & Hpl & Hds & Hch & Hfe & _ & Hco).
  assert (Hin : in_cell box (cell_idx_to_tuple (g_dims box) c) (p_coordinate q)) by (eapply deep_in; [|exact Hd]; lra).
  pose proof (deep_off_faces _ _ _ _ box_sized Hm Hd) as Hoff.
  destruct (nearest_exit box "octant" pt (d_mesh d) (N.to_nat (p_cell q)) c B box_sized box_fits L q ds k df) as (_ & Hdf & Hlv);
    [symmetry; apply Nnat.N2Nat.id|exact Hin|apply off_faces_stays; exact Hoff|exact Hu|exact Hds|exact Hch|].
  assert (Hdf' : mu <= df).
  { destruct Hlv as (Hf & _ & Hz & _). rewrite beyond_along in Hz. pose proof (Hd _ Hf) as Hb. pose proof (dot_outward (p_direction q) _ Hu Hf) as Hdo.
    set (e1 := beyond _ _ _ _) in * . set (e2 := dot _ _) in * . clearbody e1 e2. nra. }
  assert (Hnn : mu <= n).
  { destruct Hpl as [(_ & ->)|(E0 & _)]; [exact Hn|]. exfalso. change (F Rops) with R in * . lra. }
  destruct quiet_dt_small as (Hq & Hq'). set (dz := get_speed q * p_time_to_census q) in * .
  assert (Hdz : 0 <= dz < mu / 4).
  { unfold dz. change (F Rops) with R in * . split; [apply Rmult_le_pos; lra|]. apply Rle_lt_trans with (2 := Hq').
    rewrite Rmult_comm. apply Rmult_le_compat; lra. }
  assert (Hcz : dz < Rmin huge (n * mean_path 0)).
  { pose proof huge_large as Hh. unfold mean_path. destruct (Req_EM_T 0 0) as [_|C]; [|contradiction]. apply Rmin_glb_lt; [|nra].
    assert (mu <= 1); [|lra]. unfold mu. pose proof W_pos. rewrite <- Rinv_1. apply Rinv_le_contravar; [lra|]. unfold W. apply IZR_le. vm_compute. discriminate. }
  assert (Eo : o = OutCensus /\ p_segment_path_length q' = dz).
  { destruct o; cbn [first_event] in Hfe; [lra|lra|split; [reflexivity|apply Hfe]]. }
  destruct Eo as (-> & Ed). exists q'. split; [exact Ho|]. split.
  - rewrite Hco; [|apply Hdf|rewrite Hs; lra]. rewrite Ed. eapply deep_off_faces; [exact box_sized| |eapply deep_along; [exact Hu|apply Hdz|exact Hd]]. lra.
  - unfold is_valid in * . rewrite (outcome_after_species _ _ _ _ _ _ _ Ho). exact Hv.
Qed.

Lemma quiet_xs c g : (c < 24)%N -> cell_cross_section quiet_td d c g = Ok (0 : R).
Proof.
  intros Hc. destruct Sd as (_ & Lc & Hm). unfold cell_cross_section, vec_get. destruct (nth_error (d_cells d) (N.to_nat c)) as [cs|] eqn:E.
  - cbn [unwrap rbind]. rewrite Forall_forall in Hm. rewrite (proj1 (Hm cs (nth_error_In _ _ E))). reflexivity.
  - apply nth_error_None in E. lia.
Qed.

Lemma set_repeat {A} (x : A) n : forall i, list_set (repeat x n) i x = repeat x n.
Proof. induction n as [|n IH]; intros [|i]; cbn [repeat list_set]; [reflexivity|reflexivity|reflexivity|rewrite IH; reflexivity]. Qed.

Lemma slot_in (l : list (F Rops)) c g : List.length l = 72%nat -> (c < 24)%N -> (g < 3)%N -> exists x, vec_get l (slot 3 c g) = Ok x.
Proof.
  intros Hl Hc Hg. unfold vec_get, slot. destruct (nth_error l _) as [x|] eqn:E; [eexists; reflexivity|]. apply nth_error_None in E. lia.
Qed.

Lemma quiet_slice fuel cf : forall ps b fl, Forall (calm pt) ps -> List.length fl = 72%nat ->
  exists ps' b' fl' hs, run_seq 3 (track_slice (S fuel) cf quiet_td d ps b []) (mkMem (K := Rops) (repeat f0 72) fl) = Ok ((ps', b', []), mkMem (repeat f0 72) fl') /\
    slice_log quiet_td d ps hs ps' [] /\ Forall (clean box) hs /\ Forall (fun p => is_valid p = true) ps' /\ List.length ps' = List.length ps /\ List.length hs = List.length ps /\
    (forall p e q, In (Flew p e q) hs -> e = SegCensus).
Proof.
  induction ps as [|p ps IH]; intros b fl Hp Hfl.
  - exists [], b, fl, []. do 6 (split; [first [reflexivity|constructor]|]). intros ? ? ? [].
  - destruct (calm_prepared p (Forall_inv Hp)) as (q & Eq & Hq & Hg). destruct (calm_segment q Hq) as (q' & Ho & Hoff & Hv).
    pose proof Hq as (_ & _ & _ & Hn & _ & _ & _ & Hi). pose proof mu_pos as Hm.
    assert (Hout : out_of_paths q = false) by (unfold out_of_paths; cbn [flt f0 Rops]; apply Rltb_false; change (F Rops) with R in * ; lra).
    destruct (outcome_after_place _ _ _ _ _ _ _ Ho) as (Pc & Pg).
    destruct (slot_in fl (p_cell q) (p_energy_group q) Hfl Hi Hg) as (old & Eold).
    set (q2 := set_num_segments q' (fadd (p_num_segments q') f1)).
    set (fl1 := list_set fl (N.to_nat (slot 3 (p_cell q) (p_energy_group q))) (fadd (old : F Rops) (fmul (p_segment_path_length q2) (p_weight q2)))).
    destruct (IH (binc (binc b ENumSegments 1) ECensus 1) fl1 (Forall_inv_tail Hp)) as (ps' & b' & fl' & hs & E & Hl & Hc & Hvs & Hlen & Hlh & Hcen).
    { unfold fl1. rewrite length_list_set. exact Hfl. }
    exists (q2 :: ps'), b', fl', ([Flew q SegCensus q2] ++ hs). split; [|split; [|split; [|split; [|split; [|split]]]]].
    + cbn [track_slice]. unfold cycle_tracking_guts. rewrite Eq. cbn [lift pbind cycle_tracking_function]. unfold track_step, outcome.
      fold (out_of_paths q). rewrite Hout. unfold get_xs. cbn [pbind run_seq].
      destruct (slot_in (repeat (f0 : F Rops) 72) (p_cell q) (p_energy_group q) (repeat_length _ _) Hi Hg) as (z & Ez).
      cbn [m_cache]. rewrite Ez. cbn [rbind]. assert (Z0 : z = (0 : R)).
      { unfold vec_get in Ez. destruct (nth_error _ _) as [y|] eqn:Ey; [|discriminate Ez]. cbn [unwrap] in Ez. apply Ok_inj in Ez. subst z. apply nth_error_In, repeat_spec in Ey. exact Ey. }
      subst z. replace (flt (f0 : F Rops) (0 : R)) with false by (symmetry; apply Rltb_false; apply Rle_refl). rewrite quiet_xs by exact Hi. cbn [lift pbind run_seq m_cache]. rewrite Ez. cbn [rbind m_cache m_flux].
      rewrite Ho. cbn [lift pbind run_seq m_cache m_flux after_segment rbind]. 
      change (p_cell (set_num_segments q' (fadd (p_num_segments q') f1))) with (p_cell q'). change (p_energy_group (set_num_segments q' (fadd (p_num_segments q') f1))) with (p_energy_group q').
      rewrite Pc, Pg, Eold. cbn [rbind]. rewrite set_repeat. fold q2. fold fl1. rewrite run_seq_pbind.
      change (repeat (0 : R) 72) with (repeat (f0 : F Rops) 72). rewrite E. reflexivity.
    + change (@nil (particle Rops)) with (@nil (particle Rops) ++ []). eapply sl_cons; [exact Eq| |exact Hl]. apply tl_last. eapply (ss_census quiet_td d q (0 : R)).
      rewrite Hout. unfold entering. rewrite Hout. exact Ho.
    + cbn [app]. constructor; [exact Hoff|exact Hc].
    + constructor; [exact Hv|exact Hvs].
    + cbn [List.length]. rewrite Hlen. reflexivity.
    + cbn [List.length app]. rewrite Hlh. reflexivity.
    + intros x e y [Hx|Hx]; [injection Hx; intros; subst; reflexivity|exact (Hcen _ _ _ Hx)].
Qed.
End Quiet.

Lemma all_kept {A} (f : A -> bool) l : Forall (fun x => f x = true) l -> filter f l = l.
Proof. induction 1 as [|x l E _ IH]; cbn [filter]; [reflexivity|]. rewrite E, IH. reflexivity. Qed.

(** None of the particles is light: all survive population control. *)
Lemma quiet_population s u0 c0 u c : source_now quiet_md (s_source_weight s) (s_unit s) (s_cont s) = Ok (u0, c0) ->
  population_phase quiet_md s = Ok (u, c) -> extra_particles (s_cont s) = [] -> List.length (processing c0) = 24%nat ->
  Forall (fun p : particle Rops => 0 < p_weight p) (processing c0) ->
  u_domain u = u_domain u0 /\ u_mem u = u_mem u0 /\ (24 <= List.length (processing c))%nat.
Proof.
  intros Hs H He Hl Hw. unfold population_phase in H. rewrite Hs in H. cbn [rbind] in H.
  assert (He0 : extra_particles c0 = []).
  { unfold source_now in Hs. rb Hs as rates Er. rb Hs as [[cells k] new] Ec. injection Hs; intros; subst. exact He. }
  rb H as f Hf. assert (Ef : f = (240 / 24 : R)).
  { unfold compute_split_factor in Hf. rewrite Hl in Hf. cbn [mc_params quiet_md sp_load_balance sp_n_particles mc_exec ei_n_units] in Hf.
    change (negb (N.of_nat 24 =? 0)%N) with true in Hf. cbv iota in Hf. cbn [fto_usize fceil fdiv fof_N Rops] in Hf.
    change (IZR (Z.of_N 1)) with 1 in Hf. unfold Rdiv at 1 in Hf. rewrite Rinv_1, Rmult_1_r, Zceil_IZR, Rto_usize_Z in Hf by (vm_compute; split; [discriminate|reflexivity]).
    apply Ok_inj in Hf. symmetry. exact Hf. }
  assert (Ef1 : flt f f1 = false) by (rewrite Ef; apply Rltb_false; cbn; lra). assert (Ef2 : flt f1 f = true) by (rewrite Ef; apply Rltb_iff; cbn; lra).
  rewrite Ef1, Ef2 in H. rb H as [c1 b1] Hsp. apply Ok_inj in H. injection H as <- <-. split; [reflexivity|]. split; [reflexivity|].
  destruct (split_population_outcome _ _ _ _ _ _ _ Hsp) as (qs & ll & S & L1 & L2 & -> & _).
  rewrite flat_map_app, app_length. apply Nat.le_trans with (List.length (flat_map (low_weight_roulette (sp_low_weight_cutoff (mc_params quiet_md)) (s_source_weight s)) qs)); [|lia].
  rewrite <- Hl, <- L1. assert (Hq : Forall (fun p : particle Rops => 0 < p_weight p) qs).
  { clear - S L1 L2 Hw Ef. revert qs ll S L1 L2. induction (processing c0) as [|p l IH]; intros qs ll S L1 L2; destruct qs as [|q qs], ll as [|x ll]; try discriminate L1; try discriminate L2; [constructor|].
    cbn [combine] in S. inversion S as [|? ? ? ? Hsp S']; subst. constructor.
    - destruct Hsp as (Hall & _). pose proof (proj2 (Forall_inv Hall)) as Eq. cbn [fst] in Eq. rewrite Eq. cbn [fdiv Rops]. pose proof (Forall_inv Hw) as Hp. cbv beta in Hp.
      apply Rmult_lt_0_compat; [exact Hp|]. apply Rinv_0_lt_compat. lra.
    - eapply IH; [exact (Forall_inv_tail Hw)|exact S'|cbn in L1; lia|cbn in L2; lia]. }
  clear - Hq. induction Hq as [|q qs H _ IH]; cbn [flat_map List.length]; [lia|]. rewrite app_length. unfold low_weight_roulette at 1.
  replace (fle (p_weight q) _) with false; [cbn [List.length]; lia|]. symmetry. cbn [fle fmul mc_params quiet_md sp_low_weight_cutoff Rops]. apply Rleb_false. rewrite Rmult_0_l. exact H.
Qed.

(** The run: one cycle, in which nothing happens on a face. *)
Lemma quiet_run fuel cf pt dom : built_domain box "octant" pt box_geoms box_mats dom ->
  exists s hs, run_log (S fuel) cf quiet_md dom 1 s hs /\ Forall (clean box) hs /\ (48 <= List.length hs)%nat /\ (24 <= List.length (processed (s_cont s)))%nat /\
    Forall (fun cs : cell_state Rops => (cs_source_tally cs <= 2 ^ 32)%N) (d_cells (u_domain (s_unit s))) /\
    Forall (fun cs : cell_state Rops => cs_material cs = 0%N) (d_cells (u_domain (s_unit s))) /\
    exists ps, run_sourced (S fuel) cf quiet_md dom 1 s ps /\ List.length ps = 24%nat /\ (forall p e q, In (Flew p e q) hs -> e = SegCensus).
Proof.
  intros D. destruct (quiet_source pt dom D) as (s1 & u0 & c0 & Hsync & Hsrc & Econt & (Em1 & Em2) & Hb & Hl & Hcalm & Hw & Sd).
  assert (He : extra_particles (s_cont s1) = []) by (rewrite Econt; reflexivity).
  destruct (population_defined quiet_md s1 u0 c0 eq_refl) as (u & c & Hpop); [reflexivity|exact Hsrc|unfold current_number; cbn [mc_params quiet_md sp_load_balance]; rewrite Hl; reflexivity|].
  destruct (quiet_population _ _ _ _ _ Hsrc Hpop He Hl Hw) as (Eu & Emem & Hn).
  pose proof (population_from (calm pt) _ _ _ _ _ _ (calm_same pt) Hsrc Hpop He Hcalm) as Hc.
  assert (Hb' : forall k, bget (u_balance (s_unit s1)) k = if tallied_event_eq_dec k EStart then N.of_nat (List.length (processing (s_cont s1))) else 0%N) by (rewrite Econt; exact Hb).
  destruct (population_ok _ _ _ _ Hpop He ltac:(rewrite Econt; constructor) Hb') as (src & _ & _ & Ec & Ep & _ & _ & _ & _ & _ & Eum).
  assert (Sd' : sourced_domain dom (u_domain u)) by (rewrite Eu; exact Sd).
  pose proof (sort_particles_perm (processing c)) as Pm.
  destruct (quiet_slice pt dom (u_domain u) D Sd' fuel cf (sort_particles (processing c)) balance_zero (repeat f0 72)) as (ps' & b' & fl' & hs & E & Hlog & Hcl & Hv & Hlen & Hlh & Hcen).
  { exact (Permutation_Forall Pm Hc). }
  { apply repeat_length. }
  set (u' := mkUnit (K := Rops) (u_domain u) (badd (u_balance u) b') (mkMem (K := Rops) (repeat f0 72) fl') (u_weight u)).
  set (c' := mkContainer (K := Rops) [] ps' []).
  assert (Hu : u_mem u = mkMem (K := Rops) (repeat f0 72) (repeat f0 72)).
  { rewrite Eum. destruct (u_mem (s_unit s1)) as [ca fl]. cbn [m_cache m_flux] in Em1, Em2. rewrite Em1, Em2. reflexivity. }
  assert (Htr : tracking_rounds (S fuel) cf quiet_md u c (Ok (u', c'))).
  { apply tr_more with u' c'.
    - unfold is_done_processing. rewrite Ec. destruct (processing c); [cbn in Hn; lia|reflexivity].
    - pose proof (pp_seq (S fuel) cf quiet_md u (sort_processing c) _ (or_introl eq_refl) eq_refl) as P.
      cbn [sort_processing processing extra_particles] in P. rewrite Ec, Hu in P. change (sp_n_groups (mc_params quiet_md)) with 3%N in P. change (mc_track quiet_md) with quiet_td in P.
      rewrite E in P. cbn [rbind] in P. unfold finish_processing in P. change (processed (sort_processing c)) with (processed c) in P. rewrite Ep, Econt in P. cbn [processed app] in P. rewrite (all_kept _ _ Hv) in P. exact P.
    - apply tr_done. reflexivity. }
  set (s2 := mkSim (K := Rops) u' c' (s_results s1) (s_source_weight s1) (s_global_n s1) (s_reports s1)).
  exists s2, ([] ++ map Born (processing c0) ++ (hs ++ [])). split; [|split; [|split; [|split; [|split; [|split]]]]].
  - change 1%N with (N.succ 0). eapply lg_cycle; [apply lg_start|exact Hsync|exact Hsrc|rewrite Econt; reflexivity|exact Hpop|exact (cp_run _ _ _ _ _ _ _ Hpop Htr)|].
    change (processed (s_cont s2)) with ps'. rewrite <- (all_kept _ _ Hv). rewrite <- (app_nil_r (filter is_valid ps')).
    eapply rl_more; [exact Pm|exact Hlog|apply Permutation_refl|apply rl_done].
  - cbn [app]. rewrite app_nil_r. apply Forall_app. split; [|exact Hcl]. pose proof mu_pos as Hm. clear - Hcalm Hm. induction Hcalm as [|p l ((k & _ & Hd) & _) _ IH]; cbn [map]; constructor; [|exact IH].
    exact (deep_off_faces _ _ _ _ box_sized Hm Hd).
  - cbn [app]. rewrite app_nil_r, app_length, map_length, Hl, Hlh, <- (Permutation_length Pm). lia.
  - change (processed (s_cont s2)) with ps'. rewrite Hlen, <- (Permutation_length Pm). exact Hn.
  - destruct Sd' as (_ & _ & Ht). eapply Forall_impl; [|exact Ht]. intros cs (_ & E1). rewrite E1. vm_compute. discriminate.
  - destruct Sd' as (_ & _ & Ht). eapply Forall_impl; [|exact Ht]. intros cs (E0 & _). exact E0.
  - exists ([] ++ processing c0). split; [|split; [exact Hl|]].
    2: { cbn [app]. rewrite app_nil_r. intros p e q Hin. apply in_app_or in Hin. destruct Hin as [Hin|Hin]; [|exact (Hcen _ _ _ Hin)].
         apply in_map_iff in Hin as (x & Ex & _). discriminate Ex. }
    change 1%N with (N.succ 0).
    eapply so_cycle; [apply so_start|exact Hsync|exact Hsrc|rewrite Econt; reflexivity|exact (cp_run _ _ _ _ _ _ _ Hpop Htr)].
Qed.
