(** Weights and flux along a run. *)
From Coq Require Import NArith ZArith List Bool Lia Reals Lra Permutation.
From Flocq Require Import Core.
From Verif Require Import Float RealOps RngModel ParticleModel NuclearModel MeshTypes Balance TrackModel CycleModel
  ProgLemmas TrackSpec CycleSpec TrackAccount CycleAccount SegmentFacts PopSpec SegmentSpec GeomSpec StaySpec SpeedSpec SourceLemmas PopLemmas SourceCount StayRun
  ScheduleSpec RangeSpec ScheduleFacts ScheduleRun PopDemo WeightSpec WeightFacts.
Import ListNotations.
Local Open Scope R_scope.

(** ** The weight of the source *)
Definition weighty (p : particle Rops) : Prop := 0 < p_weight p.

Lemma sourced_weight {K : FloatOps} (md : mcdata K) w dom c v x p : source_particle md w dom c v x = Ok p -> p_weight p = w.
Proof.
  unfold source_particle. destruct (spawn_rn_seed x) as [s y]. intros H. rb H as [co q] E. cbv zeta in H.
  unfold sample_num_mfp, sample_isotropic in H. cbn [draw] in H. cbv zeta in H. apply Ok_inj in H. subst p. reflexivity.
Qed.
Lemma cells_weight {K : FloatOps} (md : mcdata K) w rates dom : forall cells i cells' n ps,
  source_cells md w rates dom i cells = Ok (cells', n, ps) -> Forall (fun p => p_weight p = w) ps.
Proof.
  induction cells as [|cs cells IH]; intros i cells' n ps H; cbn [source_cells] in H.
  - injection H; intros; subst ps. constructor.
  - rb H as a Ek. rb H as ps1 E1. rb H as [[cells1 n1] ps2] E2. injection H; intros; subst ps.
    apply Forall_app. split; [|eapply IH; exact E2]. apply rmap_Forall2 in E1. clear - E1.
    induction E1 as [|x p xs ps1 E _ IH]; constructor; [exact (sourced_weight _ _ _ _ _ _ _ E)|exact IH].
Qed.
Lemma source_weights {K : FloatOps} (md : mcdata K) w u c u' c' new : source_now md w u c = Ok (u', c') -> processing c' = processing c ++ new ->
  Forall (fun p => p_weight p = w) new.
Proof.
  intros H Hn. unfold source_now in H. rb H as rates Er. rb H as [[cells n] ps] Ec. apply Ok_inj in H. injection H as <- <-.
  cbn [processing] in Hn. apply app_inv_head in Hn. subst ps. exact (cells_weight _ _ _ _ _ _ _ _ _ Ec).
Qed.
Lemma emission_same {K : FloatOps} (md : mcdata K) w u c u' c' xs : source_now md w u c = Ok (u', c') ->
  Forall2 (emits md) (d_cells (u_domain u)) xs -> Forall2 (emits md) (d_cells (u_domain u')) xs.
Proof.
  intros H. unfold source_now in H. rb H as rates Er. rb H as [[cells n] ps] Ec. apply Ok_inj in H. injection H as <- <-.
  cbn [u_domain set_cells d_cells]. destruct (source_cells_counted _ _ _ _ Er _ _ _ _ _ Ec) as (ns & Cn & _). clear - Cn. revert xs.
  induction Cn as [|cs cs' n x cells cells' ns _ _ Hh _ IH]; intros xs Hx; inversion Hx; subst; [constructor|]. constructor; [|apply IH; assumption].
  unfold has_emitted in Hh. subst cs'. exact H1.
Qed.

(** The source creates the weight that the materials emit, up to less than one particle per cell. *)
Theorem source_worth (md : mcdata Rops) (s s1 : sim Rops) (xs : list R) u c new :
  prepare_cycle md s = Ok s1 -> source_now md (s_source_weight s1) (s_unit s1) (s_cont s1) = Ok (u, c) ->
  processing c = processing (s_cont s1) ++ new ->
  Forall2 (emits md) (d_cells (u_domain (s_unit s))) xs -> Forall (fun x => 0 <= x) xs -> 0 < Rsum xs ->
  (0 < sp_n_particles (mc_params md) < 2 ^ 64)%N ->
  Forall (fun p : particle Rops => p_weight p = Rsum xs / (real_of (sp_n_particles (mc_params md)) / 10)) new /\
  weights new <= Rsum xs < weights new + INR (length xs) * (Rsum xs / (real_of (sp_n_particles (mc_params md)) / 10)).
Proof.
  intros Hp Hs Hnew Hx Hx0 Hpos Hn. destruct (prepared _ _ _ _ Hp Hx) as (_ & Ew). pose proof (source_weights _ _ _ _ _ _ _ Hs Hnew) as W. rewrite Ew in W.
  destruct (source_count _ _ _ _ _ _ Hp Hs Hx Hx0 Hpos Hn) as (ns & new' & _ & _ & _ & Hnew' & Hl & _ & B). rewrite Hnew' in Hnew. apply app_inv_head in Hnew. subst new'.
  change (IZR (Z.of_N (sp_n_particles (mc_params md)))) with (real_of (sp_n_particles (mc_params md))) in W, B, Ew.
  split; [exact W|]. rewrite (weights_same _ _ W). rewrite <- Hl in B. rewrite nat_N_Z, <- INR_IZR_INZ in B.
  assert (P : 0 < real_of (sp_n_particles (mc_params md)) / 10) by (unfold real_of; assert (0 < IZR (Z.of_N (sp_n_particles (mc_params md)))) by (apply IZR_lt; lia); lra).
  set (t := real_of _ / 10) in * . clearbody t. set (S := Rsum xs) in * . clearbody S. set (a := INR (length new)) in * . set (b := INR (length xs)) in * . clearbody a b.
  clear - P B Hpos. assert (Q : 0 < S / t) by (apply Rdiv_lt_0_compat; assumption).
  replace S with (t * (S / t)) at 2 3 by (field; lra). split; [apply Rmult_le_compat_r; lra|]. rewrite <- Rmult_plus_distr_r. apply Rmult_lt_compat_r; lra.
Qed.

(** ** Population control keeps weights positive *)
Lemma low_weight_weighty c w l : 0 < w -> Forall weighty l -> Forall weighty (flat_map (low_weight_roulette (K := Rops) c w) l).
Proof.
  intros Hw H. induction H as [|p l Hp H IH]; cbn [flat_map]; [constructor|]. apply Forall_app. split; [|exact IH]. unfold weighty in Hp.
  unfold low_weight_roulette. destruct (fle (p_weight p) _) eqn:E; [|constructor; [exact Hp|constructor]].
  destruct (fle (next_draw p) c); [|constructor]. constructor; [|constructor]. unfold weighty, reweighted. cbn [p_weight set_weight fdiv Rops].
  cbn [fle fmul Rops] in E. apply Rleb_iff in E. change (F Rops) with R in * . apply Rdiv_lt_0_compat; [exact Hp|]. nra.
Qed.
Lemma roulette_weighty f l : 0 < f -> Forall weighty l -> Forall weighty (flat_map (roulette (K := Rops) f) l).
Proof.
  intros Hw H. induction H as [|p l Hp H IH]; cbn [flat_map]; [constructor|]. apply Forall_app. split; [|exact IH]. unfold weighty in Hp.
  unfold roulette. destruct (flt _ _); [constructor|]. constructor; [|constructor]. unfold weighty, reweighted. cbn [p_weight set_weight fdiv Rops].
  apply Rdiv_lt_0_compat; assumption.
Qed.
Lemma split_weighty f l : 0 < f -> forall ps ll, Forall2 (fun p ql => is_split (K := Rops) f p (fst ql) (snd ql)) l (combine ps ll) ->
  length ps = length l -> length ll = length l -> Forall weighty l -> Forall weighty ps /\ Forall weighty (concat ll).
Proof.
  intros Hf. induction l as [|p l IH]; intros ps ll H L1 L2 W.
  - destruct ps; [|discriminate]. destruct ll; [|discriminate]. split; constructor.
  - destruct ps as [|q ps]; [discriminate|]. destruct ll as [|c ll]; [discriminate|]. cbn [combine] in H. cbn [length] in L1, L2.
    inversion H as [|? ? ? ? S1 S2]; subst. destruct (IH ps ll S2 ltac:(lia) ltac:(lia) (Forall_inv_tail W)) as (I1 & I2).
    cbn [fst snd] in S1. destruct S1 as (S1 & _). pose proof (Forall_inv W) as Wp. unfold weighty in Wp.
    assert (A : Forall weighty (q :: c)).
    { eapply Forall_impl; [|exact S1]. intros x (_ & E). unfold weighty. rewrite E. cbn [fdiv Rops]. apply Rdiv_lt_0_compat; assumption. }
    split; [constructor; [exact (Forall_inv A)|exact I1]|]. cbn [concat]. apply Forall_app. split; [exact (Forall_inv_tail A)|exact I2].
Qed.

Lemma population_weighty (md : mcdata Rops) (s : sim Rops) u0 c0 u c : ei_n_units (mc_exec md) = 1%N -> (0 < sp_n_particles (mc_params md) < 2 ^ 64)%N ->
  (0 < s_global_n s)%N -> 0 < s_source_weight s ->
  source_now md (s_source_weight s) (s_unit s) (s_cont s) = Ok (u0, c0) -> population_phase md s = Ok (u, c) ->
  extra_particles (s_cont s) = [] -> Forall weighty (processing c0) -> Forall weighty (processing c).
Proof.
  intros Hu Hn Hg Hw Hs H He W.
  assert (He0 : extra_particles c0 = []).
  { clear H. unfold source_now in Hs. rb Hs as rates Er. rb Hs as [[cells k] new] Ec. injection Hs; intros; subst. exact He. }
  destruct (N.eq_dec (current_number md s c0) 0) as [E0|E0].
  { unfold current_number in E0. destruct (sp_load_balance (mc_params md)) eqn:El; [|lia]. unfold population_phase in H. rewrite Hs in H. cbn [rbind] in H.
    unfold compute_split_factor in H. rewrite El, E0 in H. cbn [N.eqb negb rbind] in H.
    replace (flt (f1 : F Rops) f1) with false in H by (symmetry; apply Rltb_false, Rle_refl). apply Ok_inj in H. injection H as <- <-. exact W. }
  assert (Hc : (0 < current_number md s c0)%N) by lia. destruct (population_cases _ _ _ _ _ _ Hu (proj2 Hn) Hs Hc H) as (C1 & C2 & C3).
  assert (Hf : 0 < fdiv (fof_N (sp_n_particles (mc_params md))) (fof_N (current_number md s c0) : F Rops)).
  { cbn [fdiv fof_N Rops]. apply Rdiv_lt_0_compat; apply IZR_lt; lia. }
  destruct (N.lt_trichotomy (current_number md s c0) (sp_n_particles (mc_params md))) as [L|[L|L]].
  - destruct (C1 L) as (b & E & _). destruct (split_population_outcome _ _ _ _ _ _ _ E) as (qs & ll & S & L1 & L2 & -> & _).
    rewrite He0. cbn [app]. apply low_weight_weighty; [exact Hw|]. destruct (split_weighty _ _ Hf _ _ S L1 L2 W). apply Forall_app; auto.
  - destruct (C3 (eq_sym L)) as (_ & ->). exact W.
  - destruct (C2 L) as (b & E & _). pose proof (regulate_outcome c0 (fdiv (fof_N (sp_n_particles (mc_params md))) (fof_N (current_number md s c0) : F Rops)) (sp_low_weight_cutoff (mc_params md)) (s_source_weight s) (u_balance u0)) as R.
    rewrite E in R. cbn [fst] in R. rewrite R. apply low_weight_weighty; [exact Hw|]. apply roulette_weighty; [exact Hf|exact W].
Qed.

(** ** A run *)
Lemma track_weighty td dom p hs p' nx : track_log td dom p hs p' nx -> weighty p -> Forall happens_weighty hs /\ weighty p' /\ Forall weighty nx.
Proof.
  assert (K1 : forall (p q : particle Rops), weighty p -> p_weight q = p_weight p -> weighty q) by (unfold weighty; intros ? ? ? ->; assumption).
  induction 1 as [p e p' nx H|p e p1 nx1 hs p' nx2 H Hl IH]; intros W; pose proof (step_weight _ _ _ _ _ _ _ H) as S.
  - split; [constructor; [split; [exact W|exact (Forall_inv S)]|constructor]|]. split; [exact (K1 _ _ W (Forall_inv S))|].
    eapply Forall_impl; [|exact (Forall_inv_tail S)]. intros q. exact (K1 _ _ W).
  - destruct (IH (K1 _ _ W (Forall_inv S))) as (I1 & I2 & I3). split; [constructor; [split; [exact W|exact (Forall_inv S)]|exact I1]|]. split; [exact I2|].
    apply Forall_app. split; [|exact I3]. eapply Forall_impl; [|exact (Forall_inv_tail S)]. intros q. exact (K1 _ _ W).
Qed.
Lemma slice_weighty td dom ps hs ps' nxs : slice_log td dom ps hs ps' nxs -> Forall weighty ps -> Forall happens_weighty hs /\ Forall weighty ps' /\ Forall weighty nxs.
Proof.
  induction 1 as [|p q p' ps ps' h hs nx nxs Hp Ht Hl IH]; intros W; [repeat split; constructor|].
  destruct (IH (Forall_inv_tail W)) as (I1 & I2 & I3). destruct (prepared_weight _ _ _ Hp) as (Wq & _).
  destruct (track_weighty _ _ _ _ _ _ Ht) as (T1 & T2 & T3). { unfold weighty. rewrite Wq. exact (Forall_inv W). }
  split; [apply Forall_app; auto|]. split; [constructor; auto|apply Forall_app; auto].
Qed.
Lemma filter_Forall {A} (P : A -> Prop) f l : Forall P l -> Forall P (filter f l).
Proof. induction 1 as [|x l Hx _ IH]; cbn [filter]; [constructor|]. destruct (f x); auto. Qed.
Lemma rounds_weighty td dom ps hs kept' : rounds_log td dom ps hs kept' -> Forall weighty ps -> Forall happens_weighty hs /\ Forall weighty kept'.
Proof.
  induction 1 as [|ps ps0 ps1 h nxs next hs kept' Pm Hl Pm' Hr IH]; intros W; [split; constructor|].
  destruct (slice_weighty _ _ _ _ _ _ Hl (Permutation_Forall Pm W)) as (S1 & S2 & S3).
  destruct (IH (Permutation_Forall (Permutation_sym Pm') S3)) as (I1 & I2). split; apply Forall_app; split; auto using filter_Forall.
Qed.

Lemma sync_prepare md n s s1 : cycle_sync md n s = Ok s1 -> (n <= sp_n_steps (mc_params md))%N ->
  exists s0 : sim Rops, prepare_cycle md s0 = Ok s1 /\ u_domain (s_unit s0) = u_domain (s_unit s).
Proof.
  intros H Hn. pose proof (sync_cells _ _ _ _ H) as Hc. unfold cycle_sync in H. destruct (n =? 0)%N eqn:E0; [exists s; split; [exact H|reflexivity]|].
  rb H as s0 E. replace (n =? sp_n_steps (mc_params md) + 1)%N with false in H by (symmetry; apply N.eqb_neq; lia).
  exists s0. split; [exact H|]. rewrite <- Hc. unfold prepare_cycle in H. rb H as w Ew. rb H as k Ek. apply Ok_inj in H. subst s1. reflexivity.
Qed.

Theorem run_weighty fuel cf (md : mcdata Rops) dom n s hs xs : run_log fuel cf md dom n s hs -> (n <= sp_n_steps (mc_params md))%N ->
  ei_n_units (mc_exec md) = 1%N -> (10 <= sp_n_particles (mc_params md) < 2 ^ 64)%N ->
  Forall2 (emits md) (d_cells dom) xs -> 0 < Rsum xs ->
  Forall2 (emits md) (d_cells (u_domain (s_unit s))) xs /\ Forall happens_weighty hs /\ Forall weighty (processed (s_cont s)).
Proof.
  intros H Hn Hu Hp Hx Hpos. induction H as [|n s hs s1 u0 c0 born u c hs' s2 H IH Hsync Hsrc Hborn Hpop Hproc Hlog].
  - split; [exact Hx|]. split; constructor.
  - destruct (IH ltac:(lia)) as (I0 & I1 & I2).
    pose proof (run_steps_settled _ _ _ _ _ _ (log_run _ _ _ _ _ _ _ H) _ eq_refl ltac:(lia)) as St.
    destruct (sync_settled _ _ _ _ _ St Hsync ltac:(lia)) as ([He _ _ _] & Pr & _).
    destruct (sync_prepare _ _ _ _ Hsync ltac:(lia)) as (s0 & Hprep & Hdom). rewrite <- Hdom in I0.
    destruct (prepared _ _ _ _ Hprep I0) as (D1 & Ew). rewrite Hdom in D1, I0.
    assert (Hw : 0 < s_source_weight s1).
    { rewrite Ew. apply Rdiv_lt_0_compat; [exact Hpos|]. assert (0 < IZR (Z.of_N (sp_n_particles (mc_params md)))) by (apply IZR_lt; lia). lra. }
    assert (Hg : (0 < s_global_n s1)%N).
    { rewrite (foreseen _ _ _ Hprep). assert (1 <= sp_n_particles (mc_params md) / 10)%N by (apply (N.div_le_lower_bound _ 10 1); lia). lia. }
    pose proof (source_weights _ _ _ _ _ _ _ Hsrc Hborn) as Wb.
    assert (W0 : Forall weighty born). { eapply Forall_impl; [|exact Wb]. intros p Ep. unfold weighty. rewrite Ep. exact Hw. }
    assert (Wc : Forall weighty (processing c)).
    { apply (population_weighty _ _ _ _ _ _ Hu ltac:(lia) Hg Hw Hsrc Hpop He). rewrite Hborn, Pr. apply Forall_app. auto. }
    destruct (rounds_weighty _ _ _ _ _ Hlog Wc) as (R1 & R2). split; [|split].
    + destruct (process_domain _ _ _ _ _ Hproc) as (u1 & c1 & E1 & Ed). rewrite Hsrc in E1. apply Ok_inj in E1. injection E1 as <- <-. rewrite Ed.
      rewrite <- D1 in I0. exact (emission_same _ _ _ _ _ _ _ Hsrc I0).
    + apply Forall_app. split; [exact I1|]. apply Forall_app. split; [|exact R1]. apply Forall_forall. intros h Hh. apply in_map_iff in Hh. destruct Hh as (p & <- & Hin).
      rewrite Forall_forall in W0. exact (W0 _ Hin).
    + exact R2.
Qed.
