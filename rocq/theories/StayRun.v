(** Whole runs stay in their cells (C59). *)
From Coq Require Import NArith ZArith QArith Qreals List Bool Reals Lra Lia Permutation.
From Verif Require Import Float RealOps RngModel ParticleModel NuclearModel MeshTypes Balance TrackModel CycleModel GridModel MeshModel GridSpec
  MeshSpec TrackSpec TrackAccount CycleSpec CycleAccount PopSpec SourceLemmas PopLemmas RunKeeps SegmentSpec SegmentFacts CrossingLemmas
  GeomSpec SourcePoint StaySpec StayLemmas StaySteps.
Import ListNotations.
Local Open Scope R_scope.

(** ** Every run has a log *)

Lemma path_log td dom p evs p' nx : track_path td dom p evs p' nx -> exists hs, track_log td dom p hs p' nx.
Proof.
  induction 1 as [p e p' nx Hs|p e p1 nx1 evs p' nx2 Hs Hp (hs & IH)].
  - eexists. constructor. exact Hs.
  - eexists. eapply tl_more; eauto.
Qed.
Lemma slice_has_log td dom ps ps' evss nxs : slice_paths td dom ps ps' evss nxs -> exists hs, slice_log td dom ps hs ps' nxs.
Proof.
  induction 1 as [|p q p' ps ps' evs evss nx nxs Hp Ht Hs (hs & IH)]; [eexists; constructor|].
  destruct (path_log _ _ _ _ _ _ Ht) as (h & Hh). eexists. econstructor; eauto.
Qed.
Lemma rounds_have_log td dom ps evs kept : rounds_paths td dom ps evs kept -> exists hs, rounds_log td dom ps hs kept.
Proof.
  induction 1 as [|ps ps0 ps1 evss nxs next evs kept Pm Hs Pm' Hr (hs & IH)]; [eexists; constructor|].
  destruct (slice_has_log _ _ _ _ _ _ Hs) as (h & Hh). eexists. econstructor; eauto.
Qed.

Lemma log_run fuel cf md d n s hs : run_log fuel cf md d n s hs -> run_steps fuel cf md (initial_sim md d) n (Ok s).
Proof. induction 1; [constructor|]. eapply rs_succ; eauto. Qed.
Lemma log_sourced fuel cf md d n s hs : run_log fuel cf md d n s hs -> exists ps, run_sourced fuel cf md d n s ps.
Proof. induction 1 as [|? ? ? ? ? ? ? ? ? ? ? ? (ps & IH)]; [eexists; constructor|]. eexists. eapply so_cycle; eauto. Qed.

Lemma run_has_log fuel cf md d n r : run_steps fuel cf md (initial_sim md d) n r -> forall s, r = Ok s -> (n <= sp_n_steps (mc_params md))%N ->
  exists hs, run_log fuel cf md d n s hs.
Proof.
  induction 1 as [|n s0 s1 r H IH Hsync Hproc|n s0 H IH Hsync|n r H IH Hr]; intros s Er Hn.
  - injection Er; intros; subst. exists []. constructor.
  - subst r. destruct (IH _ eq_refl ltac:(lia)) as (hs & Hhs).
    pose proof (run_steps_settled _ _ _ _ _ _ H _ eq_refl ltac:(lia)) as St.
    destruct (sync_settled _ _ _ _ _ St Hsync ltac:(lia)) as ([He Hp Hv Hb] & Pr & M & _).
    pose proof Hproc as Hproc0. remember (Ok s) as r0 eqn:Er0. destruct Hproc as [u c r Hpop Htr|Hpop|Hpop]; try discriminate Er0.
    rb Er0 as [u' c'] E. subst r. injection Er0; intros; subst s; clear Er0.
    destruct (population_ok _ _ _ _ Hpop He Hv Hb) as (src & V1 & V2 & E2 & P2 & _).
    destruct (rounds_ok _ _ _ _ _ _ Htr E2 _ _ eq_refl) as (evs & kept & Hr & _ & _ & _ & _ & _ & Q3).
    destruct (rounds_have_log _ _ _ _ _ Hr) as (hs' & Hl). rewrite P2, Hp in Q3. cbn [app] in Q3.
    pose proof Hpop as Hpop'. unfold population_phase in Hpop'. rb Hpop' as [u0 c0] Hsrc. clear Hpop'.
    pose proof Hsrc as Hso'. unfold source_now in Hso'. rb Hso' as rates Er. rb Hso' as [[cells k] new] Ec.
    assert (Hnew : processing c0 = processing (s_cont s1) ++ new) by (injection Hso'; intros; subst; reflexivity).
    eexists. eapply lg_cycle; [exact Hhs|exact Hsync|exact Hsrc|exact Hnew|exact Hpop|exact Hproc0|]. cbn [s_cont]. rewrite Q3. exact Hl.
  - discriminate Er.
  - subst r. destruct Hr; discriminate.
Qed.

(** ** Population control creates nothing anywhere else *)
Lemma population_from {K : FloatOps} (P : particle K -> Prop) (md : mcdata K) s u0 c0 u c :
  (forall p q, same_but_weight p q -> P p -> P q) ->
  source_now md (s_source_weight s) (s_unit s) (s_cont s) = Ok (u0, c0) -> population_phase md s = Ok (u, c) ->
  extra_particles (s_cont s) = [] -> Forall P (processing c0) -> Forall P (processing c).
Proof.
  intros Hw Hs H He F1. unfold population_phase in H. rewrite Hs in H. cbn [rbind] in H.
  assert (He0 : extra_particles c0 = []).
  { unfold source_now in Hs. rb Hs as rates Er. rb Hs as [[cells k] new] Ec. injection Hs; intros; subst. exact He. }
  rb H as f Hf. destruct (flt f f1).
  - match type of H with context [regulate_population ?c ?f ?cu ?w ?b] =>
      pose proof (regulate_outcome c f cu w b) as E; destruct (regulate_population c f cu w b) as [c1 b1] end.
    injection H; intros; subst. cbn [fst processing] in E. rewrite E. apply low_weight_keeps; [exact Hw|]. apply roulette_keeps; [exact Hw|exact F1].
  - destruct (flt f1 f).
    + rb H as [c1 b1] Hsp. injection H; intros; subst. destruct (split_population_outcome _ _ _ _ _ _ _ Hsp) as (qs & ll & S & L1 & L2 & -> & _).
      rewrite He0. cbn [app]. apply low_weight_keeps; [exact Hw|].
      destruct (split_keeps P Hw _ _ _ _ S L1 L2 F1). apply Forall_app; auto.
    + injection H; intros; subst. exact F1.
Qed.

(** ** What holds along a log *)

Section Fine.
(** [G]: what is claimed of each happening; [C]: what the rest of the log depends on. *)
Variables G C : happening -> Prop.

(** [G] holds of each happening if [C] holds of those before. *)
Fixpoint fine (hs : list happening) : Prop :=
  match hs with [] => True | h :: hs => G h /\ (C h -> fine hs) end.

Lemma fine_app a b : fine a -> (Forall C a -> fine b) -> fine (a ++ b).
Proof.
  induction a as [|h a IH]; intros Ha Hb; cbn [app]; [apply Hb; constructor|]. destruct Ha as (H1 & H2). split; [exact H1|].
  intros Hc. apply IH; [apply H2; exact Hc|]. intros Ha. apply Hb. constructor; assumption.
Qed.
Lemma fine_at hs : fine hs -> forall hs1 h hs2, hs = hs1 ++ h :: hs2 -> Forall C hs1 -> G h.
Proof.
  intros H hs1. revert hs H. induction hs1 as [|h1 hs1 IH]; intros hs H h hs2 -> Hc; cbn [app fine] in H.
  - apply H.
  - destruct H as (_ & H2). eapply IH; [apply H2; exact (Forall_inv Hc)|reflexivity|exact (Forall_inv_tail Hc)].
Qed.

(** [P]: what holds of the particles that are tracked. *)
Variable P : particle Rops -> Prop.

Section Cycle.
Variables (td : track_data Rops) (dom : domain Rops).
Hypothesis Hstep : forall p e keep p' nx, seg_step td dom p e keep p' nx -> P p ->
  G (Flew p e p') /\ (C (Flew p e p') -> (keep = true \/ e = SegCensus -> P p') /\ Forall P nx).
Hypothesis Hprep : forall p q, prepare_particle td p = Ok q -> P p -> P q.

Lemma last_known p e p' nx : seg_step td dom p e false p' nx -> is_valid p' = true -> e = SegCensus.
Proof.
  intros H V. inversion H; subst; clear H.
  - destruct (1 <=? n)%N; [discriminate|]. cbn in V. discriminate V.
  - destruct (fa_event fa); try discriminate; try contradiction. subst. cbn in V. discriminate V.
  - reflexivity.
Qed.

Lemma track_fine p hs p' nx : track_log td dom p hs p' nx -> P p ->
  fine hs /\ (Forall C hs -> (is_valid p' = true -> P p') /\ Forall P nx).
Proof.
  induction 1 as [p e p' nx H|p e p1 nx1 hs p' nx2 H Hl IH]; intros Hf; destruct (Hstep _ _ _ _ _ H Hf) as (A1 & A2).
  - split; [split; [exact A1|intros _; exact I]|].
    intros Hc. destruct (A2 (Forall_inv Hc)) as (A3 & A4). split; [|exact A4]. intros V. apply A3. right. eapply last_known; eauto.
  - split.
    + split; [exact A1|]. intros Hc. apply IH. apply (proj1 (A2 Hc)). left. reflexivity.
    + intros Hc. destruct (A2 (Forall_inv Hc)) as (A3 & A4). destruct (IH (A3 (or_introl eq_refl))) as (_ & I2).
      destruct (I2 (Forall_inv_tail Hc)) as (I3 & I4). split; [exact I3|]. apply Forall_app. auto.
Qed.

Lemma slice_fine ps hs ps' nxs : slice_log td dom ps hs ps' nxs -> Forall P ps ->
  fine hs /\ (Forall C hs -> Forall P (filter is_valid ps') /\ Forall P nxs).
Proof.
  induction 1 as [|p q p' ps ps' h hs nx nxs Hp Ht Hl IH]; intros F; [split; [exact I|split; constructor]|].
  destruct (track_fine _ _ _ _ Ht (Hprep _ _ Hp (Forall_inv F))) as (A1 & A2). destruct (IH (Forall_inv_tail F)) as (I1 & I2).
  split; [apply fine_app; auto|]. intros Hc. apply Forall_app in Hc. destruct Hc as (C1 & C2).
  destruct (A2 C1) as (A3 & A4). destruct (I2 C2) as (I3 & I4). split; [|apply Forall_app; auto].
  cbn [filter]. destruct (is_valid p') eqn:V; [constructor; auto|exact I3].
Qed.

Lemma rounds_fine ps hs kept : rounds_log td dom ps hs kept -> Forall P ps ->
  fine hs /\ (Forall C hs -> Forall P kept).
Proof.
  induction 1 as [|ps ps0 ps1 h nxs next hs kept Pm Hl Pm' Hr IH]; intros F; [split; [exact I|constructor]|].
  destruct (slice_fine _ _ _ _ Hl (Permutation_Forall Pm F)) as (A1 & A2).
  assert (N : Forall C h -> Forall P next).
  { intros Hc. exact (Permutation_Forall (Permutation_sym Pm') (proj2 (A2 Hc))). }
  split; [apply fine_app; [exact A1|intros Hc; apply IH; auto]|].
  intros Hc. apply Forall_app in Hc. destruct Hc as (C1 & C2). apply Forall_app. split; [apply A2; exact C1|apply IH; auto].
Qed.

End Cycle.

(** A whole run; [All] is the log of a run of which this one is the beginning. *)
Theorem run_fine g bc pt geoms mats dom fuel cf (md : mcdata Rops) All n s hs :
  built_domain g bc pt geoms mats dom -> sized g -> 0 <= td_dt (mc_track md) ->
  (forall dom' p e keep p' nx, built g bc pt (d_mesh dom') -> seg_step (mc_track md) dom' p e keep p' nx -> P p ->
     G (Flew p e p') /\ (C (Flew p e p') -> (keep = true \/ e = SegCensus -> P p') /\ Forall P nx)) ->
  (forall p q, prepare_particle (mc_track md) p = Ok q -> P p -> P q) ->
  (forall p q, same_but_weight p q -> P p -> P q) ->
  (forall p, In (Born p) All -> starts_inside g pt md p -> on_time p -> G (Born p) /\ (C (Born p) -> P p)) ->
  run_log fuel cf md dom n s hs -> (n <= sp_n_steps (mc_params md))%N -> incl hs All ->
  fine hs /\ (Forall C hs -> Forall P (processed (s_cont s))).
Proof.
  intros D Hs Hdt Hstep Hprep Hsame Hstart. pose proof (domain_mesh _ _ _ _ _ _ D) as B.
  induction 1 as [|n s hs s1 u0 c0 born u c hs' s2 H IH Hsync Hsrc Hborn Hpop Hproc Hlog]; intros Hn Hin.
  - split; [exact I|constructor].
  - apply incl_app_inv in Hin. destruct Hin as (Hin1 & Hin2). apply incl_app_inv in Hin2. destruct Hin2 as (Hin2 & _).
    destruct (IH ltac:(lia) Hin1) as (I1 & I2).
    pose proof (run_steps_settled _ _ _ _ _ _ (log_run _ _ _ _ _ _ _ H) _ eq_refl ltac:(lia)) as St.
    destruct (sync_settled _ _ _ _ _ St Hsync ltac:(lia)) as ([He Hp Hv Hb] & Pr & M & _).
    destruct (log_sourced _ _ _ _ _ _ _ H) as (ps & Hps). destruct (run_starts g bc pt geoms mats dom D Hs _ _ _ _ _ _ Hps) as (_ & Sc).
    rewrite <- (sync_cells _ _ _ _ Hsync) in Sc. destruct (now_starts g bc pt geoms mats dom D Hs _ _ _ _ _ _ _ Sc Hsrc Hborn) as (Sb & _).
    assert (Tb : Forall on_time born).
    { pose proof Hsrc as Hso'. unfold source_now in Hso'. rb Hso' as rates Er. rb Hso' as [[cells k] new] Ec. injection Hso'; intros; subst u0 c0. clear Hso'.
      cbn [processing] in Hborn. apply app_inv_head in Hborn. subst new.
      eapply (source_cells_keep md (d_mesh (u_domain (s_unit s1))) on_time); [|reflexivity| |exact Ec]; [|reflexivity].
      intros w d cc v x p _ _ E. exact (proj1 (sourced_clock _ _ _ _ _ _ _ Hdt E)). }
    assert (Hbf : fine (map Born born) /\ (Forall C (map Born born) -> Forall P born)).
    { clear - Sb Tb Hin2 Hstart. induction born as [|p born IH]; [split; [exact I|constructor]|]. cbn [map] in Hin2.
      apply incl_cons_inv in Hin2. destruct Hin2 as (Hin1 & Hin2).
      destruct (Hstart p Hin1 (Forall_inv Sb) (Forall_inv Tb)) as (S1 & S2).
      destruct (IH Hin2 (Forall_inv_tail Sb) (Forall_inv_tail Tb)) as (I1 & I2).
      split; [split; [exact S1|intros _; exact I1]|]. intros Hc. cbn [map] in Hc. constructor; [apply S2; exact (Forall_inv Hc)|].
      apply I2; exact (Forall_inv_tail Hc). }
    destruct Hbf as (B1 & B2).
    assert (Htr : Forall C hs -> Forall C (map Born born) -> Forall P (processing c)).
    { intros C1 C2. eapply population_from; [exact Hsame|exact Hsrc|exact Hpop|exact He|]. rewrite Hborn, Pr. apply Forall_app. auto. }
    assert (Bu : built g bc pt (d_mesh (u_domain u))).
    { destruct (population_ok _ _ _ _ Hpop He Hv Hb) as (src & _ & _ & _ & _ & _ & _ & _ & _ & M' & _). rewrite M', M. exact B. }
    pose proof (fun p e keep p' nx => Hstep (u_domain u) p e keep p' nx Bu) as Hst.
    split.
    + apply fine_app; [exact I1|]. intros C1. apply fine_app; [exact B1|]. intros C2.
      exact (proj1 (rounds_fine _ _ Hst Hprep _ _ _ Hlog (Htr C1 C2))).
    + intros Hc. apply Forall_app in Hc. destruct Hc as (C1 & Hc). apply Forall_app in Hc. destruct Hc as (C2 & C3).
      exact (proj2 (rounds_fine _ _ Hst Hprep _ _ _ Hlog (Htr C1 C2)) C3).
Qed.

End Fine.

(** ** Clean logs *)

Section Stay.
Variables (g : grid Rops) (bc : String.string) (pt : partition).
Hypothesis Hs : sized g.
Hypothesis Hfit : fits g.

Lemma flying_home p : flying g pt p -> at_home g pt p.
Proof. intros ((c & L & H & _) & _). exists c. auto. Qed.

Lemma flying_step td dom p e keep p' nx : built g bc pt (d_mesh dom) -> seg_step td dom p e keep p' nx -> flying g pt p ->
  happens_at_home g pt (Flew p e p') /\ (clean g (Flew p e p') -> (keep = true \/ e = SegCensus -> flying g pt p') /\ Forall (flying g pt) nx).
Proof.
  intros B H Hf. destruct (step_home g bc pt dom B Hs Hfit _ _ _ _ _ _ H Hf) as (A1 & A2). split; [|exact A2].
  split; [apply flying_home; exact Hf|exact A1].
Qed.

Lemma prepared_flies (td : track_data Rops) p q : 0 <= td_dt td -> prepare_particle td p = Ok q -> flying g pt p -> flying g pt q.
Proof.
  intros Hdt. unfold prepare_particle. intros H (Hc & Hu & Ht & Hn). rb H as gr Eg. apply Ok_inj in H. subst q.
  split; [|split]; [destruct (fle _ _); exact Hc|destruct (fle _ _); exact Hu|].
  split; [|destruct (fle _ _); exact Hn]. cbn [fle f0 Rops]. destruct (Rleb (p_time_to_census p) 0); [|exact Ht].
  cbn [p_time_to_census set_energy_group set_age set_time_to_census fadd Rops]. change (0 <= (p_time_to_census p : R) + td_dt td). lra.
Qed.

Lemma flying_same p q : same_but_weight p q -> flying g pt p -> flying g pt q.
Proof. unfold same_but_weight. intros <-. auto. Qed.

Lemma starts_flying md p : starts_inside g pt md p -> on_time p -> happens_at_home g pt (Born p) /\ (clean g (Born p) -> flying g pt p).
Proof.
  intros (cc & r1 & r2 & L & Hin & Hu & _) Ht. split; [exists cc; auto|]. intros Hc.
  split; [|split; assumption]. exists cc. split; [exact L|]. split; [exact Hin|]. apply off_faces_stays. exact Hc.
Qed.

Theorem run_stays geoms mats dom fuel cf (md : mcdata Rops) n s hs : built_domain g bc pt geoms mats dom -> 0 <= td_dt (mc_track md) ->
  (n <= sp_n_steps (mc_params md))%N -> run_log fuel cf md dom n s hs ->
  (forall hs1 h hs2, hs = hs1 ++ h :: hs2 -> Forall (clean g) hs1 -> happens_at_home g pt h) /\
  (Forall (clean g) hs -> Forall (at_home g pt) (processed (s_cont s))).
Proof.
  intros D Hdt Hn H.
  destruct (run_fine (happens_at_home g pt) (clean g) (flying g pt) g bc pt geoms mats dom fuel cf md hs n s hs D Hs Hdt) as (A & A2);
    [intros; eapply flying_step; eauto|intros; eapply prepared_flies; eauto|exact flying_same|intros p _; apply starts_flying|exact H|exact Hn|apply incl_refl|].
  split; [exact (fine_at _ _ _ A)|].
  intros Hc. eapply Forall_impl; [|exact (A2 Hc)]. exact flying_home.
Qed.

End Stay.

Theorem track_stays g bc pt td dom p hs p' nx : built g bc pt (d_mesh dom) -> sized g -> fits g -> flying g pt p -> track_log td dom p hs p' nx ->
  (forall hs1 h hs2, hs = hs1 ++ h :: hs2 -> Forall (clean g) hs1 -> happens_at_home g pt h) /\
  (Forall (clean g) hs -> (is_valid p' = true -> flying g pt p') /\ Forall (flying g pt) nx).
Proof.
  intros B Hs Hf Hp H.
  destruct (track_fine (happens_at_home g pt) (clean g) (flying g pt) td dom) with (p := p) (hs := hs) (p' := p') (nx := nx) as (A1 & A2);
    [intros; eapply flying_step; eauto|exact H|exact Hp|]. split; [exact (fine_at _ _ _ A1)|exact A2].
Qed.
