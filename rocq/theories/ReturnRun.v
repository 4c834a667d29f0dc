(** Runs return (C68). *)
From Coq Require Import NArith ZArith QArith List Bool Reals Lra Lia Psatz Permutation.
From Verif Require Import Float RealOps RngModel RngLemmas ParticleModel NuclearModel MeshTypes Balance TrackModel CycleModel GridModel MeshModel GridSpec MeshSpec MeshTheorems
  ProgLemmas TrackSpec TrackAccount CycleSpec CycleAccount CycleFacts PopSpec SortLemmas RunKeeps SegmentSpec AssignLemmas SegmentFacts NuclearSpec NuclearFacts
  GeomSpec GeomLemmas SourceLemmas SourcePoint ScheduleSpec ScheduleLemmas ScheduleFacts RangeSpec RangeFacts RunAgree ParRun SafeSpec SafeLemmas SafeRun SafeReal
  StaySpec StayLemmas StaySteps StayRun SpeedSpec SpeedFacts LifeSpec HaltSpec HaltRng HaltGap HaltSteps HaltWays HaltLine HaltEnds HaltRounds ReturnSpec ReturnRounds.
Import ListNotations.
Local Open Scope R_scope.
Local Opaque rng_next spawn_rn_seed huge tiny.

Lemma most_monotone (g : grid Rops) X t t' : sized g -> 1 <= X -> t <= t' -> most_segments g X t <= most_segments g X t'.
Proof.
  intros (Hx & Hy & Hz) HX Ht. unfold most_segments, cells_within, most_collisions. cbv zeta.
  assert (L : 0 <= light_speed (K := Rops)) by (rewrite light_R; lra).
  set (a := light_speed (K := Rops) * t : R). set (b := light_speed (K := Rops) * t' : R).
  assert (Hab : a <= b) by (apply Rmult_le_compat_l; assumption). clearbody a b.
  assert (D : forall d : R, 0 < d -> a / d <= b / d).
  { intros d Hd. unfold Rdiv. apply Rmult_le_compat_r; [left; apply Rinv_0_lt_compat; exact Hd|exact Hab]. }
  assert (2 ^ 53 * (X * a) <= 2 ^ 53 * (X * b)).
  { apply Rmult_le_compat_l; [apply pow_le; lra|]. apply Rmult_le_compat_l; lra. }
  pose proof (D _ Hx). pose proof (D _ Hy). pose proof (D _ Hz). lra.
Qed.

Section Run.
Variables (g : grid Rops) (bc : String.string) (pt : partition) (geoms : list (geometry_params Rops)) (mats : list (material Rops)) (dom : domain Rops).
Variables (ok : R -> Prop) (md : mcdata Rops) (X : R) (fuel cf : nat).
Notation td := (mc_track md).
Notation T := (most_segments g X (td_dt td)).
Hypothesis D : built_domain g bc pt geoms mats dom.
Hypothesis Hs : sized g.
Hypothesis Hf : fits g.
Hypothesis Hh : heavy td.
Hypothesis Hdt : 0 <= td_dt td.
Hypothesis Hsafe : safe_energies (K := Rops) md ok.
Hypothesis Hok : forall e, ok e -> 0 < e.
Hypothesis Hrun : run_ok md.
Hypothesis Hpol : loop_policy md.
Hypothesis Hsane : sane (K := Rops) (fun x => 0 <= x) md dom.
Hypothesis Hx : no_denser td dom X.
Hypothesis HX : 1 <= X.
Hypothesis Ha : answered td dom.
Hypothesis Hcf : (2 <= cf)%nat.
Hypothesis HT : T < INR fuel.
Hypothesis Hreg : forall n u c, about_to_track fuel cf md dom n u c -> Forall (starts_regular g td (u_domain u)) (processing c).

(** The same cells, but for the number of particles that they have emitted. *)
Definition alike (d : domain Rops) : Prop := same_cells g dom d /\ Forall2 (unchanged (K := Rops)) (d_cells dom) (d_cells d).

Lemma alike_xs d : alike d -> forall c gr, cell_cross_section td d c gr = cell_cross_section td dom c gr.
Proof.
  intros (_ & HF) c gr. unfold cell_cross_section, vec_get. pose proof (Forall2_nth_r _ _ _ HF (N.to_nat c)) as G.
  destruct (nth_error (d_cells dom) (N.to_nat c)) as [a|], (nth_error (d_cells d) (N.to_nat c)) as [b|]; try contradiction; [|reflexivity].
  destruct G as (G1 & G2 & G3). cbn [unwrap rbind]. rewrite G1, G3. reflexivity.
Qed.
Lemma alike_denser d : alike d -> no_denser td d X.
Proof. intros A c gr xs. rewrite (alike_xs _ A). apply Hx. Qed.
Lemma alike_answered d : alike d -> answered td d.
Proof.
  intros A. destruct Ha as [A1 A2]. constructor; [exact A1|]. intros cell cs group xs E Ex. rewrite (alike_xs _ A) in Ex. destruct A as (_ & HF).
  unfold vec_get in E. pose proof (Forall2_nth_r _ _ _ HF (N.to_nat cell)) as G. destruct (nth_error (d_cells d) (N.to_nat cell)) as [b|]; [|discriminate E].
  cbn [unwrap] in E. apply Ok_inj in E. subst b. destruct (nth_error (d_cells dom) (N.to_nat cell)) as [a|] eqn:E0; [|contradiction]. destruct G as (G1 & G2 & G3).
  rewrite G1, G3. apply (A2 cell a group xs); [|exact Ex]. unfold vec_get. rewrite E0. reflexivity.
Qed.
Lemma Forall2_then (a b c : list (cell_state Rops)) : Forall2 (unchanged (K := Rops)) a b -> Forall2 (unchanged (K := Rops)) b c -> Forall2 (unchanged (K := Rops)) a c.
Proof.
  intros H. revert c. induction H as [|x y a b (U1 & U2 & U3) H IH]; intros c Hc; inversion Hc as [|? z ? c' (V1 & V2 & V3) Hc']; subst; constructor; auto.
  repeat split; congruence.
Qed.

(** A particle that waits for its next cycle. *)
Definition waits (p : particle Rops) : Prop := resting g pt p /\ on_time p /\ p_time_to_census p <= td_dt td.

Lemma waits_same p q : same_but_weight p q -> waits p -> waits q.
Proof. unfold same_but_weight. intros <-. auto. Qed.

Lemma waits_ready d p : waits p -> starts_regular g td d p ->
  ready_to_fly g pt td d p /\ forall p', prepare_particle td p = Ok p' -> most_segments g X (p_time_to_census p') <= T.
Proof.
  intros (((c & L & Hin) & Hu) & (Ht & Hn) & Hle) Hr. split.
  - intros p' Hp. destruct (Hr _ Hp) as (Ho & Hl). split; [|exact Hl]. unfold prepare_particle in Hp. cbv zeta in Hp. rb Hp as gr Eg. apply Ok_inj in Hp. subst p'.
    split; [|split].
    + exists c. split; [destruct (fle _ _); exact L|]. split; [destruct (fle _ _); exact Hin|]. apply off_faces_stays. exact Ho.
    + destruct (fle _ _); exact Hu.
    + split; [|destruct (fle _ _); exact Hn]. cbn [fle f0 Rops]. destruct (Rleb (p_time_to_census p) 0); [|exact Ht].
      cbn [p_time_to_census set_energy_group set_age set_time_to_census fadd Rops]. change (0 <= (p_time_to_census p : R) + td_dt td). lra.
  - intros p' Hp. apply most_monotone; [exact Hs|exact HX|]. destruct (prepared_same _ _ _ Hp) as (_ & _ & _ & _ & ->).
    destruct (Rleb (p_time_to_census p) 0) eqn:E; [apply Rleb_iff in E; lra|exact Hle].
Qed.

(** Between two cycles. *)
Record between (s : sim Rops) : Prop := {
  bt_ok : between_ok (K := Rops) (fun x => 0 <= x) ok md s;
  bt_alike : alike (u_domain (s_unit s));
  bt_waits : Forall waits (processed (s_cont s))
}.

Lemma initial_between : between (initial_sim md dom).
Proof.
  constructor; [apply initial_ok; exact Hsane| |constructor]. split; [exact (domain_same g bc pt geoms mats dom D Hs)|]. cbn [initial_sim s_unit u_domain].
  induction (d_cells dom); constructor; auto. repeat split.
Qed.

Lemma phase_ready n s s1 u c : (n < sp_n_steps (mc_params md))%N -> run_steps fuel cf md (initial_sim md dom) n (Ok s) -> between s -> cycle_sync md n s = Ok s1 ->
  population_phase md s1 = Ok (u, c) -> alike (u_domain u) /\ Forall waits (processing c) /\ extra_particles c = [] /\ processed c = [].
Proof.
  intros Hn Hst [HB HA HW] Hsy Hpop. pose proof (run_steps_settled _ _ _ _ _ _ Hst _ eq_refl ltac:(lia)) as St.
  destruct (sync_settled _ _ _ _ _ St Hsy ltac:(lia)) as ([He Hp Hv Hb] & Pr & _).
  rewrite <- (sync_cells _ _ _ _ Hsy) in HA. destruct (population_domain _ _ _ _ Hpop) as (u0 & c0 & Hsrc & Ed). rewrite Ed.
  pose proof Hsrc as Hs'. unfold source_now in Hs'. rb Hs' as rates Er. rb Hs' as [[cells k] new] Ec. apply Ok_inj in Hs'. injection Hs' as Eu0 Ec0.
  assert (Hnew : processing c0 = processing (s_cont s1) ++ new) by (rewrite <- Ec0; reflexivity).
  destruct (now_starts g bc pt geoms mats dom D Hs _ _ _ _ _ _ _ (proj1 HA) Hsrc Hnew) as (Sb & Sc).
  assert (Tb : Forall (fun p : particle Rops => on_time p /\ p_time_to_census p <= td_dt td) new).
  { eapply (source_cells_keep md (d_mesh (u_domain (s_unit s1))) (fun p : particle Rops => on_time p /\ p_time_to_census p <= td_dt td)); [|reflexivity| |exact Ec]; [|reflexivity].
    intros w d cc v x p _ _ E. destruct (sourced_clock _ _ _ _ _ _ _ Hdt E) as (A1 & A2 & _). auto. }
  destruct (CycleAccount.population_ok _ _ _ _ Hpop He Hv Hb) as (src & _ & _ & Ex & Epd & _). split; [|split; [|split; [exact Ex|]]].
  - split; [exact Sc|]. rewrite <- Eu0. cbn [u_domain set_cells d_cells]. eapply Forall2_then; [exact (proj2 HA)|]. eapply SafeRun.source_unchanged; exact Ec.
  - eapply population_from; [exact waits_same|exact Hsrc|exact Hpop|exact He|]. rewrite Hnew, Pr. apply Forall_app. split; [exact HW|].
    clear - Sb Tb. induction Sb as [|p new (cc & r1 & r2 & L & Hin & Hu & _) _ IH]; constructor; [|apply IH; exact (Forall_inv_tail Tb)].
    destruct (Forall_inv Tb) as (T1 & T2). split; [|split; assumption]. split; [exists cc; auto|exact Hu].
  - rewrite Epd. exact Hp.
Qed.

Lemma cycle_between n s s1 : (n < sp_n_steps (mc_params md))%N -> run_steps fuel cf md (initial_sim md dom) n (Ok s) -> between s -> cycle_sync md n s = Ok s1 ->
  (exists s', cycle_process fuel cf md s1 (Ok s')) /\ forall r, cycle_process fuel cf md s1 r -> exists s', r = Ok s' /\ between s'.
Proof.
  intros Hn Hst HBt Hsy. pose proof HBt as [HB HA HW].
  destruct (sync_ok (K := Rops) _ ok md Hpol n s HB ltac:(lia)) as (s1' & Esy & HR). rewrite Hsy in Esy. apply Ok_inj in Esy. subst s1'.
  destruct (SafeRun.population_ok (K := Rops) _ real_sign_laws ok md Hsafe s1 HR) as (u & c & Hpop & HS).
  destruct (phase_ready n s s1 u c Hn Hst HBt Hsy Hpop) as (Al & Wt & Ex & Epd).
  assert (Rg : Forall (starts_regular g td (u_domain u)) (processing c)).
  { apply (Hreg n u c). split; [exact Hn|]. exists s, s1. auto. }
  assert (Fl : Forall (ready_to_fly g pt td (u_domain u)) (processing c)).
  { apply Forall_forall. intros p Hin. rewrite Forall_forall in Wt, Rg. apply (waits_ready _ _ (Wt _ Hin) (Rg _ Hin)). }
  assert (Tm : forall p p', In p (processing c) -> prepare_particle td p = Ok p' -> most_segments g X (p_time_to_census p') <= T).
  { intros p p' Hin. rewrite Forall_forall in Wt, Rg. apply (waits_ready _ _ (Wt _ Hin) (Rg _ Hin)). }
  assert (B : built g bc pt (d_mesh (u_domain u))).
  { destruct Al as ((-> & _) & _). exact (domain_mesh _ _ _ _ _ _ D). }
  split.
  - destruct (rounds_reach ok md Hsafe Hok Hrun g bc pt X T fuel cf Hs Hf Hh Hdt HX Hcf HT u c HS Ex B (alike_denser _ Al) (alike_answered _ Al) Fl Tm) as ([u' c'] & Ht).
    eexists. exact (cp_run _ _ _ _ _ _ _ Hpop Ht).
  - intros r H. pose proof H as H'. inversion H as [u1 c1 q E1 T1|E1|E1]; subst; [|exfalso; congruence|exfalso; congruence]. rewrite Hpop in E1. injection E1 as <- <-.
    destruct (rounds_return ok md Hsafe Hok Hrun g bc pt X T fuel cf Hs Hf Hh Hdt HX Hcf HT u c HS Ex B (alike_denser _ Al) (alike_answered _ Al) Fl Tm q T1) as ([u' c'] & ->).
    cbn [rbind] in H' |- * . eexists. split; [reflexivity|].
    destruct (rounds_rest ok md Hsafe Hrun g bc pt fuel cf Hs Hf Hdt u c _ T1 u' c' eq_refl (state_rested ok md _ _ HS Ex) B Fl) as (Ed & Rs); [rewrite Epd; constructor|].
    pose proof (rs_succ fuel cf md (initial_sim md dom) n s s1 _ Hst Hsy H') as Hst'.
    pose proof (kept_at_census fuel cf md dom _ _ Hdt Hst' ltac:(lia)) as Hk. constructor.
    + exact (proj2 (process_ok (K := Rops) _ real_sign_laws ok md Hsafe Hrun _ _ _ _ HR H') _ eq_refl).
    + cbn [s_unit]. rewrite Ed. exact Al.
    + cbn [s_cont] in Hk |- * . apply Forall_forall. intros p Hin. rewrite Forall_forall in Rs, Hk. destruct (Hk _ Hin) as (_ & _ & Ht & Hm & _). change (p_time_to_census p = (0 : R)) in Ht.
      split; [exact (Rs _ Hin)|]. unfold on_time. rewrite Ht. split; [split; [apply Rle_refl|exact Hm]|exact Hdt].
Qed.

Lemma steps_return n r : run_steps fuel cf md (initial_sim md dom) n r -> (n <= sp_n_steps (mc_params md))%N -> exists s, r = Ok s /\ between s.
Proof.
  induction 1 as [|n s s1 r H IH Hs1 Hp|n s H IH Hs1|n r H IH Hr]; intros Hn.
  - eexists. split; [reflexivity|exact initial_between].
  - destruct (IH ltac:(lia)) as (s0 & E & HB). apply Ok_inj in E. subst s0. exact (proj2 (cycle_between n s s1 ltac:(lia) H HB Hs1) r Hp).
  - exfalso. destruct (IH ltac:(lia)) as (s0 & E & HB). apply Ok_inj in E. subst s0.
    destruct (sync_ok (K := Rops) _ ok md Hpol n s (bt_ok _ HB) ltac:(lia)) as (s1' & Esy & _). congruence.
  - exfalso. destruct (IH ltac:(lia)) as (s0 & E & _). destruct Hr; congruence.
Qed.

Lemma steps_reach n : (n <= sp_n_steps (mc_params md))%N -> exists s, run_steps fuel cf md (initial_sim md dom) n (Ok s).
Proof.
  induction n as [|n IH] using N.peano_ind; intros Hn; [eexists; constructor|]. destruct IH as (s & Hst); [lia|].
  destruct (steps_return _ _ Hst ltac:(lia)) as (s0 & E & HB). apply Ok_inj in E. subst s0.
  destruct (sync_ok (K := Rops) _ ok md Hpol n s (bt_ok _ HB) ltac:(lia)) as (s1 & Esy & _).
  destruct (proj1 (cycle_between n s s1 ltac:(lia) Hst HB Esy)) as (s' & Hp). exists s'. eapply rs_succ; eauto.
Qed.

Theorem run_returns : (exists s, core_loop fuel cf md (initial_sim md dom) (Ok s)) /\
  forall r, core_loop fuel cf md (initial_sim md dom) r -> exists s, r = Ok s.
Proof.
  split.
  - destruct (steps_reach _ (N.le_refl _)) as (s & Hst). destruct (steps_return _ _ Hst (N.le_refl _)) as (s0 & E & HB). apply Ok_inj in E. subst s0.
    destruct (sync_ok (K := Rops) _ ok md Hpol _ s (bt_ok _ HB) (N.le_refl _)) as (s1 & Esy & _). exists s1.
    pose proof (cl_run fuel cf md (initial_sim md dom) _ Hpol Hst) as Hc. cbn [rbind] in Hc. rewrite Esy in Hc. exact Hc.
  - intros r H. inversion H as [q Q Hst|Q]; subst; [|exfalso; destruct Hpol, Q; congruence].
    destruct (steps_return _ _ Hst (N.le_refl _)) as (s & -> & HB).
    destruct (sync_ok (K := Rops) _ ok md Hpol _ s (bt_ok _ HB) (N.le_refl _)) as (s1 & Esy & _). cbn [rbind]. rewrite Esy. eauto.
Qed.
End Run.

Theorem run_comes_back : forall (g : grid Rops) bc pt geoms mats dom ok (md : mcdata Rops) X fuel cf,
  built_domain g bc pt geoms mats dom -> sized g -> fits g -> heavy (mc_track md) -> 0 <= td_dt (mc_track md) ->
  safe_energies (K := Rops) md ok -> (forall e, ok e -> 0 < e) -> run_ok md -> loop_policy md ->
  sound_problem md dom -> indexed md dom -> safe_values (K := Rops) (fun x => 0 <= x) md dom ->
  no_denser (mc_track md) dom X -> 1 <= X -> answered (mc_track md) dom -> (2 <= cf)%nat -> most_segments g X (td_dt (mc_track md)) < INR fuel ->
  (forall n u c, about_to_track fuel cf md dom n u c -> Forall (starts_regular g (mc_track md) (u_domain u)) (processing c)) ->
  (exists s, core_loop fuel cf md (initial_sim md dom) (Ok s)) /\
  forall r, core_loop fuel cf md (initial_sim md dom) r -> exists s, r = Ok s.
Proof.
  intros g bc pt geoms mats dom ok md X fuel cf D Hs Hf Hh Hdt H1 H2 H3 H4 S1 S2 S3. intros.
  apply (run_returns g bc pt geoms mats dom ok md X fuel cf); auto. constructor; assumption.
Qed.
