(** Lifetimes along a run (C64). *)
From Coq Require Import NArith ZArith QArith Qreals List Bool Reals Lra Lia Permutation.
From Verif Require Import Float RealOps RngModel ParticleModel NuclearModel MeshTypes Balance TrackModel CycleModel GridModel MeshModel GridSpec
  MeshSpec TrackSpec TrackAccount CycleSpec CycleAccount PopSpec SourceLemmas PopLemmas RunKeeps SegmentSpec SegmentFacts CrossingLemmas
  GeomSpec SourcePoint StaySpec StayLemmas StaySteps StayRun SpeedSpec SpeedFacts LifeSpec.
Import ListNotations.
Local Open Scope R_scope.

(** ** Every log has a history *)
Lemma log_history fuel cf md d n s hs : run_log fuel cf md d n s hs -> exists bs, run_history fuel cf md d n s bs hs.
Proof. induction 1 as [|? ? ? ? ? ? ? ? ? ? ? ? (bs & IH)]; [eexists; constructor|]. eexists. eapply hi_cycle; eauto. Qed.
Lemma history_log fuel cf md d n s bs hs : run_history fuel cf md d n s bs hs -> run_log fuel cf md d n s hs.
Proof. induction 1; [constructor|]. eapply lg_cycle; eauto. Qed.
Lemma history_births fuel cf md d n s bs hs : run_history fuel cf md d n s bs hs ->
  (forall c b, In (c, b) bs -> (c < n)%N /\ In (Born b) hs) /\ (forall b, In (Born b) hs -> exists c, In (c, b) bs).
Proof.
  assert (R : forall td dom ps hs kept, rounds_log td dom ps hs kept -> forall b, ~ In (Born b) hs).
  { assert (T : forall td dom p hs p' nx, track_log td dom p hs p' nx -> forall b, ~ In (Born b) hs).
    { induction 1; intros b [C|C]; try discriminate C; [destruct C|exact (IHtrack_log _ C)]. }
    assert (S : forall td dom p hs p' nx, slice_log td dom p hs p' nx -> forall b, ~ In (Born b) hs).
    { induction 1; intros b C; [destruct C|]. apply in_app_or in C. destruct C as [C|C]; [exact (T _ _ _ _ _ _ H0 _ C)|exact (IHslice_log _ C)]. }
    induction 1; intros b C; [destruct C|]. apply in_app_or in C. destruct C as [C|C]; [exact (S _ _ _ _ _ _ H0 _ C)|exact (IHrounds_log _ C)]. }
  induction 1 as [|n s bs hs s1 u0 c0 born u c hs' s2 H (IH1 & IH2) Hsync Hsrc Hborn Hpop Hproc Hlog]; [split; [intros ? ? []|intros ? []]|]. split.
  - intros k b Hin. apply in_app_or in Hin. destruct Hin as [Hin|Hin].
    + destruct (IH1 _ _ Hin). split; [lia|]. apply in_or_app. left. assumption.
    + apply in_map_iff in Hin as (b' & E & Hb). injection E; intros; subst. split; [lia|]. apply in_or_app. right. apply in_or_app. left. apply in_map. exact Hb.
  - intros b Hin. apply in_app_or in Hin. destruct Hin as [Hin|Hin].
    + destruct (IH2 _ Hin) as (k & Hk). exists k. apply in_or_app. left. exact Hk.
    + apply in_app_or in Hin. destruct Hin as [Hin|Hin]; [|exfalso; exact (R _ _ _ _ _ Hlog _ Hin)].
      apply in_map_iff in Hin as (b' & E & Hb). injection E; intros; subst. exists n. apply in_or_app. right. apply in_map. exact Hb.
Qed.

(** ** The particles of a cycle, before, during and after their tracks *)
Section Three.
Variable C : happening -> Prop.
Variables Pin Pfly Pout : particle Rops -> Prop.
Variables (td : track_data Rops) (dom : domain Rops).
Hypothesis Hstep : forall p e keep p' nx, seg_step td dom p e keep p' nx -> Pfly p -> C (Flew p e p') ->
  (keep = true -> Pfly p') /\ (e = SegCensus -> Pout p') /\ Forall Pin nx.
Hypothesis Hprep : forall p q, prepare_particle td p = Ok q -> Pin p -> Pfly q.

Lemma track_three p hs p' nx : track_log td dom p hs p' nx -> Pfly p -> Forall C hs -> (is_valid p' = true -> Pout p') /\ Forall Pin nx.
Proof.
  induction 1 as [p e p' nx H|p e p1 nx1 hs p' nx2 H Hl IH]; intros Hf Hc; destruct (Hstep _ _ _ _ _ H Hf (Forall_inv Hc)) as (A1 & A2 & A3).
  - split; [|exact A3]. intros V. apply A2. eapply last_known; eauto.
  - destruct (IH (A1 eq_refl) (Forall_inv_tail Hc)) as (I1 & I2). split; [exact I1|]. apply Forall_app. auto.
Qed.
Lemma slice_three ps hs ps' nxs : slice_log td dom ps hs ps' nxs -> Forall Pin ps -> Forall C hs -> Forall Pout (filter is_valid ps') /\ Forall Pin nxs.
Proof.
  induction 1 as [|p q p' ps ps' h hs nx nxs Hp Ht Hl IH]; intros F Hc; [split; constructor|]. apply Forall_app in Hc. destruct Hc as (C1 & C2).
  destruct (track_three _ _ _ _ Ht (Hprep _ _ Hp (Forall_inv F)) C1) as (A1 & A2). destruct (IH (Forall_inv_tail F) C2) as (I1 & I2).
  split; [|apply Forall_app; auto]. cbn [filter]. destruct (is_valid p'); [constructor; auto|exact I1].
Qed.
Lemma rounds_three ps hs kept : rounds_log td dom ps hs kept -> Forall Pin ps -> Forall C hs -> Forall Pout kept.
Proof.
  induction 1 as [|ps ps0 ps1 h nxs next hs kept Pm Hl Pm' Hr IH]; intros F Hc; [constructor|]. apply Forall_app in Hc. destruct Hc as (C1 & C2).
  destruct (slice_three _ _ _ _ Hl (Permutation_Forall Pm F) C1) as (A1 & A2). apply Forall_app. split; [exact A1|].
  apply IH; [|exact C2]. exact (Permutation_Forall (Permutation_sym Pm') A2).
Qed.
End Three.

(** ** Clocks *)

(** The particles that a segment creates have the time that the particle has. *)
Lemma step_together td dom (p : particle Rops) e keep p' nx : seg_step td dom p e keep p' nx -> nx = [] \/
  (exists r n, e = SegCollision r n) /\ Forall (fun q : particle Rops => p_time_to_census q = p_time_to_census p') nx.
Proof.
  intros H. inversion H as [? xs p1 cs cur p2 cfuel r mat n p3 ? g ? Ho p1' Hcs Hcur Hpick Hmat Hcol Hg Hp'|? xs p1 conn fa p2 ? Ho p1' Hconn Hfa Hev Hm|? xs p1 Ho]; subst;
    [|left; reflexivity|left; reflexivity].
  right. split; [eexists; eexists; reflexivity|]. destruct (collision_clock _ _ _ _ _ _ Hcol) as (C1 & C2).
  eapply Forall_impl; [|exact C2]. cbv beta. intros q Hq. assert (E : clock q = clock p3) by (rewrite Hq, C1; reflexivity).
  unfold clock in E. assert (Et : p_time_to_census q = p_time_to_census p3) by congruence. rewrite Et. destruct (1 <=? n)%N; reflexivity.
Qed.

Lemma span_pos dt t : 0 < t -> span dt t = t.
Proof. intros H. unfold span. destruct (Rle_dec t 0); [exfalso; lra|reflexivity]. Qed.
Lemma span_zero dt : span dt 0 = dt.
Proof. unfold span. destruct (Rle_dec 0 0); [reflexivity|exfalso; lra]. Qed.

(** ** A run *)
Section Run.
Variables (g : grid Rops) (bc : String.string) (pt : partition) (geoms : list (geometry_params Rops)) (mats : list (material Rops)) (dom : domain Rops).
Hypothesis D : built_domain g bc pt geoms mats dom.
Hypothesis Hs : sized g.
Variables (fuel cf : nat) (md : mcdata Rops).
Hypothesis Hdt : 0 <= td_dt (mc_track md).
Hypothesis Hh : heavy (mc_track md).
Hypothesis He : 0 < sp_e_min (mc_params md) <= sp_e_max (mc_params md).
Let dt : R := td_dt (mc_track md).

(** What else is known of a particle and its ancestor. *)
Variable C : happening -> Prop.
Variable Y : particle Rops -> particle Rops -> Prop.
Hypothesis Ystep : forall dom' b p e keep p' nx, built g bc pt (d_mesh dom') -> seg_step (mc_track md) dom' p e keep p' nx -> Y b p -> 0 < p_kinetic_energy p ->
  C (Flew p e p') -> (keep = true \/ e = SegCensus -> Y b p') /\ Forall (Y b) nx.
Hypothesis Yprep : forall b p q, prepare_particle (mc_track md) p = Ok q -> Y b p -> Y b q.
Hypothesis Ysame : forall b p q, same_but_weight p q -> Y b p -> Y b q.
Hypothesis Ystart : forall p, starts_inside g pt md p -> on_time p -> C (Born p) -> Y p p.

(** [p], with [t] time left in the cycle, descends from a particle of [bs]. *)
Definition living (bs : list (N * particle Rops)) (n : N) (t : R) (p : particle Rops) : Prop :=
  exists c b, In (c, b) bs /\ (c < n)%N /\ on_time p /\ 0 < p_kinetic_energy p /\ Y b p /\ 0 <= p_age p /\
    real_of c * dt <= moment dt c b <= (real_of c + 1) * dt /\ p_age p + t = real_of n * dt - moment dt c b.
Definition before bs n (p : particle Rops) : Prop := living bs n (span dt (p_time_to_census p)) p.
Definition during bs n (p : particle Rops) : Prop := living bs n (p_time_to_census p) p.
Definition after bs n (p : particle Rops) : Prop := p_time_to_census p = 0 /\ living bs n 0 p.

Lemma step_lives bs n dom' p e keep p' nx : built g bc pt (d_mesh dom') -> seg_step (mc_track md) dom' p e keep p' nx -> during bs n p -> C (Flew p e p') /\ in_time (Flew p e p') ->
  (keep = true -> during bs n p') /\ (e = SegCensus -> after bs n p') /\ Forall (before bs n) nx.
Proof.
  intros B H (c & b & Hin & Hc & Ht & Hk & Hy & Ha & Hm & E) (Hcl & Hti).
  destruct (seg_clock _ _ _ _ _ _ _ H Ht) as (T1 & T2). pose proof (seg_clock_exact _ _ _ _ _ _ _ H Ht Hh Hk) as T3.
  destruct (Ystep _ _ _ _ _ _ _ B H Hy Hk Hcl) as (Y1 & Y2).
  assert (All : forall q, In q (p' :: nx) -> Y b q -> living bs n (p_time_to_census q) q).
  { intros q Hq Hyq. rewrite Forall_forall in T1, T3. destruct (T1 q Hq) as (Q1 & Q2 & Q3 & _). destruct (T3 q Hq) as (Q4 & Q5).
    exists c, b. split; [exact Hin|]. split; [exact Hc|]. split; [exact Q1|]. split; [exact Q5|]. split; [exact Hyq|].
    split; [eapply Rle_trans; [exact Ha|exact Q3]|]. split; [exact Hm|]. rewrite <- E. unfold age_at_census in Q4. exact Q4. }
  split; [|split].
  - intros Hkeep. apply All; [left; reflexivity|]. apply Y1. left. exact Hkeep.
  - intros Hcen. specialize (T2 Hcen). split; [exact T2|]. pose proof (All p' (or_introl eq_refl) (Y1 (or_intror Hcen))) as A. rewrite T2 in A. exact A.
  - destruct (step_together _ _ _ _ _ _ _ H) as [-> |((r & k & Ee) & Tg)]; [constructor|]. subst e. cbn [in_time] in Hti.
    apply Forall_forall. intros q Hq. unfold before. rewrite Forall_forall in Tg, Y2. rewrite span_pos by (rewrite (Tg q Hq); exact Hti).
    apply All; [right; exact Hq|apply Y2; exact Hq].
Qed.

Lemma prepare_lives bs n p q : prepare_particle (mc_track md) p = Ok q -> before bs n p -> during bs n q.
Proof.
  intros H (c & b & Hin & Hc & (Ht & Hn) & Hk & Hy & Ha & Hm & E). destruct (prepared_same _ _ _ H) as (E1 & _ & E3 & E4 & E5).
  assert (Et : p_time_to_census q = span dt (p_time_to_census p)).
  { rewrite E5. fold dt. unfold span. destruct (Rle_dec (p_time_to_census p) 0) as [L|L].
    - rewrite (proj2 (Rleb_iff _ _) L). change (@eq R (p_time_to_census p + dt) dt). change (F Rops) with R in * . lra.
    - rewrite (proj2 (Rleb_false _ _)); [reflexivity|]. change (F Rops) with R in * . lra. }
  assert (Ea : p_age q = p_age p) by (rewrite E3; apply Rmax_left; exact Ha).
  exists c, b. split; [exact Hin|]. split; [exact Hc|]. split; [|split; [rewrite E1; exact Hk|split; [exact (Yprep _ _ _ H Hy)|]]].
  - split; [|rewrite E4; exact Hn]. rewrite Et. unfold span. destruct (Rle_dec _ 0); [exact Hdt|exact Ht].
  - split; [rewrite Ea; exact Ha|]. split; [exact Hm|]. rewrite Ea, Et. exact E.
Qed.

Lemma before_incl bs bs' n p : incl bs bs' -> before bs n p -> before bs' n p.
Proof. intros Hi (c & b & Hin & H). exists c, b. split; [apply Hi; exact Hin|exact H]. Qed.
Lemma before_same bs n p q : same_but_weight p q -> before bs n p -> before bs n q.
Proof.
  intros E (c & b & Hin & Hc & Ht & Hk & Hy & H). pose proof (Ysame b _ _ E Hy) as Hy'. unfold same_but_weight in E.
  exists c, b. split; [exact Hin|]. split; [exact Hc|]. rewrite <- E in Ht, Hk, H. split; [exact Ht|]. split; [exact Hk|]. split; [exact Hy'|exact H].
Qed.
Lemma next_cycle bs n p : after bs n p -> before bs (N.succ n) p.
Proof.
  intros (Et & c & b & Hin & Hc & Ht & Hk & Hy & Ha & Hm & E). exists c, b. split; [exact Hin|]. split; [lia|]. split; [exact Ht|]. split; [exact Hk|].
  split; [exact Hy|]. split; [exact Ha|]. split; [exact Hm|]. rewrite Et, span_zero. assert (En : real_of (N.succ n) = real_of n + 1).
  { unfold real_of. rewrite N2Z.inj_succ, succ_IZR. reflexivity. }
  rewrite En. change (F Rops) with R in * . lra.
Qed.

Lemma born_lives bs n p : In (n, p) bs -> starts_inside g pt md p -> on_time p -> C (Born p) -> before bs (N.succ n) p.
Proof.
  intros Hin St Ht Hc. pose proof (Ystart p St Ht Hc) as Hy. pose proof (started_lively _ _ _ _ (Rmax (sp_e_max (mc_params md)) 20) He ltac:(apply Rmax_l) St) as (Hl & _).
  destruct St as (cc & r1 & r2 & _ & _ & _ & _ & R2 & _ & Et & _ & Ea).
  assert (En : real_of (N.succ n) = real_of n + 1) by (unfold real_of; rewrite N2Z.inj_succ, succ_IZR; reflexivity).
  exists n, p. split; [exact Hin|]. split; [lia|]. split; [exact Ht|]. split; [exact Hl|]. split; [exact Hy|]. split; [rewrite Ea; apply Rle_refl|].
  unfold moment. rewrite Ea, En, Et. fold dt. fold dt in Hdt. assert (S : 0 <= span dt (dt * r2) <= dt).
  { unfold span. destruct (Rle_dec _ 0); [lra|]. split; [nra|]. rewrite <- (Rmult_1_r dt) at 2. apply Rmult_le_compat_l; lra. }
  clearbody dt. change (F Rops) with R in * . lra.
Qed.

Theorem run_lives n s bs hs : run_history fuel cf md dom n s bs hs -> (n <= sp_n_steps (mc_params md))%N -> Forall (fun h => C h /\ in_time h) hs ->
  Forall (after bs n) (processed (s_cont s)).
Proof.
  pose proof (domain_mesh _ _ _ _ _ _ D) as B.
  induction 1 as [|n s bs hs s1 u0 c0 born u c hs' s2 H IH Hsync Hsrc Hborn Hpop Hproc Hlog]; intros Hn Hc; [constructor|].
  apply Forall_app in Hc. destruct Hc as (C1 & Hc). apply Forall_app in Hc. destruct Hc as (C2 & C3). specialize (IH ltac:(lia) C1).
  pose proof (history_log _ _ _ _ _ _ _ _ H) as Hl.
  pose proof (run_steps_settled _ _ _ _ _ _ (log_run _ _ _ _ _ _ _ Hl) _ eq_refl ltac:(lia)) as St.
  destruct (sync_settled _ _ _ _ _ St Hsync ltac:(lia)) as ([Hex Hp Hv Hb] & Pr & M & _).
  destruct (log_sourced _ _ _ _ _ _ _ Hl) as (ps & Hps). destruct (run_starts g bc pt geoms mats dom D Hs _ _ _ _ _ _ Hps) as (_ & Sc).
  rewrite <- (sync_cells _ _ _ _ Hsync) in Sc. destruct (now_starts g bc pt geoms mats dom D Hs _ _ _ _ _ _ _ Sc Hsrc Hborn) as (Sb & _).
  assert (Tb : Forall on_time born).
  { pose proof Hsrc as Hso'. unfold source_now in Hso'. rb Hso' as rates Er. rb Hso' as [[cells k] new] Ec. injection Hso'; intros; subst u0 c0. clear Hso'.
    cbn [processing] in Hborn. apply app_inv_head in Hborn. subst new.
    eapply (source_cells_keep md (d_mesh (u_domain (s_unit s1))) on_time); [|reflexivity| |exact Ec]; [|reflexivity].
    intros w d cc v x p _ _ E. exact (proj1 (sourced_clock _ _ _ _ _ _ _ Hdt E)). }
  set (bs' := bs ++ map (pair n) born).
  assert (Hnew : Forall (before bs' (N.succ n)) born).
  { apply Forall_forall. intros p Hin. rewrite Forall_forall in Sb, Tb, C2. apply born_lives; [|apply Sb; exact Hin|apply Tb; exact Hin|apply (C2 (Born p)); apply in_map; exact Hin].
    unfold bs'. apply in_or_app. right. apply in_map. exact Hin. }
  assert (Hall : Forall (before bs' (N.succ n)) (processing c)).
  { eapply population_from; [intros p q; apply before_same|exact Hsrc|exact Hpop|exact Hex|]. rewrite Hborn, Pr. apply Forall_app. split; [|exact Hnew].
    eapply Forall_impl; [|exact IH]. intros p Hpa. apply (before_incl bs); [apply incl_appl, incl_refl|]. apply next_cycle. exact Hpa. }
  assert (Bu : built g bc pt (d_mesh (u_domain u))).
  { destruct (population_ok _ _ _ _ Hpop Hex Hv Hb) as (src & _ & _ & _ & _ & _ & _ & _ & _ & M' & _). rewrite M', M. exact B. }
  apply (rounds_three (fun h => C h /\ in_time h) (before bs' (N.succ n)) (during bs' (N.succ n)) (after bs' (N.succ n)) (mc_track md) (u_domain u))
    with (ps := processing c) (hs := hs'); [| |exact Hlog|exact Hall|exact C3].
  - intros p e keep p' nx Hst Hd Hcc. exact (step_lives _ _ _ _ _ _ _ _ Bu Hst Hd Hcc).
  - intros p q. apply prepare_lives.
Qed.

End Run.

Theorem run_ages g bc pt geoms mats dom fuel cf (md : mcdata Rops) n s bs hs : built_domain g bc pt geoms mats dom -> sized g ->
  0 <= td_dt (mc_track md) -> heavy (mc_track md) -> 0 < sp_e_min (mc_params md) <= sp_e_max (mc_params md) ->
  run_history fuel cf md dom n s bs hs -> (n <= sp_n_steps (mc_params md))%N -> Forall in_time hs ->
  Forall (as_old_as (td_dt (mc_track md)) n bs) (processed (s_cont s)).
Proof.
  intros D Hs Hdt Hh He H Hn Hc.
  assert (A : Forall (after md (fun _ _ => True) bs n) (processed (s_cont s))).
  { apply (run_lives g bc pt geoms mats dom D Hs fuel cf md Hdt Hh He (fun _ => True) (fun _ _ => True)) with (hs := hs); try (intros; exact I); [|exact H|exact Hn|].
    - intros; split; [intros; exact I|]. apply Forall_forall. intros; exact I.
    - eapply Forall_impl; [|exact Hc]. intros h Hh'. split; [exact I|exact Hh']. }
  eapply Forall_impl; [|exact A]. intros p (Et & c & b & Hin & Hcn & _ & _ & _ & _ & Hm & E). exists c, b. split; [exact Hin|]. split; [exact Hcn|].
  split; [exact Hm|]. rewrite <- E. change (F Rops) with R in * . lra.
Qed.

Theorem run_reaches g bc pt geoms mats dom fuel cf (md : mcdata Rops) n s bs hs : built_domain g bc pt geoms mats dom -> sized g -> fits g ->
  0 <= td_dt (mc_track md) -> heavy (mc_track md) -> 0 < sp_e_min (mc_params md) <= sp_e_max (mc_params md) ->
  run_history fuel cf md dom n s bs hs -> (n <= sp_n_steps (mc_params md))%N -> Forall in_time hs -> Forall (clean g) hs ->
  Forall (comes_from (td_dt (mc_track md)) n bs) (processed (s_cont s)).
Proof.
  intros D Hs Hfit Hdt Hh He H Hn Hc Hcl.
  assert (L0 : 0 < light_speed (K := Rops)) by (rewrite light_R; lra).
  set (Y := fun b p : particle Rops => flying g pt p /\ apart (p_coordinate b) (p_coordinate p) <= light_speed (K := Rops) * p_age p).
  assert (A : Forall (after md Y bs n) (processed (s_cont s))).
  { apply (run_lives g bc pt geoms mats dom D Hs fuel cf md Hdt Hh He (clean g) Y) with (hs := hs); [| | | |exact H|exact Hn|].
    - intros dom' b p e keep p' nx B Hst (Hf & Hr) Hk Hcc.
      pose proof (step_flew g bc pt dom' B Hs Hfit _ _ _ _ _ _ Hst Hf Hk) as Fl.
      destruct (step_home g bc pt dom' B Hs Hfit _ _ _ _ _ _ Hst Hf) as (_ & Hm). destruct (Hm Hcc) as (Hm1 & Hm2).
      assert (Re : forall q, flew_to p q -> apart (p_coordinate b) (p_coordinate q) <= light_speed (K := Rops) * p_age q).
      { intros q Hq. destruct (flew_within _ _ Hk Hq) as (W1 & W2).
        pose proof (apart_triangle (p_coordinate b) (p_coordinate p) (p_coordinate q)). set (cc := light_speed (K := Rops)) in * . clearbody cc. change (F Rops) with R in * .
        replace (cc * p_age q) with (cc * p_age p + cc * (p_age q - p_age p)) by ring. lra. }
      split.
      + intros Hkk. split; [apply Hm1; exact Hkk|apply Re; exact (Forall_inv Fl)].
      + apply Forall_forall. intros q Hq. rewrite Forall_forall in Hm2, Fl. split; [apply Hm2; exact Hq|apply Re, Fl; right; exact Hq].
    - intros b p q Hp (Hf & Hr). destruct (prepared_same _ _ _ Hp) as (_ & E2 & E3 & _). split; [exact (prepared_flies g pt _ _ _ Hdt Hp Hf)|].
      rewrite E2, E3. eapply Rle_trans; [exact Hr|]. apply Rmult_le_compat_l; [apply Rlt_le; exact L0|apply Rmax_l].
    - unfold same_but_weight. intros b p q <- Hp. exact Hp.
    - intros p St Ht Hcc. split; [apply (starts_flying g pt md p St Ht); exact Hcc|]. destruct St as (c & r1 & r2 & _ & _ & _ & _ & _ & _ & _ & _ & E).
      rewrite apart_same, E. apply Rmult_le_pos; [apply Rlt_le; exact L0|lra].
    - clear - Hc Hcl. induction Hc; constructor; [split; [exact (Forall_inv Hcl)|assumption]|]. apply IHHc. exact (Forall_inv_tail Hcl). }
  eapply Forall_impl; [|exact A]. intros p (Et & c & b & Hin & Hcn & _ & _ & (_ & Hr) & _ & Hm & E). exists c, b. split; [exact Hin|]. split; [exact Hcn|].
  assert (Ea : p_age p = real_of n * td_dt (mc_track md) - moment (td_dt (mc_track md)) c b) by (rewrite <- E; change (F Rops) with R in * ; lra).
  split; [exact Ea|]. rewrite <- Ea. exact Hr.
Qed.

Theorem run_young g bc pt geoms mats dom fuel cf (md : mcdata Rops) n s bs hs : built_domain g bc pt geoms mats dom -> sized g ->
  0 <= td_dt (mc_track md) -> heavy (mc_track md) -> 0 < sp_e_min (mc_params md) <= sp_e_max (mc_params md) ->
  run_history fuel cf md dom n s bs hs -> (n <= sp_n_steps (mc_params md))%N -> Forall in_time hs ->
  Forall (fun p : particle Rops => 0 <= p_age p <= real_of n * td_dt (mc_track md)) (processed (s_cont s)).
Proof.
  intros D Hs Hdt Hh He H Hn Hc. eapply Forall_impl; [|exact (run_ages _ _ _ _ _ _ _ _ _ _ _ _ _ D Hs Hdt Hh He H Hn Hc)].
  intros p (c & b & _ & Hcn & (M1 & M2) & E). rewrite E. set (dt := td_dt (mc_track md)) in * . clearbody dt. set (m := moment dt c b) in * . clearbody m.
  assert (Hc0 : 0 <= real_of c) by (unfold real_of; apply (IZR_le 0); lia).
  assert (Hc1 : real_of c + 1 <= real_of n) by (unfold real_of; rewrite <- succ_IZR; apply IZR_le; lia).
  change (F Rops) with R in * . assert (0 <= real_of c * dt) by (apply Rmult_le_pos; lra).
  assert ((real_of c + 1) * dt <= real_of n * dt) by (apply Rmult_le_compat_r; lra). lra.
Qed.
