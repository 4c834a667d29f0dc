(** The rounds of tracking of a cycle return (C68). *)
From Coq Require Import NArith ZArith QArith List Bool Reals Lra Lia Psatz Permutation.
From Verif Require Import Float RealOps RngModel RngLemmas ParticleModel NuclearModel MeshTypes Balance TrackModel CycleModel GridModel MeshModel GridSpec MeshSpec MeshTheorems
  ProgLemmas TrackSpec TrackAccount CycleSpec CycleAccount CycleFacts PopSpec SortLemmas SegmentSpec AssignLemmas NearestLemmas FacetLemmas SegmentFacts CrossingLemmas NuclearSpec NuclearFacts OutcomeLemmas
  GeomSpec GeomLemmas PlaneLemmas ScheduleSpec ScheduleLemmas ScheduleFacts RangeSpec RangeFacts RunAgree ParRun FluxLog SafeSpec SafeLemmas SafeRun SafeReal
  StaySpec StayLemmas StaySteps StayRun SpeedSpec SpeedFacts LifeSpec HaltSpec HaltRng HaltGap HaltSteps HaltWays HaltLine HaltEnds HaltRounds ReturnSpec.
Import ListNotations.
Local Open Scope R_scope.
Local Opaque rng_next spawn_rn_seed huge tiny.

(** ** Lines that continue *)

Definition all_regular (g : grid Rops) td dom (p : particle Rops) : Prop := forall hs q, line td dom p hs q -> Forall (regular g) hs.

Lemma census_direction td dom (p p' : particle Rops) keep nx : seg_step td dom p SegCensus keep p' nx -> on_time p -> p_direction p' = p_direction p.
Proof.
  intros H Ht. destruct (on_time_enters _ Ht) as (E1 & E2). inversion H as [|? xs p1 conn fa p2 ? Ho p1' Hconn Hfa Hev Hm|? xs p1 Ho]; subst.
  rewrite E1, E2 in Ho. destruct (outcome_place _ _ _ _ _ _ Ho) as (ds & i & df & dc & dz & _ & _ & _ & _ & _ & Hd & _). cbn [p_direction set_num_segments].
  exact Hd.
Qed.

Section Tracks.
Variables (g : grid Rops) (bc : String.string) (pt : partition) (td : track_data Rops) (dom : domain Rops).
Hypothesis B : built g bc pt (d_mesh dom).
Hypothesis Hs : sized g.
Hypothesis Hf : fits g.
Hypothesis Hdt : 0 <= td_dt td.

(** Where a particle is when it is kept for the next cycle. *)
Definition resting (p : particle Rops) : Prop := at_home g pt p /\ unit_vec (p_direction p).

(** What is known of a particle that is about to be tracked. *)
Definition ready_to_fly (p : particle Rops) : Prop :=
  forall p', prepare_particle td p = Ok p' -> flying g pt p' /\ all_regular g td dom p'.

Lemma track_rest fuel cf : forall (p : particle Rops) p' b nx l, solo_track fuel cf td dom p = Ok (p', b, nx, l) -> flying g pt p -> all_regular g td dom p ->
  (is_valid p' = true -> resting p') /\ Forall ready_to_fly nx.
Proof.
  induction fuel as [|fuel IH]; intros p p' b nx l H Fl Rg; cbn [solo_track] in H; [discriminate|].
  rb H as [[[[k p1] b1] nx1] x] E. destruct (solo_line _ _ _ _ _ _ _ _ _ E) as (e & St & Ex).
  destruct (step_home g bc pt dom B Hs Hf _ _ _ _ _ _ St Fl) as (Hm & Hc).
  assert (Ch : Forall ready_to_fly nx1).
  { apply Forall_forall. intros c Hin c' Hp.
    assert (L1 : forall hs q, line td dom c' hs q -> line td dom p (Flew p e p1 :: hs) q) by (intros hs q Hl; eapply line_child; eauto).
    pose proof (Rg _ _ (L1 [] c' (line_here _ _ _))) as R1. destruct (Hc (proj1 (Forall_inv R1))) as (_ & Hc2). rewrite Forall_forall in Hc2. split.
    - exact (prepared_flies g pt _ _ _ Hdt Hp (Hc2 _ Hin)).
    - intros hs q Hl. exact (Forall_inv_tail (Rg _ _ (L1 _ _ Hl))). }
  destruct k.
  - rb H as [[[p2 b2] nx2] l2] E2. injection H; intros; subst; clear H.
    assert (L1 : forall hs q, line td dom p1 hs q -> line td dom p (Flew p e p1 :: hs) q) by (intros hs q Hl; eapply line_on; eauto).
    pose proof (Rg _ _ (L1 [] p1 (line_here _ _ _))) as R1. destruct (Hc (proj1 (Forall_inv R1))) as (Hc1 & _).
    destruct (IH _ _ _ _ _ E2 (Hc1 (or_introl eq_refl))) as (I1 & I2).
    { intros hs q Hl. exact (Forall_inv_tail (Rg _ _ (L1 _ _ Hl))). }
    split; [exact I1|]. apply Forall_app. split; assumption.
  - injection H; intros; subst; clear H. split; [|exact Ch]. intros V. split; [exact Hm|]. pose proof (last_known _ _ _ _ _ _ St V). subst e.
    rewrite (census_direction _ _ _ _ _ _ St); apply Fl.
Qed.

Lemma solos_rest fuel cf : forall (ps : list (particle Rops)) rs, rmap (solo fuel cf td dom) ps = Ok rs -> Forall ready_to_fly ps ->
  Forall resting (filter is_valid (finals rs)) /\ Forall ready_to_fly (created rs).
Proof.
  induction ps as [|p ps IH]; intros rs H Hp; cbn [rmap] in H.
  - injection H; intros; subst. split; constructor.
  - rb H as [[[p' b] nx] l] E. rb H as rs' E'. injection H; intros; subst. destruct (IH _ E' (Forall_inv_tail Hp)) as (I1 & I2).
    unfold solo in E. rb E as p0 E0. destruct (Forall_inv Hp _ E0) as (Fl & Rg). destruct (track_rest _ _ _ _ _ _ _ E Fl Rg) as (T1 & T2). split.
    + cbn [finals map filter]. destruct (is_valid p') eqn:V; [constructor; [apply T1; reflexivity|exact I1]|exact I1].
    + unfold created. cbn [map concat]. apply Forall_app. split; assumption.
Qed.
End Tracks.

Lemma rmap_found {A B} (f : A -> result B) l : (forall x, In x l -> exists y, f x = Ok y) -> exists ys, rmap f l = Ok ys.
Proof.
  induction l as [|x l IH]; intros H; cbn [rmap]; [eauto|]. destruct (H x (or_introl eq_refl)) as (y & ->). cbn [rbind].
  destruct IH as (ys & ->); [intros z Hz; apply H; right; exact Hz|]. cbn [rbind]. eauto.
Qed.
Lemma after_snoc fuel cf (md : mcdata Rops) n u c u1 c1 : after_rounds fuel cf md n u c u1 c1 -> forall u2 c2, is_done_processing c1 = false ->
  process_particles fuel cf md u1 (sort_processing c1) (Ok (u2, c2)) -> after_rounds fuel cf md (S n) u c u2 (clean_extra_vaults c2).
Proof.
  induction 1 as [u c|n u c u1 c1 u' c' D Hp HA IH]; intros u2 c2 D2 Hp2.
  - eapply ar_more; [exact D2|exact Hp2|constructor].
  - eapply ar_more; [exact D|exact Hp|]. apply IH; assumption.
Qed.

(** ** The rounds *)
Section Rounds.
Variables (ok : R -> Prop) (md : mcdata Rops).
Hypothesis Hsafe : safe_energies (K := Rops) md ok.
Hypothesis Hok : forall e, ok e -> 0 < e.
Hypothesis Hrun : run_ok md.
Notation td := (mc_track md).
Notation state := (state_ok (K := Rops) (fun x => 0 <= x) ok md).

Lemma state_rested u c : state u c -> extra_particles c = [] -> rested ok md u c.
Proof.
  intros [HS HP HD HM] He. constructor; [exact (sa_sound _ _ _ HS)| |exact HM|exact He]. apply Forall_app in HP. eapply Forall_impl; [|exact (proj1 HP)]. intros p Hp. exact (proj1 Hp).
Qed.

Variables (g : grid Rops) (bc : String.string) (pt : partition) (X T : R) (fuel cf : nat).
Hypothesis Hs : sized g.
Hypothesis Hf : fits g.
Hypothesis Hh : heavy td.
Hypothesis Hdt : 0 <= td_dt td.
Hypothesis HX : 1 <= X.
Hypothesis Hcf : (2 <= cf)%nat.
Hypothesis HT : T < INR fuel.

Section One.
Variables (u : unit_state Rops) (c : container Rops).
Hypothesis St : state u c.
Hypothesis He : extra_particles c = [].
Hypothesis B : built g bc pt (d_mesh (u_domain u)).
Hypothesis Hx : no_denser td (u_domain u) X.
Hypothesis Ha : answered td (u_domain u).
Hypothesis Hfly : Forall (ready_to_fly g pt td (u_domain u)) (processing c).
Hypothesis Htime : forall p p', In p (processing c) -> prepare_particle td p = Ok p' -> most_segments g X (p_time_to_census p') <= T.

Lemma start_bound : forall p p', In p (processing c) -> prepare_particle td p = Ok p' ->
  flying g pt p' /\ 0 < p_kinetic_energy p' /\ most_segments g X (p_time_to_census p') <= T /\
  forall hs q, line td (u_domain u) p' hs q -> Forall (regular g) hs.
Proof.
  intros p p' Hin Hp. rewrite Forall_forall in Hfly. destruct (Hfly _ Hin _ Hp) as (Fl & Rg). split; [exact Fl|]. split; [|split; [exact (Htime _ _ Hin Hp)|exact Rg]].
  destruct (prepared_same _ _ _ Hp) as (-> & _). apply Hok. destruct St as [_ HP _ _]. apply Forall_app in HP. destruct HP as (HP & _). rewrite Forall_forall in HP. apply (HP _ Hin).
Qed.

Lemma round_solos n u' c' : after_rounds fuel cf md n u c u' c' -> state u' c' ->
  forall p, In p (processing c') -> exists x, solo fuel cf td (u_domain u') p = Ok x.
Proof.
  intros HA St' p1 Hin. pose proof (state_rested _ _ St He) as HR. destruct (rounds_line ok md Hsafe Hrun _ _ _ _ _ _ _ HA HR) as (Ed & HR' & G).
  pose proof St' as [[S1 S2 S3] HP' _ _]. apply Forall_app in HP'. destruct HP' as (HP' & _). rewrite Forall_forall in HP'.
  pose proof (proj1 (solo_goes (K := Rops) _ real_sign_laws ok md Hsafe (u_domain u') S1 S2 S3 fuel cf p1 (HP' _ Hin))) as Np.
  destruct (solo fuel cf td (u_domain u') p1) as [x| |] eqn:Es; [eauto|congruence|]. exfalso. clear Np. unfold solo in Es.
  destruct (prepare_particle td p1) as [p1'| |] eqn:Hpr; cbn [rbind] in Es; [|discriminate Es|].
  - rewrite Ed in Es. destruct (unfinished_line _ _ _ _ Hcf Ha _ Es) as (hs & q & Hl & Hn). destruct (G _ _ _ _ Hin Hpr Hl) as (p & p' & hs' & I1 & I2 & I3 & I4).
    destruct (start_bound _ _ I1 I2) as (Fl & Hk & Ht & Rg).
    pose proof (segments_bound g bc pt td (u_domain u) X hs' p' q B Hs Hf Hh Hdt Hx HX I3 Fl Hk (Rg _ _ I3)) as Hb.
    assert (INR fuel <= INR (length hs')) by (apply le_INR; lia). lra.
  - unfold prepare_particle in Hpr. cbv zeta in Hpr. match type of Hpr with context [get_energy_groups ?nd ?e] => destruct (lookup_total nd e (an_groups _ _ Ha)) as (gr & Eg & _); rewrite Eg in Hpr end. discriminate Hpr.
Qed.

Lemma rounds_reach : exists x, tracking_rounds fuel cf md u c (Ok x).
Proof.
  assert (Hb : forall n u' c', after_rounds fuel cf md n u c u' c' -> is_done_processing c' = false -> INR n <= T).
  { exact (proj1 (phase_ends ok md Hsafe Hrun g bc pt X T fuel cf u c (state_rested _ _ St He) B Hs Hf Hh Hdt Hx HX Ha Hcf start_bound)). }
  assert (G : forall k n u' c', (n + k = fuel)%nat -> after_rounds fuel cf md n u c u' c' -> state u' c' -> extra_particles c' = [] -> exists x, tracking_rounds fuel cf md u' c' (Ok x)).
  { induction k as [|k IH]; intros n u' c' Hn HA St' He'; destruct (is_done_processing c') eqn:D'; try (eexists; apply tr_done; exact D').
    - exfalso. pose proof (Hb _ _ _ HA D') as Hle. assert (n = fuel) by lia. subst n. lra.
    - assert (Hso : exists rs, rmap (solo fuel cf td (u_domain u')) (processing (sort_processing c')) = Ok rs).
      { apply rmap_found. intros p Hp. apply (round_solos _ _ _ HA St'). cbn [sort_processing processing] in Hp. exact (Permutation_in _ (Permutation_sym (sort_particles_perm (processing c'))) Hp). }
      destruct Hso as (rs & Ers). pose proof (state_rested _ _ St' He') as HR'.
      destruct (process_exists zero_R fuel cf md u' (sort_processing c') rs (re_mem _ _ _ _ HR') (rested_range ok md Hsafe _ _ HR') Hrun Ers) as ([u2 c2] & Hp2).
      destruct (round_ok (K := Rops) _ real_sign_laws ok md Hsafe Hrun fuel cf u' c' _ St' Hp2) as (_ & St2). specialize (St2 _ _ eq_refl).
      destruct (IH (S n) u2 (clean_extra_vaults c2) ltac:(lia) (after_snoc _ _ _ _ _ _ _ _ HA _ _ D' Hp2) St2 eq_refl) as (x & Hx2).
      exists x. eapply tr_more; eauto. }
  exact (G fuel 0%nat u c eq_refl (ar_none _ _ _ _ _) St He).
Qed.

Lemma rounds_return r : tracking_rounds fuel cf md u c r -> exists x, r = Ok x.
Proof.
  intros H. pose proof (proj1 (SafeRun.rounds_ok (K := Rops) _ real_sign_laws ok md Hsafe Hrun fuel cf u c r H St)) as N1.
  pose proof (proj2 (phase_ends ok md Hsafe Hrun g bc pt X T fuel cf u c (state_rested _ _ St He) B Hs Hf Hh Hdt Hx HX Ha Hcf start_bound) HT r H) as N2.
  destruct r as [x| |]; [eauto|congruence|congruence].
Qed.
End One.

(** What is kept is where it says it is. *)
Lemma rounds_rest u c r : tracking_rounds fuel cf md u c r -> forall u' c', r = Ok (u', c') -> rested ok md u c -> built g bc pt (d_mesh (u_domain u)) ->
  Forall (ready_to_fly g pt td (u_domain u)) (processing c) -> Forall (resting g pt) (processed c) -> u_domain u' = u_domain u /\ Forall (resting g pt) (processed c').
Proof.
  induction 1 as [u c D|u c u1 c1 r D Hp Ht IH|u c D Hp|u c D Hp]; intros u' c' Er HR B Hfly Hk; try discriminate Er.
  - injection Er; intros; subst. auto.
  - destruct (round_rested ok md Hsafe Hrun _ _ _ _ _ _ HR Hp) as (Ed & HR1 & rs & Ers & Q).
    pose proof (process_as zero_R _ _ _ _ _ _ (re_mem _ _ _ _ HR) (rested_range ok md Hsafe _ _ HR) Hrun Hp) as GA. cbn [sort_processing processing] in GA. rewrite Ers in GA.
    destruct GA as (u2 & c2 & Eq & [A1 A2 A3 A4 A5 A6 A7 A8]). injection Eq; intros; subst u2 c2.
    destruct (solos_rest g bc pt td (u_domain u) B Hs Hf Hdt _ _ _ _ Ers) as (R1 & R2); [exact (Permutation_Forall (sort_particles_perm (processing c)) Hfly)|].
    destruct (IH _ _ Er HR1) as (I1 & I2).
    + rewrite Ed. exact B.
    + rewrite Ed. exact (Permutation_Forall (Permutation_sym Q) R2).
    + cbn [clean_extra_vaults processed]. rewrite A5. cbn [sort_processing processed]. apply Forall_app. auto.
    + split; [congruence|exact I2].
Qed.
End Rounds.
