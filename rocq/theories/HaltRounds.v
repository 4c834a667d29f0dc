(** The rounds of tracking of a cycle come to an end (C67). *)
From Coq Require Import NArith ZArith QArith List Bool Reals Lra Lia Psatz Permutation.
From Verif Require Import Float RealOps RngModel RngLemmas ParticleModel NuclearModel MeshTypes Balance TrackModel CycleModel GridModel MeshModel GridSpec MeshSpec MeshTheorems
  ProgLemmas TrackSpec TrackAccount CycleSpec CycleAccount CycleFacts PopSpec SortLemmas SegmentSpec AssignLemmas NearestLemmas FacetLemmas SegmentFacts CrossingLemmas NuclearSpec NuclearFacts OutcomeLemmas
  GeomSpec GeomLemmas PlaneLemmas ScheduleSpec ScheduleLemmas ScheduleFacts RangeSpec RangeFacts RunAgree FluxLog SafeLemmas SafeRun
  StaySpec StayLemmas StaySteps StayRun SpeedSpec SpeedFacts LifeSpec HaltSpec HaltRng HaltGap HaltSteps HaltWays HaltLine HaltEnds.
Import ListNotations.
Local Open Scope R_scope.
Local Opaque rng_next spawn_rn_seed huge tiny.

(** ** A round lacks fuel only if a track does *)

Lemma rmap_nofuel {A B} (f : A -> result B) l : rmap f l = NoFuel -> exists x, In x l /\ f x = NoFuel.
Proof.
  induction l as [|a l IH]; cbn [rmap]; [discriminate|]. destruct (f a) as [b| |] eqn:E; cbn [rbind]; [|discriminate|intros _; exists a; split; [left; reflexivity|exact E]].
  destruct (rmap f l) as [bs| |]; cbn [rbind]; [discriminate|discriminate|]. intros _. destruct (IH eq_refl) as (x & H1 & H2). exists x. split; [right; exact H1|exact H2].
Qed.

Section Fuel.
Context {K : FloatOps}.
Hypothesis zero_not_positive : flt f0 (f0 : F K) = false.

Lemma process_nofuel fuel cf (md : mcdata K) u c :
  sound_mem (mc_track md) (u_domain u) (sp_n_groups (mc_params md)) (u_mem u) ->
  Forall (stays_in_range (mc_track md) (u_domain u) (sp_n_groups (mc_params md))) (processing c) ->
  process_particles fuel cf md u c NoFuel ->
  exists p, In p (processing c) /\ solo fuel cf (mc_track md) (u_domain u) p = NoFuel.
Proof.
  intros Hm Hr H. remember (@NoFuel (unit_state K * container K)) as R0 eqn:ER.
  destruct H as [r Hpol Hrun|n r b Hpol Hch Hpar Hsum|Hpol Hch]; [| |discriminate ER].
  - pose proof (right_run_seq _ _ _ _ _ _ _ _
      (slice_right _ _ _ zero_not_positive fuel cf (processing c) balance_zero (extra_particles c) [] Hr) _ Hm) as G.
    unfold slice_result in G. rewrite Hrun in G. destruct r as [[[[s b] ex] m']| |]; cbn [rbind] in ER; try discriminate.
    apply rmap_nofuel. exact G.
  - set (ch := chunks (N.to_nat n) (processing c)) in * .
    assert (Ec : concat ch = processing c) by (apply chunks_concat; apply chunk_size_pos in Hch; lia).
    assert (HF : Forall2 (fun s p => meets (mc_track md) (u_domain u) (sp_n_groups (mc_params md)) s [] p)
              (map (slice_spec (mc_track md) (u_domain u) fuel cf) ch)
              (map (fun l => track_slice fuel cf (mc_track md) (u_domain u) l balance_zero []) ch)).
    { rewrite <- Ec in Hr. clear - Hr zero_not_positive. induction ch as [|l ch IH]; cbn [map concat] in * ; constructor.
      - apply Forall_app in Hr. apply (slice_right _ _ _ zero_not_positive). tauto.
      - apply IH. apply Forall_app in Hr. tauto. }
    pose proof (par_exec_right _ _ _ _ _ _ _ _ Hm HF Hpar) as G.
    destruct r as [[[[slices bals] m'] ex]| |]; cbn [rbind] in ER.
    + destruct (_ && _)%bool; cbn [rassert rbind] in ER; discriminate.
    + discriminate.
    + destruct G as (s & Hs & Hf). apply in_map_iff in Hs as (l & <- & Hin). cbn [slice_spec sp_fail] in Hf.
      apply rmap_nofuel in Hf as (p & Hp & E). exists p. split; [|exact E]. rewrite <- Ec. apply in_concat. eauto.
Qed.
End Fuel.

(** ** Lines through the rounds *)

Lemma track_child fuel cf td dom : forall (p : particle Rops) p' b nx l, solo_track fuel cf td dom p = Ok (p', b, nx, l) ->
  forall c c' hs q, In c nx -> prepare_particle td c = Ok c' -> line td dom c' hs q ->
  exists hs', line td dom p hs' q /\ (S (length hs) <= length hs')%nat.
Proof.
  induction fuel as [|fuel IH]; intros p p' b nx l H c c' hs q Hc Hp Hl; cbn [solo_track] in H; [discriminate|].
  rb H as [[[[k p1] b1] nx1] x] E. destruct (solo_line _ _ _ _ _ _ _ _ _ E) as (e & St & Ex).
  assert (G : In c nx1 -> exists hs', line td dom p hs' q /\ (S (length hs) <= length hs')%nat).
  { intros Hin. exists (Flew p e p1 :: hs). split; [eapply line_child; eauto|]. cbn [length]. lia. }
  destruct k.
  - rb H as [[[p2 b2] nx2] l2] E2. injection H; intros; subst; clear H. apply in_app_or in Hc. destruct Hc as [Hc|Hc]; [auto|].
    destruct (IH _ _ _ _ _ E2 _ _ _ _ Hc Hp Hl) as (hs' & L & Hn). exists (Flew p e p1 :: hs'). split; [eapply line_on; eauto|]. cbn [length]. lia.
  - injection H; intros; subst; auto.
Qed.

Lemma created_of fuel cf td dom : forall (ps : list (particle Rops)) rs, rmap (solo fuel cf td dom) ps = Ok rs -> forall c, In c (created rs) ->
  exists p p0 p' b nx l, In p ps /\ prepare_particle td p = Ok p0 /\ solo_track fuel cf td dom p0 = Ok (p', b, nx, l) /\ In c nx.
Proof.
  induction ps as [|p ps IH]; intros rs H c Hc; cbn [rmap] in H.
  - injection H; intros; subst. contradiction Hc.
  - rb H as [[[p' b] nx] l] E. rb H as rs' E'. injection H; intros; subst. unfold created in Hc. cbn [map concat] in Hc. apply in_app_or in Hc. destruct Hc as [Hc|Hc].
    + unfold solo in E. rb E as p0 E0. exists p, p0, p', b, nx, l. split; [left; reflexivity|auto].
    + destruct (IH _ E' _ Hc) as (p2 & p0 & p'' & b' & nx' & l' & Hin & R0). exists p2, p0, p'', b', nx', l'. split; [right; exact Hin|exact R0].
Qed.

Section Rounds.
Variables (ok : R -> Prop) (md : mcdata Rops).
Hypothesis Hsafe : safe_energies (K := Rops) md ok.
Hypothesis Hrun : run_ok md.
Notation td := (mc_track md).

Lemma rested_range u c : rested ok md u c -> Forall (stays_in_range td (u_domain u) (sp_n_groups (mc_params md))) (processing (sort_processing c)).
Proof.
  intros [S P M E]. apply (Permutation_Forall (sort_particles_perm (processing c))). eapply Forall_impl; [|exact P].
  intros p Hp. exact (placed_stays (K := Rops) ok md Hsafe (u_domain u) S p Hp).
Qed.

Lemma round_rested fuel cf u c u1 c1 : rested ok md u c -> process_particles fuel cf md u (sort_processing c) (Ok (u1, c1)) ->
  u_domain u1 = u_domain u /\ rested ok md u1 (clean_extra_vaults c1) /\
  exists rs, rmap (solo fuel cf td (u_domain u)) (sort_particles (processing c)) = Ok rs /\ Permutation (processing (clean_extra_vaults c1)) (created rs).
Proof.
  intros HR Hp. pose proof HR as [S P M E]. pose proof (process_as zero_R _ _ _ _ _ _ M (rested_range _ _ HR) Hrun Hp) as GA.
  destruct (rmap (solo fuel cf td (u_domain u)) (processing (sort_processing c))) as [rs| |] eqn:F1; [|destruct GA; discriminate|destruct GA; discriminate].
  destruct GA as (u2 & c2 & Eq & [A1 A2 A3 A4 A5 A6 A7 A8]). injection Eq; intros; subst u2 c2. cbn [sort_processing processing extra_particles] in F1, A6. rewrite E in A6. cbn [app] in A6.
  assert (Q : Permutation (processing (clean_extra_vaults c1)) (created rs)) by (cbn [clean_extra_vaults processing]; rewrite A4; exact A6).
  split; [exact A1|]. split; [|exists rs; auto]. constructor.
  - rewrite A1. exact S.
  - rewrite A1. eapply Permutation_Forall; [apply Permutation_sym; exact Q|].
    eapply (solos_fine (K := Rops) ok md Hsafe (u_domain u) S fuel cf); [|exact F1]. apply (Permutation_Forall (sort_particles_perm (processing c))). exact P.
  - rewrite A1. exact A7.
  - reflexivity.
Qed.

Lemma rounds_line fuel cf : forall n u c u' c', after_rounds fuel cf md n u c u' c' -> rested ok md u c ->
  u_domain u' = u_domain u /\ rested ok md u' c' /\
  forall p1 p1' hs q, In p1 (processing c') -> prepare_particle td p1 = Ok p1' -> line td (u_domain u) p1' hs q ->
  exists p p' hs', In p (processing c) /\ prepare_particle td p = Ok p' /\ line td (u_domain u) p' hs' q /\ (n + length hs <= length hs')%nat.
Proof.
  induction 1 as [u c|n u c u1 c1 u' c' D Hp HA IH]; intros HR.
  - split; [reflexivity|]. split; [exact HR|]. intros p1 p1' hs q H1 H2 H3. exists p1, p1', hs. split; [exact H1|]. split; [exact H2|]. split; [exact H3|]. lia.
  - destruct (round_rested _ _ _ _ _ _ HR Hp) as (Ed & HR1 & rs & Er & Q). destruct (IH HR1) as (Ed' & HR' & G). split; [congruence|]. split; [exact HR'|].
    intros p1 p1' hs q H1 H2 H3. rewrite Ed in G. destruct (G _ _ _ _ H1 H2 H3) as (p2 & p2' & hs2 & I1 & I2 & I3 & I4).
    destruct (created_of _ _ _ _ _ _ Er p2 (Permutation_in _ Q I1)) as (p & p0 & p' & b & nx & l & J1 & J2 & J3 & J4).
    destruct (track_child _ _ _ _ _ _ _ _ _ J3 _ _ _ _ J4 I2 I3) as (hs' & L & Hn). exists p, p0, hs'.
    split; [exact (Permutation_in _ (Permutation_sym (sort_particles_perm (processing c))) J1)|]. split; [exact J2|]. split; [exact L|]. lia.
Qed.

Lemma rounds_stop fuel cf u c r : tracking_rounds fuel cf md u c r -> r = NoFuel ->
  exists n u' c', after_rounds fuel cf md n u c u' c' /\ process_particles fuel cf md u' (sort_processing c') NoFuel.
Proof.
  induction 1 as [u c D|u c u1 c1 r D Hp Ht IH|u c D Hp|u c D Hp]; intros E; try discriminate E.
  - destruct (IH E) as (n & u' & c' & A & B). exists (S n), u', c'. split; [econstructor; eauto|exact B].
  - exists 0%nat, u, c. split; [constructor|exact Hp].
Qed.

Theorem phase_ends g bc pt X T fuel cf u c : rested ok md u c -> built g bc pt (d_mesh (u_domain u)) -> sized g -> fits g -> heavy td -> 0 <= td_dt td ->
  no_denser td (u_domain u) X -> 1 <= X -> answered td (u_domain u) -> (2 <= cf)%nat ->
  (forall p p', In p (processing c) -> prepare_particle td p = Ok p' ->
     flying g pt p' /\ 0 < p_kinetic_energy p' /\ most_segments g X (p_time_to_census p') <= T /\
     forall hs q, line td (u_domain u) p' hs q -> Forall (regular g) hs) ->
  (forall n u' c', after_rounds fuel cf md n u c u' c' -> is_done_processing c' = false -> INR n <= T) /\
  (T < INR fuel -> forall r, tracking_rounds fuel cf md u c r -> r <> NoFuel).
Proof.
  intros HR B Hs Hf Hh Hdt Hx HX Ha Hcf Hp.
  assert (Bound : forall p p' hs q, In p (processing c) -> prepare_particle td p = Ok p' -> line td (u_domain u) p' hs q -> INR (length hs) <= T).
  { intros p p' hs q H1 H2 H3. destruct (Hp _ _ H1 H2) as (Hfl & He & Ht & Hreg).
    pose proof (line_bound g bc pt td (u_domain u) X B Hs Hf Hh Hdt Hx HX hs p' q H3 (conj Hfl He) (Hreg _ _ H3)). lra. }
  split.
  - intros n u' c' HA D. destruct (rounds_line _ _ _ _ _ _ _ HA HR) as (Ed & HR' & G).
    assert (Hin : exists p1, In p1 (processing c')).
    { unfold is_done_processing in D. rewrite (re_extra _ _ _ _ HR') in D. destruct (processing c') as [|p1 l]; [discriminate D|]. exists p1. left. reflexivity. }
    destruct Hin as (p1 & Hin). assert (Hpr : exists p1', prepare_particle td p1 = Ok p1').
    { unfold prepare_particle. cbv zeta. match goal with |- context [get_energy_groups ?nd ?e] => destruct (lookup_total nd e (an_groups _ _ Ha)) as (gr & -> & _) end. eexists. reflexivity. }
    destruct Hpr as (p1' & Hpr). destruct (G _ _ [] p1' Hin Hpr (line_here _ _ _)) as (p & p' & hs' & I1 & I2 & I3 & I4).
    apply Rle_trans with (INR (length hs')); [apply le_INR; cbn [length] in I4; lia|]. eapply Bound; eauto.
  - intros HT r Hr E. destruct (rounds_stop _ _ _ _ _ Hr E) as (n & u' & c' & HA & HN). destruct (rounds_line _ _ _ _ _ _ _ HA HR) as (Ed & HR' & G).
    destruct (process_nofuel zero_R _ _ _ _ _ (re_mem _ _ _ _ HR') (rested_range _ _ HR') HN) as (p1 & Hin & Es). cbn [sort_processing processing] in Hin.
    apply (Permutation_in _ (Permutation_sym (sort_particles_perm (processing c')))) in Hin. unfold solo in Es.
    destruct (prepare_particle td p1) as [p1'| |] eqn:Hpr; cbn [rbind] in Es; [|discriminate Es|].
    + rewrite Ed in Es. destruct (unfinished_line _ _ _ _ Hcf Ha _ Es) as (hs & q & Hl & Hn). destruct (G _ _ _ _ Hin Hpr Hl) as (p & p' & hs' & I1 & I2 & I3 & I4).
      pose proof (Bound _ _ _ _ I1 I2 I3) as Hb. assert (INR fuel <= INR (length hs')) by (apply le_INR; lia). lra.
    + unfold prepare_particle in Hpr. cbv zeta in Hpr. match type of Hpr with context [get_energy_groups ?nd ?e] => destruct (lookup_total nd e (an_groups _ _ Ha)) as (gr & Eg & _); rewrite Eg in Hpr end. discriminate Hpr.
Qed.
End Rounds.

Theorem rounds_end ok (md : mcdata Rops) g bc pt X T fuel cf u c : safe_energies (K := Rops) md ok -> run_ok md -> rested ok md u c ->
  built g bc pt (d_mesh (u_domain u)) -> sized g -> fits g -> heavy (mc_track md) -> 0 <= td_dt (mc_track md) ->
  no_denser (mc_track md) (u_domain u) X -> 1 <= X -> answered (mc_track md) (u_domain u) -> (2 <= cf)%nat ->
  (forall p p', In p (processing c) -> prepare_particle (mc_track md) p = Ok p' ->
     flying g pt p' /\ 0 < p_kinetic_energy p' /\ most_segments g X (p_time_to_census p') <= T /\
     forall hs q, line (mc_track md) (u_domain u) p' hs q -> Forall (regular g) hs) ->
  (forall n u' c', after_rounds fuel cf md n u c u' c' -> is_done_processing c' = false -> INR n <= T) /\
  (T < INR fuel -> forall r, tracking_rounds fuel cf md u c r -> r <> NoFuel).
Proof. intros Hsafe Hrun HR B Hs Hf Hh Hdt Hx HX Ha Hcf Hp. eapply phase_ends; eauto. Qed.
