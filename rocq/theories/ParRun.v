(** Parallel executions exist: the tasks run one after the other are one of them. *)
From Coq Require Import NArith PeanoNat List Bool Lia Permutation.
From Verif Require Import Float RngModel ParticleModel NuclearModel MeshTypes Balance TrackModel CycleModel
  ProgLemmas TrackSpec CycleSpec TrackAccount CycleAccount CycleFacts ScheduleSpec ScheduleLemmas ScheduleFacts
  RangeSpec RangeFacts RunAgree.
Import ListNotations.
Local Open Scope N_scope.
Local Open Scope float_scope.

Section ParRun.
Context {K : FloatOps}.

Lemma csteps_trans ng (a b c : conf K) : csteps ng a b -> csteps ng b c -> csteps ng a c.
Proof. induction 1; auto. intros. econstructor; eauto. Qed.
Lemma csteps_one ng (a b : conf K) : cstep ng a b -> csteps ng a b.
Proof. intros. econstructor; eauto. constructor. Qed.

Lemma settles_get (h : list (list (F K))) cache i v : settles h cache -> nth_error cache i = Some v ->
  exists vs, nth_error h i = Some vs /\ In v vs.
Proof.
  intros H. revert i. induction H; intros i Hi; destruct i; cbn in * ; try discriminate.
  - injection Hi; intros; subst. eauto.
  - auto.
Qed.
Lemma settles_set (h : list (list (F K))) cache i v vs : settles h cache ->
  settles (list_set h i (v :: vs)) (list_set cache i v).
Proof.
  intros H. revert i. induction H; intros i; cbn [list_set]; [constructor|].
  destruct i; constructor; cbn; auto. apply IHForall2.
Qed.

Lemma run_seq_csteps ng (p : prog K (slice_result K)) : forall l1 l2 h ex m r m',
  run_seq ng p m = Ok (r, m') -> settles h (m_cache m) ->
  exists h', csteps ng (mkConf (l1 ++ Running p :: l2) h (m_flux m) ex)
                       (mkConf (l1 ++ Running (Ret r) :: l2) h' (m_flux m') ex) /\
             settles h' (m_cache m').
Proof.
  induction p as [a| | |c g f IH|c g v q IH|c g v q IH]; intros l1 l2 h ex m r m' H Hs; cbn [run_seq] in H; try discriminate.
  - injection H; intros; subst. exists h. split; [constructor|exact Hs].
  - rb H as v E. unfold vec_get in E. destruct (nth_error (m_cache m) _) as [v'|] eqn:En; [|discriminate].
    injection E; intros; subst. destruct (settles_get _ _ _ _ Hs En) as (vs & Eh & Hin).
    destruct (IH v l1 l2 h ex m r m' H Hs) as (h' & S & G). exists h'. split; [|exact G].
    eapply csteps_step; [|exact S]. eapply CLoad; eauto.
  - rb H as w E. unfold vec_get in E. destruct (nth_error (m_cache m) _) as [v'|] eqn:En; [|discriminate].
    destruct (settles_get _ _ _ _ Hs En) as (vs & Eh & Hin).
    destruct (IH l1 l2 (list_set h (N.to_nat (slot ng c g)) (v :: vs)) ex _ r m' H) as (h' & S & G).
    { cbn [m_cache]. apply settles_set. exact Hs. }
    exists h'. split; [|exact G]. eapply csteps_step; [|exact S]. eapply CStore; eauto.
  - rb H as old E. unfold vec_get in E. destruct (nth_error (m_flux m) _) as [v'|] eqn:En; [|discriminate].
    injection E; intros; subst.
    destruct (IH l1 l2 h ex _ r m' H Hs) as (h' & S & G).
    exists h'. split; [|exact G].
    eapply csteps_step; [eapply (CFluxRead _ _ _ _ _ _ _ _ _ _ old); eauto|].
    eapply csteps_step; [|exact S]. cbn [m_flux]. eapply CFluxCas; eauto.
Qed.

(** Tasks run one after the other. *)
Lemma tasks_run ng (P : mem K -> Prop) (tasks : list (prog K (slice_result K))) :
  Forall (fun p => forall m, P m -> exists r m', run_seq ng p m = Ok (r, m') /\ P m') tasks ->
  forall dones h m ex, P m -> settles h (m_cache m) ->
  exists slices bals h' m' ex',
    csteps ng (mkConf (dones ++ map Running tasks) h (m_flux m) ex)
              (mkConf (dones ++ map (fun sb => Done (fst sb) (snd sb)) (combine slices bals)) h' (m_flux m') ex') /\
    length slices = length tasks /\ length bals = length tasks /\ settles h' (m_cache m').
Proof.
  induction 1 as [|p tasks Hp Ht IH]; intros dones h m ex HP Hs.
  - exists [], [], h, m, ex. cbn. repeat split; auto. constructor.
  - destruct (Hp m HP) as ([[ps b] exl] & m' & E & HP').
    destruct (run_seq_csteps ng p dones (map Running tasks) h ex m _ _ E Hs) as (h' & S & Hs').
    destruct (IH (dones ++ [Done ps b]) h' m' (ex ++ exl) HP' Hs') as (sl & bs & h2 & m2 & ex2 & S2 & L1 & L2 & Hs2).
    exists (ps :: sl), (b :: bs), h2, m2, ex2. cbn [combine map length]. repeat split; auto.
    eapply csteps_trans; [exact S|]. eapply csteps_step; [apply CFinish|].
    rewrite <- !app_assoc in S2. cbn [app fst snd] in * . exact S2.
Qed.

Lemma settles_init (cache : list (F K)) : settles (map (fun v => [v]) cache) cache.
Proof. induction cache; constructor; auto. left. reflexivity. Qed.

Lemma par_exec_exists ng (P : mem K -> Prop) tasks m ex :
  Forall (fun p => forall m, P m -> exists r m', run_seq ng p m = Ok (r, m') /\ P m') tasks -> P m ->
  exists slices bals m' ex', par_exec ng tasks m ex (Ok (slices, bals, m', ex')).
Proof.
  intros HT HP. destruct (tasks_run ng P tasks HT [] _ m ex HP (settles_init _)) as (sl & bs & h & m' & ex' & S & L1 & L2 & Hs).
  exists sl, bs, (mkMem (m_cache m') (m_flux m')), ex'. eapply par_ok; eauto.
Qed.

Hypothesis zero_not_positive : f0 <. (f0 : F K) = false.

(** If every particle alone finishes its track, every policy has an execution that returns. *)
Lemma process_exists fuel cf (md : mcdata K) u c rs :
  sound_mem (mc_track md) (u_domain u) (sp_n_groups (mc_params md)) (u_mem u) ->
  Forall (stays_in_range (mc_track md) (u_domain u) (sp_n_groups (mc_params md))) (processing c) ->
  run_ok md -> rmap (solo fuel cf (mc_track md) (u_domain u)) (processing c) = Ok rs ->
  exists x, process_particles fuel cf md u c (Ok x).
Proof.
  intros Hm Hr Hok E.
  assert (Hpar : ei_policy (mc_exec md) = Rayon \/ ei_policy (mc_exec md) = Hybrid ->
    exists x, process_particles fuel cf md u c (Ok x)).
  { intros Hpol. destruct (chunk_size_ok md (N.of_nat (length (processing c))) Hok Hpol) as (n & Hn).
    set (ch := chunks (N.to_nat n) (processing c)).
    assert (Ec : concat ch = processing c) by (apply chunks_concat; apply chunk_size_pos in Hn; lia).
    destruct (par_exec_exists (sp_n_groups (mc_params md))
      (sound_mem (mc_track md) (u_domain u) (sp_n_groups (mc_params md)))
      (map (fun l => track_slice fuel cf (mc_track md) (u_domain u) l balance_zero []) ch) (u_mem u) (extra_particles c))
      as (sl & bs & m' & ex' & HE); [|exact Hm|].
    { rewrite <- Ec in Hr, E. apply rmap_concat_ok in E as (rss & HF & _). clear - Hr HF zero_not_positive.
      revert Hr. induction HF as [|l r ls rss Hl HF IH]; intros Hr; cbn [map concat] in * ; constructor.
      - intros m Hm. apply Forall_app in Hr as (Hr & _).
        pose proof (right_run_seq _ _ _ _ _ _ _ _
          (slice_right _ _ _ zero_not_positive fuel cf l balance_zero [] [] Hr) _ Hm) as G.
        unfold slice_result in G |- * .
        destruct (run_seq _ (track_slice fuel cf (mc_track md) (u_domain u) l balance_zero []) m) as [[a m']| |];
          [|congruence|congruence].
        destruct G as (l' & _ & G & _). eauto.
      - apply IH. apply Forall_app in Hr. tauto. }
    pose proof (pp_par fuel cf md u c n _ (bsum [bsum bs]) Hpol Hn HE) as HP.
    assert (HS : forall s bals m ex, Ok (sl, bs, m', ex') = Ok (s, bals, m, ex) -> par_sum bals (bsum [bsum bs])).
    { intros s bals m ex Heq. injection Heq; intros; subst. constructor. }
    specialize (HP HS). pose proof (process_as zero_not_positive _ _ _ _ _ _ Hm Hr Hok HP) as G. rewrite E in G.
    destruct G as (u' & c' & Eq & _). exists (u', c'). rewrite <- Eq. exact HP. }
  assert (Hseq : ei_policy (mc_exec md) = Sequential \/ ei_policy (mc_exec md) = Distributed ->
    exists x, process_particles fuel cf md u c (Ok x)).
  { intros Hpol. pose proof (pp_seq fuel cf md u c _ Hpol eq_refl) as HP.
    pose proof (process_as zero_not_positive _ _ _ _ _ _ Hm Hr Hok HP) as G. rewrite E in G.
    destruct G as (u' & c' & Eq & _). exists (u', c'). rewrite <- Eq. exact HP. }
  destruct (ei_policy (mc_exec md)); auto.
Qed.

(** ** Whole runs *)

Variables (md1 md2 : mcdata K) (ok : F K -> Prop).
Hypothesis Hsame : same_problem md1 md2.
Hypothesis Hsafe : safe_energies md1 ok.
Hypothesis Hrun1 : run_ok md1.
Hypothesis Hrun2 : run_ok md2.

Lemma rounds_exist fuel cf u1 c1 r1 : tracking_rounds fuel cf md1 u1 c1 r1 ->
  forall x1 u2 c2, r1 = Ok x1 -> uc_rel md1 ok (u1, c1) (u2, c2) ->
  exists x2, tracking_rounds fuel cf md2 u2 c2 (Ok x2).
Proof.
  assert (Hd : forall u1 c1 u2 c2, uc_rel md1 ok (u1, c1) (u2, c2) -> is_done_processing c1 = is_done_processing c2).
  { intros u1' c1' u2 c2 [D B W P1 P2 P3 S PL M1 M2]. unfold is_done_processing. cbn [snd] in * .
    rewrite (is_nil_perm _ _ P1), (is_nil_perm _ _ P3). reflexivity. }
  induction 1 as [u1 c1 D1|u1 c1 u1' c1' r1 D1 Hp1 Ht1 IH|u1 c1 D1 Hp1|u1 c1 D1 Hp1]; intros x1 u2 c2 Er HR;
    try discriminate; pose proof (Hd _ _ _ _ HR) as Ed; rewrite D1 in Ed; symmetry in Ed.
  - exists (u2, c2). apply tr_done. exact Ed.
  - assert (HE : exists x, process_particles fuel cf md2 u2 (sort_processing c2) (Ok x)).
    { pose proof HR as [D B W P1 P2 P3 S PL M1 M2]. cbn [fst snd] in * . pose proof Hsame as (E1 & E2 & E3 & E4).
      apply Forall_app in PL as (PL1 & _).
      assert (Q1 : Permutation (processing c1) (sort_particles (processing c1))) by apply sort_particles_perm.
      assert (Q2 : Permutation (processing c2) (sort_particles (processing c2))) by apply sort_particles_perm.
      assert (R1 : Forall (stays_in_range (mc_track md1) (u_domain u1) (sp_n_groups (mc_params md1))) (sort_particles (processing c1))).
      { apply (Permutation_Forall Q1). eapply Forall_impl; [|exact PL1].
        intros p Hp. exact (placed_stays ok md1 Hsafe (u_domain u1) S p Hp). }
      pose proof (process_as zero_not_positive _ _ _ _ (sort_processing c1) _ M1 R1 Hrun1 Hp1) as G.
      cbn [sort_processing processing] in G.
      assert (Q : Permutation (sort_particles (processing c1)) (sort_particles (processing c2))).
      { eapply Permutation_trans; [apply Permutation_sym; exact Q1|]. exact (Permutation_trans P1 Q2). }
      pose proof (rmap_perm (solo fuel cf (mc_track md1) (u_domain u1)) _ _ Q) as GA.
      destruct (rmap (solo fuel cf (mc_track md1) (u_domain u1)) (sort_particles (processing c1))) as [rs1| |];
        [|destruct G; discriminate|destruct G; discriminate].
      destruct (rmap (solo fuel cf (mc_track md1) (u_domain u1)) (sort_particles (processing c2))) as [rs2| |] eqn:F2;
        try (destruct GA; fail).
      eapply (process_exists fuel cf md2 u2 (sort_processing c2) rs2); cbn [sort_processing processing].
      - rewrite <- E1, <- E2, <- D. exact M2.
      - rewrite <- E1, <- E2, <- D. exact (Permutation_Forall Q R1).
      - exact Hrun2.
      - rewrite <- E2, <- D. exact F2. }
    destruct HE as ([u2' c2'] & Hp2).
    pose proof (process_rel md1 md2 ok Hsame Hsafe Hrun1 Hrun2 zero_not_positive _ _ _ _ _ _ _ _ HR Hp1 Hp2) as G.
    cbn [agree fst snd] in G. destruct (IH x1 _ _ Er G) as (x2 & H2). exists x2. eapply tr_more; eauto.
Qed.

Lemma cycle_process_exists fuel cf s1 s2 x1 : p_rel md1 ok s1 s2 -> cycle_process fuel cf md1 s1 (Ok x1) ->
  exists x2, cycle_process fuel cf md2 s2 (Ok x2).
Proof.
  intros HR H1. pose proof (population_rel md1 md2 ok Hsame Hsafe _ _ HR) as G.
  inversion H1 as [u1 c1 q1 E1 T1 Eq|E1|E1]; subst. rewrite E1 in G.
  destruct q1 as [[u c]| |]; try discriminate.
  destruct (population_phase md2 s2) as [[u2 c2]| |] eqn:E2; cbn [agree] in G; try (destruct G; fail).
  destruct (rounds_exist _ _ _ _ _ T1 _ _ _ eq_refl G) as ([u2' c2'] & T2).
  eexists. exact (cp_run fuel cf md2 s2 u2 c2 (Ok (u2', c2')) E2 T2).
Qed.

Hypothesis Hpol1 : loop_policy md1.
Hypothesis Hpol2 : loop_policy md2.

Lemma steps_exist fuel cf s1 s2 n r1 : s_rel md1 ok s1 s2 -> run_steps fuel cf md1 s1 n r1 ->
  forall x1, r1 = Ok x1 -> n <= sp_n_steps (mc_params md1) -> exists x2, run_steps fuel cf md2 s2 n (Ok x2).
Proof.
  intros HR. induction 1 as [|n a a1 r1 H IH Hs Hp|n a H IH Hs|n r1 H IH Hr]; intros x1 Er Hn; try discriminate.
  - eexists. constructor.
  - subst r1. destruct (IH a eq_refl) as (b & Hb); [lia|].
    assert (G : agree (s_rel md1 ok) (Ok a) (Ok b)).
    { eapply (steps_rel md1 md2 ok Hsame Hsafe Hrun1 Hrun2 zero_not_positive Hpol1 Hpol2); eauto. lia. }
    cbn [agree] in G.
    pose proof (sync_rel_ok md1 md2 ok Hsame Hpol1 Hpol2 n _ _ G) as Gs. rewrite Hs in Gs.
    destruct (cycle_sync md2 n b) as [b1| |] eqn:Hs2; cbn [agree] in Gs; try (destruct Gs; fail).
    destruct (N.eqb_spec n (sp_n_steps (mc_params md1) + 1)); [lia|]. rewrite andb_false_r in Gs. cbn [sync_rel] in Gs.
    destruct (cycle_process_exists _ _ _ _ _ Gs Hp) as (x2 & H2). exists x2. eapply rs_succ; eauto.
  - destruct Hr; congruence.
Qed.

Theorem run_exists fuel cf d s1 : sound_problem md1 d ->
  core_loop fuel cf md1 (initial_sim md1 d) (Ok s1) ->
  exists s2, core_loop fuel cf md2 (initial_sim md2 d) (Ok s2) /\ same_state s1 s2.
Proof.
  intros Hd H1. pose proof Hsame as (E1 & _).
  assert (HE : exists s2, core_loop fuel cf md2 (initial_sim md2 d) (Ok s2)).
  { inversion H1 as [q1 Q1 T1 Eq|Q1]; subst. destruct q1 as [a| |]; try discriminate. cbn [rbind] in Eq.
    pose proof (initial_rel md1 md2 ok Hsame d Hd) as HI.
    destruct (steps_exist _ _ _ _ _ _ HI T1 _ eq_refl) as (b & T2); [lia|].
    assert (G : agree (s_rel md1 ok) (Ok a) (Ok b)).
    { eapply (steps_rel md1 md2 ok Hsame Hsafe Hrun1 Hrun2 zero_not_positive Hpol1 Hpol2); eauto. lia. }
    cbn [agree] in G.
    pose proof (sync_rel_ok md1 md2 ok Hsame Hpol1 Hpol2 (sp_n_steps (mc_params md1)) _ _ G) as Gs. rewrite Eq in Gs.
    destruct (cycle_sync md2 (sp_n_steps (mc_params md1)) b) as [s2| |] eqn:Hs2; cbn [agree] in Gs; try (destruct Gs; fail).
    exists s2. rewrite <- Hs2. rewrite E1 in T2 |- * . apply (cl_run fuel cf md2 _ (Ok b)); auto. }
  destruct HE as (s2 & H2). exists s2. split; [exact H2|].
  exact (runs_agree md1 md2 ok Hsame Hsafe Hrun1 Hrun2 zero_not_positive Hpol1 Hpol2 _ _ _ _ _ Hd H1 H2).
Qed.

End ParRun.
