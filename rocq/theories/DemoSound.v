(** The two problems of DemoRun meet the conditions of the theorems about schedules, and they also
    run under the parallel policy. *)
From Coq Require Import NArith ZArith QArith List Bool String Lia.
From Flocq Require Import IEEE754.BinarySingleNaN.
From Verif Require Import Float RngIeee ParticleModel NuclearModel MeshTypes Balance TrackModel CycleModel Ieee GridModel
  AssignModel MeshModel SeqRun Demo DemoRun CycleSpec CycleFacts ScheduleSpec ScheduleLemmas ScheduleFacts RangeSpec RangeFacts
  RunAgree IeeeEnergy ParRun.
Import ListNotations.
Local Open Scope N_scope.

Definition params_check (md : mcdata K64) : bool :=
  let em := sp_e_max (mc_params md) in
  let en := sp_e_min (mc_params md) in
  let w := fadd (fsub em en) en in
  (is_finite (em : f64) && is_finite (en : f64) && fle f0 en && fle en em && fle (flit (20 # 1)) em
   && is_finite (w : f64) && fle w em
   && forallb (fun mat : material K64 => is_finite (mat_mass mat : f64) && fle f1 (mat_mass mat)) (td_mats (mc_track md))
   && match last_energy md with Some el => is_finite (el : f64) && fle em el | None => true end)%bool.
Definition conn_check (dom : domain K64) : bool :=
  forallb (fun conn => forallb (fun fa =>
    match fa_event fa, loc_cell (fa_adjacent fa) with
    | TransitOnProcessor, Some c => c <? n_cells dom
    | _, _ => true
    end) (cc_facet conn)) (me_conn (d_mesh dom)).
Definition problem_check (md : mcdata K64) (dom : domain K64) : bool :=
  (params_check md && (0 <? sp_n_groups (mc_params md))
   && (N.of_nat (List.length (energies md)) =? sp_n_groups (mc_params md) + 1) && conn_check dom)%bool.

Lemma params_check_ok md : params_check md = true -> bounded_params approx_libm md.
Proof.
  unfold params_check. rewrite !andb_true_iff. intros ((((((((H1 & H2) & H3) & H4) & H5) & H6) & H7) & H8) & H9).
  assert (HL : forall el, last_energy (K := K64) md = Some el ->
    is_finite (el : f64) = true /\ fle (sp_e_max (mc_params md)) el = true).
  { intros el E. rewrite E in H9. apply andb_true_iff in H9. exact H9. }
  constructor; auto.
  apply Forall_forall. intros mat Hm. rewrite forallb_forall in H8. specialize (H8 _ Hm). apply andb_true_iff in H8. exact H8.
Qed.

Lemma problem_check_ok md dom : problem_check md dom = true -> energies_bounded md /\ sound_problem md dom.
Proof.
  unfold problem_check. rewrite !andb_true_iff. intros (((H1 & H2) & H3) & H4). split.
  - exists (below approx_libm md). apply bounded_safe, params_check_ok, H1.
  - constructor; [apply N.ltb_lt, H2|apply N.eqb_eq, H3|].
    intros conn fa c Hc Hf He Hl. unfold conn_check in H4. rewrite forallb_forall in H4. specialize (H4 _ Hc).
    rewrite forallb_forall in H4. specialize (H4 _ Hf). rewrite He, Hl in H4. apply N.ltb_lt, H4.
Qed.

Definition demo_check (policy : exec_policy) (d : dims) (bc : string) (n steps : N) : bool :=
  match demo_data policy n steps, demo_domain d bc with
  | Ok md, Ok dom => problem_check md dom
  | _, _ => false
  end.
Lemma demo_checked : demo_check Sequential (mkDims 1 1 1) "octant" 10 2 = true /\
  demo_check Sequential (mkDims 2 1 1) "octant" 21 1 = true.
Proof. vm_compute. split; reflexivity. Qed.

Lemma zero_not_positive64 : flt (f0 : F K64) f0 = false.
Proof. reflexivity. Qed.

(** The two data differ by the policy only. *)
Lemma demo_data_same pol n steps md : demo_data Sequential n steps = Ok md ->
  exists md', demo_data pol n steps = Ok md' /\ same_problem md md' /\ threads_ok md /\ threads_ok md' /\
    ei_policy (mc_exec md) = Sequential /\ ei_policy (mc_exec md') = pol /\ sp_n_steps (mc_params md) = steps.
Proof.
  unfold demo_data. destruct demo_nuclear as [[nd mats]| |]; cbn [rbind]; try discriminate.
  intros H. injection H as <-. eexists. split; [reflexivity|]. split; [repeat split; reflexivity|].
  split; [intros _ _; discriminate|]. split; [intros _ _; discriminate|]. repeat split; reflexivity.
Qed.

Lemma demo_both n steps d v md dom s :
  demo_check Sequential d "octant" n steps = true ->
  demo_data Sequential n steps = Ok md -> demo_domain d "octant" = Ok dom ->
  core_loop 200 20 md (initial_sim md dom) (Ok s) -> demo_view (Ok s) = Some v ->
  exists md' s', demo_data Rayon n steps = Ok md' /\ same_problem md md' /\
    energies_bounded md /\ sound_problem md dom /\ threads_ok md /\ threads_ok md' /\ implemented md /\ implemented md' /\
    core_loop 200 20 md' (initial_sim md' dom) (Ok s') /\ same_state s s'.
Proof.
  intros Hc Hd Hdom Hrun Hv. unfold demo_check in Hc. rewrite Hd, Hdom in Hc.
  destruct (problem_check_ok _ _ Hc) as ((ok & Hsafe) & Hs).
  destruct (demo_data_same Rayon n steps md Hd) as (md' & Hd' & Hsame & T1 & T2 & P1 & P2 & _).
  assert (L1 : loop_policy md) by (left; exact P1). assert (L2 : loop_policy md') by (right; exact P2).
  destruct (run_exists zero_not_positive64 md md' ok Hsame Hsafe T1 T2 L1 L2 200 20 dom s Hs Hrun) as (s' & Hrun' & Hst).
  exists md', s'. split; [exact Hd'|]. split; [exact Hsame|]. split; [exists ok; exact Hsafe|].
  repeat (split; [assumption|]). assumption.
Qed.

Lemma core_loop_first (md : mcdata K64) dom s fuel cf : core_loop fuel cf md (initial_sim md dom) (Ok s) ->
  sp_n_steps (mc_params md) <> 0 ->
  exists s1 s2, cycle_sync md 0 (initial_sim md dom) = Ok s1 /\ cycle_process fuel cf md s1 (Ok s2).
Proof.
  intros H Hn. inversion H as [r Hp Hr Eq|]; subst. destruct r as [s'| |]; try discriminate. clear H Eq.
  assert (G : forall n r, run_steps fuel cf md (initial_sim md dom) n r -> n <> 0 -> forall s', r = Ok s' ->
    exists s1 s2, cycle_sync md 0 (initial_sim md dom) = Ok s1 /\ cycle_process fuel cf md s1 (Ok s2)).
  { induction 1 as [|n s0 s1 r H IH Hsync Hproc|n s0 H IH Hsync|n r H IH Hr']; intros Hn0 s'' Er; try congruence.
    - destruct (N.eq_dec n 0) as [->|E].
      + inversion H; subst; try lia. eauto.
      + eapply IH; eauto.
    - destruct Hr'; congruence. }
  eapply G; eauto.
Qed.

Definition population_of (r1 : result (mcdata K64)) (r2 : result (domain K64)) : option nat :=
  match r1, r2 with
  | Ok md, Ok dom =>
      match cycle_sync md 0 (initial_sim md dom) with
      | Ok s1 => match population_phase md s1 with Ok (u, c) => Some (List.length (processing c)) | _ => None end
      | _ => None
      end
  | _, _ => None
  end.
Lemma demo_populated : population_of (demo_data Sequential 10 2) (demo_domain (mkDims 1 1 1) "octant") = Some 10%nat.
Proof. vm_compute. reflexivity. Qed.

(** The first cycle of the first problem. *)
Lemma demo_first_cycle v md dom s :
  demo_data Sequential 10 2 = Ok md -> demo_domain (mkDims 1 1 1) "octant" = Ok dom ->
  core_loop 200 20 md (initial_sim md dom) (Ok s) -> demo_view (Ok s) = Some v ->
  exists s1 u0 c0 x, 0 < sp_n_steps (mc_params md) /\ cycle_sync md 0 (initial_sim md dom) = Ok s1 /\
    population_phase md s1 = Ok (u0, c0) /\ processing c0 <> [] /\ tracking_rounds 200 20 md u0 c0 (Ok x).
Proof.
  intros Hd Hm Hr Hv. destruct (demo_data_same Sequential 10 2 md Hd) as (_ & _ & _ & _ & _ & _ & _ & Hn).
  destruct (core_loop_first _ _ _ _ _ Hr) as (s1 & s2 & Hs & Hp); [rewrite Hn; discriminate|].
  pose proof demo_populated as HP. rewrite Hd, Hm in HP. unfold population_of in HP. rewrite Hs in HP.
  clear Hd Hm. inversion Hp as [u0 c0 r E T Eq| |]. clear Hp.
  assert (Ex : exists x, r = Ok x) by (clear - Eq; destruct r as [x| |]; [eauto|discriminate Eq|discriminate Eq]).
  destruct Ex as (x & ->). clear Eq.
  exists s1, u0, c0, x. split; [rewrite Hn; reflexivity|]. split; [exact Hs|]. split; [exact E|]. split; [|exact T].
  rewrite E in HP. intros Hnil. rewrite Hnil in HP. discriminate.
Qed.

Lemma demo_first_round v md dom s :
  demo_data Sequential 10 2 = Ok md -> demo_domain (mkDims 1 1 1) "octant" = Ok dom ->
  core_loop 200 20 md (initial_sim md dom) (Ok s) -> demo_view (Ok s) = Some v ->
  exists u c, tracked 200 20 md dom u c /\ processing c <> [] /\
    exists x, process_particles 200 20 md u (sort_processing c) (Ok x).
Proof.
  intros Hd Hm Hr Hv. destruct (demo_first_cycle _ _ _ _ Hd Hm Hr Hv) as (s1 & u0 & c0 & x & H0 & H1 & H2 & H3 & H4).
  exists u0, c0. split; [exists 0, (initial_sim md dom), s1, u0, c0; repeat (split; [assumption || constructor|]); constructor|].
  split; [exact H3|]. inversion H4 as [? ? D|? ? u' c' ? D P T| |]; subst; [|eauto].
  exfalso. unfold is_done_processing in D. apply andb_true_iff in D as (D1 & D2).
  destruct (processing _); [congruence|discriminate].
Qed.
