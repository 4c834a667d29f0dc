(** Consequences for [process_particles]: independence of the schedule, of the chunk size, of the
    number of threads; what the shared arrays contain afterwards. *)
From Coq Require Import NArith PeanoNat List Bool Lia Permutation.
From Verif Require Import Float RngModel ParticleModel NuclearModel MeshTypes Balance TrackModel CycleModel
  ProgLemmas TrackSpec CycleSpec TrackAccount CycleAccount CycleFacts ScheduleSpec ScheduleLemmas.
Import ListNotations.
Local Open Scope N_scope.
Local Open Scope float_scope.
Local Opaque rng_next spawn_rn_seed.

Section Facts.
Context {K : FloatOps}.
Local Notation contribution := (@ScheduleSpec.contribution K).
Local Notation track_result := (@ScheduleSpec.track_result K).

(** ** Lists of results *)

Lemma rmap_app {A B} (f : A -> result B) l1 l2 :
  rmap f (l1 ++ l2) = do r1 <- rmap f l1 ; do r2 <- rmap f l2 ; Ok (r1 ++ r2).
Proof.
  induction l1 as [|x l1 IH]; cbn [rmap app rbind].
  - destruct (rmap f l2); reflexivity.
  - destruct (f x); cbn [rbind]; auto. rewrite IH.
    destruct (rmap f l1); cbn [rbind]; auto. destruct (rmap f l2); reflexivity.
Qed.

Lemma rmap_concat_ok {A B} (f : A -> result B) ls rs : rmap f (concat ls) = Ok rs ->
  exists rss, Forall2 (fun l r => rmap f l = Ok r) ls rss /\ rs = concat rss.
Proof.
  revert rs. induction ls as [|l ls IH]; intros rs H; cbn [concat] in H.
  - cbn in H. injection H; intros; subst. exists []. split; [constructor|reflexivity].
  - rewrite rmap_app in H. rb H as r1 E1. rb H as r2 E2. injection H; intros; subst.
    destruct (IH _ E2) as (rss & HF & ->). exists (r1 :: rss). split; [constructor; auto|reflexivity].
Qed.
Lemma rmap_concat_back {A B} (f : A -> result B) ls rss :
  Forall2 (fun l r => rmap f l = Ok r) ls rss -> rmap f (concat ls) = Ok (concat rss).
Proof.
  induction 1 as [|l r ls rss H1 H2 IH]; cbn [concat]; auto. rewrite rmap_app, H1, IH. reflexivity.
Qed.

Lemma counters_app (a b : list track_result) : counters (a ++ b) = badd (counters a) (counters b).
Proof. unfold counters. rewrite map_app. apply bsum_app. Qed.
Lemma finals_app (a b : list track_result) : finals (a ++ b) = finals a ++ finals b.
Proof. apply map_app. Qed.
Lemma created_app (a b : list track_result) : created (a ++ b) = created a ++ created b.
Proof. unfold created. rewrite map_app, concat_app. reflexivity. Qed.
Lemma contributions_app (a b : list track_result) : contributions (a ++ b) = contributions a ++ contributions b.
Proof. unfold contributions. rewrite map_app, concat_app. reflexivity. Qed.

(** ** Counters of a track never touch those of the other phases *)

Definition quiet (b : balance) : Prop := bget b EStart = 0 /\ bget b EEnd = 0 /\ bget b ESource = 0.

Lemma quiet_badd a b : quiet a -> quiet b -> quiet (badd a b).
Proof. unfold quiet. intros (H1 & H2 & H3) (H4 & H5 & H6). rewrite !bget_badd. lia. Qed.
Lemma quiet_binc b e x : In e [EAbsorb; ECensus; EEscape; ECollision; EFission; EProduce; EScatter; ENumSegments] ->
  quiet b -> quiet (binc b e x).
Proof.
  unfold quiet. intros He (H1 & H2 & H3).
  rewrite !bget_binc_other; [auto|..]; intros ->; cbn in He; decompose [or] He; try discriminate; auto.
Qed.
Lemma quiet_zero : quiet balance_zero.
Proof. repeat split. Qed.

Lemma solo_segment_quiet cf td dom (p : particle K) k p' b nx x :
  solo_segment cf td dom p = Ok (k, p', b, nx, x) -> quiet b.
Proof.
  unfold solo_segment. intros H. rb H as xs E1. rb H as [o q] E2. rb H as [[[k1 p1] b1] nx1] E3.
  injection H; intros; subst; clear H.
  assert (Q : quiet (binc balance_zero ENumSegments 1)) by (apply quiet_binc; [cbn; tauto|apply quiet_zero]).
  destruct o; cbn [after_segment] in E3.
  - unfold on_collision in E3. rb E3 as cs E4. rb E3 as [[[k2 p2] b2] nx2] E5. rb E3 as g E6.
    injection E3; intros; subst; clear E3.
    unfold collision_event in E5. destruct (get_current_xs _) as [cur p3].
    rb E5 as r E7. rb E5 as mat E8. rb E5 as [[n p4] sec] E9. injection E5; intros; subst; clear E5.
    unfold tally_collision. destruct (r_type r); repeat (apply quiet_binc; [cbn; tauto|]); exact Q.
  - unfold on_facet in E3. rb E3 as conn E4. rb E3 as fa E5. rb E3 as p2 E6.
    destruct (p_last_event p2).
    + discriminate.
    + injection E3; intros; subst; exact Q.
    + discriminate.
    + injection E3; intros; subst. apply quiet_binc; [cbn; tauto|exact Q].
    + rb E3 as pls E7. rb E3 as pl E8. injection E3; intros; subst; exact Q.
    + discriminate.
  - injection E3; intros; subst. apply quiet_binc; [cbn; tauto|exact Q].
Qed.

Lemma solo_track_quiet fuel : forall cf td dom (p : particle K) p' b nx l,
  solo_track fuel cf td dom p = Ok (p', b, nx, l) -> quiet b.
Proof.
  induction fuel as [|fuel IH]; intros cf td dom p p' b nx l H; cbn [solo_track] in H; [discriminate|].
  rb H as [[[[k p1] b1] nx1] x] E. apply solo_segment_quiet in E. destruct k.
  - rb H as [[[p2 b2] nx2] l2] E2. apply IH in E2. injection H; intros; subst. apply quiet_badd; auto.
  - injection H; intros; subst. exact E.
Qed.

Lemma counters_quiet fuel cf td dom (ps : list (particle K)) rs :
  rmap (solo fuel cf td dom) ps = Ok rs -> quiet (counters rs).
Proof.
  revert rs. induction ps as [|p ps IH]; intros rs H; cbn [rmap] in H.
  - injection H; intros; subst. apply quiet_zero.
  - rb H as [[[p' b] nx] l] E. rb H as rs' E'. injection H; intros; subst.
    rewrite counters_cons. apply quiet_badd; auto.
    unfold solo in E. rb E as p0 E0. eapply solo_track_quiet; eauto.
Qed.

(** ** One call of [process_particles] *)

Definition run_ok (md : mcdata K) : Prop :=
  ei_policy (mc_exec md) = Rayon \/ ei_policy (mc_exec md) = Hybrid ->
  ei_chunk_size (mc_exec md) = 0 -> ei_n_rayon_threads (mc_exec md) <> 0.

Lemma chunk_size_ok (md : mcdata K) len : run_ok md ->
  ei_policy (mc_exec md) = Rayon \/ ei_policy (mc_exec md) = Hybrid -> exists n, chunk_size (mc_exec md) len = Ok n.
Proof.
  intros H Hp. unfold chunk_size. destruct (ei_chunk_size (mc_exec md)) eqn:E; eauto.
  specialize (H Hp E). apply N.eqb_neq in H. rewrite H. cbn. eauto.
Qed.

Definition slice_spec (td : track_data K) (dom : domain K) fuel cf (ps : list (particle K)) : spec1 :=
  mkSpec1 (slice_solo balance_zero [] [] (rmap (solo fuel cf td dom) ps))
    (rmap (solo fuel cf td dom) ps = Panic) (rmap (solo fuel cf td dom) ps = NoFuel).

Lemma results4_solo td dom fuel cf (ch : list (list (particle K))) slices bals es Ls :
  results4 (map (slice_spec td dom fuel cf) ch) slices bals es Ls ->
  exists rss, Forall2 (fun l r => rmap (solo fuel cf td dom) l = Ok r) ch rss /\
    concat slices = finals (concat rss) /\ bsum bals = counters (concat rss) /\
    concat es = created (concat rss) /\ concat Ls = contributions (concat rss).
Proof.
  revert slices bals es Ls. induction ch as [|l ch IH]; intros slices bals es Ls H; cbn [map] in H;
    inversion H as [|s ss sl sls b bs e es' L Ls' HP HR]; subst.
  - exists []. repeat split; constructor.
  - destruct HP as (rs & E & Es & ->). injection Es; intros; subst; clear Es.
    destruct (IH _ _ _ _ HR) as (rss & HF & H1 & H2 & H3 & H4).
    exists (rs :: rss). split; [constructor; auto|]. cbn [concat].
    rewrite finals_app, counters_app, created_app, contributions_app, H1, H3, H4, bsum_cons, H2, badd_zero_l.
    repeat split; reflexivity.
Qed.

(** What [process_particles] leaves, in terms of the tracks of the particles alone. *)
Record processed_as (md : mcdata K) (u : unit_state K) (c : container K) (rs : list track_result)
    (u' : unit_state K) (c' : container K) : Prop := {
  pa_domain : u_domain u' = u_domain u;
  pa_weight : u_weight u' = u_weight u;
  pa_balance : u_balance u' = badd (u_balance u) (counters rs);
  pa_processing : processing c' = [];
  pa_processed : processed c' = processed c ++ filter is_valid (finals rs);
  pa_extra : Permutation (extra_particles c') (extra_particles c ++ created rs);
  pa_mem : sound_mem (mc_track md) (u_domain u) (sp_n_groups (mc_params md)) (u_mem u');
  pa_flux : exists l, Permutation l (contributions rs) /\
    m_flux (u_mem u') = flux_with (sp_n_groups (mc_params md)) (m_flux (u_mem u)) l
}.

Hypothesis zero_not_positive : f0 <. (f0 : F K) = false.

Lemma process_as fuel cf (md : mcdata K) u c r :
  sound_mem (mc_track md) (u_domain u) (sp_n_groups (mc_params md)) (u_mem u) ->
  Forall (stays_in_range (mc_track md) (u_domain u) (sp_n_groups (mc_params md))) (processing c) ->
  run_ok md ->
  process_particles fuel cf md u c r ->
  match rmap (solo fuel cf (mc_track md) (u_domain u)) (processing c) with
  | Ok rs => exists u' c', r = Ok (u', c') /\ processed_as md u c rs u' c'
  | _ => r = Panic \/ r = NoFuel
  end.
Proof.
  intros Hm Hr Hok H. destruct H as [r Hpol Hrun|n r b Hpol Hch Hpar Hsum|Hpol Hch].
  - pose proof (right_run_seq _ _ _ _ _ _ _ _
      (slice_right _ _ _ zero_not_positive fuel cf (processing c) balance_zero (extra_particles c) [] Hr) _ Hm) as G.
    unfold slice_result in G. rewrite Hrun in G. destruct r as [[s m']| |]; cbn [rbind].
    + destruct G as (l & (rs & E & -> & El) & Hs & Hf). rewrite E. cbn [app] in El. subst l.
      eexists _, _. split; [reflexivity|]. rewrite badd_zero_l.
      constructor; cbn; auto. exists (contributions rs). split; [apply Permutation_refl|exact Hf].
    + rewrite G. auto.
    + rewrite G. auto.
  - set (ch := chunks (N.to_nat n) (processing c)) in * .
    assert (Ec : concat ch = processing c) by (apply chunks_concat; apply chunk_size_pos in Hch; lia).
    assert (HF : Forall2 (fun s p => meets (mc_track md) (u_domain u) (sp_n_groups (mc_params md)) s [] p)
              (map (slice_spec (mc_track md) (u_domain u) fuel cf) ch)
              (map (fun l => track_slice fuel cf (mc_track md) (u_domain u) l balance_zero []) ch)).
    { rewrite <- Ec in Hr. clear - Hr zero_not_positive. induction ch as [|l ch IH]; cbn [map concat] in * ; constructor.
      - apply Forall_app in Hr. apply (slice_right _ _ _ zero_not_positive). tauto.
      - apply IH. apply Forall_app in Hr. tauto. }
    pose proof (par_exec_right _ _ _ _ _ _ _ _ Hm HF Hpar) as G.
    destruct r as [[[[slices bals] m'] ex]| |]; cbn [rbind].
    + specialize (Hsum _ _ _ _ eq_refl). apply par_sum_bsum in Hsum.
      destruct G as (es & Ls & l & HR & He & Hs & Hl & Hf).
      destruct (results4_solo _ _ _ _ _ _ _ _ _ HR) as (rss & HF2 & H1 & H2 & H3 & H4).
      pose proof (rmap_concat_back _ _ _ HF2) as E. rewrite Ec in E. rewrite E.
      rewrite H2 in Hsum. subst b.
      pose proof (counters_quiet _ _ _ _ _ _ E) as (Q1 & Q2 & Q3). rewrite Q1, Q2, Q3. cbn [N.eqb andb rassert rbind].
      eexists _, _. split; [reflexivity|]. rewrite H3 in He. rewrite H4 in Hl.
      constructor; cbn; auto; try (rewrite H1; reflexivity). exists l. split; auto.
    + destruct G as (s & Hs & Hf). apply in_map_iff in Hs as (l & <- & Hin). cbn [slice_spec sp_fail] in Hf.
      destruct (rmap (solo fuel cf (mc_track md) (u_domain u)) (processing c)) as [rs| |] eqn:E; auto.
      rewrite <- Ec in E. apply rmap_concat_ok in E as (rss & HF2 & _).
      exfalso. revert Hin Hf HF2. clear. intros Hin Hf. induction 1; cbn in Hin; [tauto|].
      destruct Hin as [->|Hin]; [congruence|auto].
    + destruct G as (s & Hs & Hf). apply in_map_iff in Hs as (l & <- & Hin). cbn [slice_spec sp_stuck] in Hf.
      destruct (rmap (solo fuel cf (mc_track md) (u_domain u)) (processing c)) as [rs| |] eqn:E; auto.
      rewrite <- Ec in E. apply rmap_concat_ok in E as (rss & HF2 & _).
      exfalso. revert Hin Hf HF2. clear. intros Hin Hf. induction 1; cbn in Hin; [tauto|].
      destruct Hin as [->|Hin]; [congruence|auto].
  - destruct (chunk_size_ok md (N.of_nat (length (processing c))) Hok Hpol) as (n & E). congruence.
Qed.

(** Two executions agree. *)
Lemma process_agree fuel cf (md1 md2 : mcdata K) u c r1 r2 :
  sound_mem (mc_track md1) (u_domain u) (sp_n_groups (mc_params md1)) (u_mem u) ->
  Forall (stays_in_range (mc_track md1) (u_domain u) (sp_n_groups (mc_params md1))) (processing c) ->
  run_ok md1 -> run_ok md2 -> same_problem md1 md2 ->
  process_particles fuel cf md1 u c r1 -> process_particles fuel cf md2 u c r2 ->
  match r1, r2 with
  | Ok (u1, c1), Ok (u2, c2) =>
      u_domain u1 = u_domain u2 /\ u_weight u1 = u_weight u2 /\ u_balance u1 = u_balance u2 /\
      processing c1 = processing c2 /\ processed c1 = processed c2 /\
      Permutation (extra_particles c1) (extra_particles c2)
  | Ok _, _ | _, Ok _ => False
  | _, _ => True
  end.
Proof.
  intros Hm Hr H1 H2 (Sp & St & Sm & Sn) P1 P2.
  pose proof (process_as _ _ _ _ _ _ Hm Hr H1 P1) as G1.
  rewrite St, Sp in Hm, Hr. pose proof (process_as _ _ _ _ _ _ Hm Hr H2 P2) as G2.
  rewrite St in G1.
  destruct (rmap (solo fuel cf (mc_track md2) (u_domain u)) (processing c)) as [rs| |].
  - destruct G1 as (u1 & c1 & -> & A1), G2 as (u2 & c2 & -> & A2).
    destruct A1, A2. repeat split; try congruence. rewrite pa_extra0, pa_extra1. reflexivity.
  - destruct G1 as [->| ->], G2 as [->| ->]; exact I.
  - destruct G1 as [->| ->], G2 as [->| ->]; exact I.
Qed.

(** ** The flux array *)

Definition at_slot (ng : N) (i : nat) (x : contribution) : bool := let '(c, g, _) := x in Nat.eqb (N.to_nat (slot ng c g)) i.
Definition amount (x : contribution) : F K := let '(_, _, v) := x in v.

Lemma flux_entry ng l : forall fl i old, nth_error fl i = Some old ->
  nth_error (flux_with ng fl l) i = Some (fold_left fadd (map amount (filter (at_slot ng i) l)) old).
Proof.
  induction l as [|[[c g] v] l IH]; intros fl i old H; cbn [flux_with fold_left filter map at_slot add_contribution].
  - exact H.
  - destruct (Nat.eqb_spec (N.to_nat (slot ng c g)) i) as [E|E].
    + cbn [map fold_left amount]. rewrite E. apply IH. rewrite H. rewrite (nth_error_list_set_same _ _ _ _ H). reflexivity.
    + apply IH. destruct (nth_error fl (N.to_nat (slot ng c g))); [|exact H].
      rewrite nth_error_list_set_other by exact E. exact H.
Qed.

End Facts.
