(** The statements of the properties about cycles and runs, proved from the accounting. *)
From Coq Require Import NArith QArith PeanoNat List Bool Lia Permutation.
From Verif Require Import Float RngModel ParticleModel NuclearModel MeshTypes Balance TrackModel CycleModel
  TrackSpec CycleSpec ProgLemmas TrackAccount CycleAccount ReportModel.
Import ListNotations.
Local Open Scope N_scope.
Local Opaque rng_next spawn_rn_seed.

Section Facts.
Context {K : FloatOps}.

Lemma Forall_map_iff {A B} (f : A -> B) (P : B -> Prop) l : Forall P (map f l) <-> Forall (fun x => P (f x)) l.
Proof. apply Forall_map. Qed.

(** C06 *)
Lemma run_conserved fuel cfuel (md : mcdata K) d s :
  core_loop fuel cfuel md (initial_sim md d) (Ok s) ->
  length (s_reports s) = N.to_nat (sp_n_steps (mc_params md)) /\
  Forall (fun r => conserved (rp_balance r) /\ bget (rp_balance r) EEnd = bget (rp_balance r) ECensus) (s_reports s) /\
  bget (last (map rp_balance (s_reports s)) balance_zero) EEnd = N.of_nat (length (processing (s_cont s))).
Proof.
  intros H. destruct (core_loop_story _ _ _ _ _ H) as (R & S & L & _).
  split; [exact L|]. split.
  - apply run_story_good in S. apply (proj1 (Forall_map_iff rp_balance _ _)) in S. eapply Forall_impl; [|exact S].
    intros r (n & G). split; [apply (gb_conserved _ _ G)|apply (gb_end _ _ G)].
  - apply (run_story_chained _ _ _ _ S).
Qed.

Lemma run_tells fuel cfuel (md : mcdata K) d s :
  core_loop fuel cfuel md (initial_sim md d) (Ok s) ->
  run_story (mc_track md) (d_mesh d) (map rp_balance (s_reports s)) (processing (s_cont s)).
Proof. intros H. apply (core_loop_story _ _ _ _ _ H). Qed.

(** C07 *)
Lemma missing_test_conserved b : missing_particle_test b = true <-> conserved b.
Proof. unfold missing_particle_test, conserved. rewrite N.eqb_eq. tauto. Qed.

Lemma run_missing fuel cfuel (md : mcdata K) d s :
  core_loop fuel cfuel md (initial_sim md d) (Ok s) -> missing_particle_test (rs_balance (s_results s)) = true.
Proof.
  intros H. destruct (core_loop_story _ _ _ _ _ H) as (R & S & L & _ & E). rewrite E.
  apply missing_test_conserved, conserved_bsum. apply run_story_good in S.
  eapply Forall_impl; [|exact S]. intros b (n & G). apply (gb_conserved _ _ G).
Qed.

(** C08, C09: the events of each cycle. *)
Lemma run_story_events td m l (kept : list (particle K)) : run_story td m l kept ->
  exists evss, Forall2 (fun b evs =>
      (exists dom tracked kept, d_mesh dom = m /\ all_valid tracked /\ rounds_paths td dom tracked evs kept) /\
      (forall k, In k [EAbsorb; ECensus; EEscape; ECollision; EFission; EProduce; EScatter; ENumSegments] ->
                 bget b k = total (counts k) evs) /\
      good_balance b (total is_crossing evs)) l evss.
Proof.
  induction 1 as [|l start dom src trk evs kept b H (evss & IH) HM HS HE]; [exists []; constructor|].
  exists (evss ++ [evs]). apply Forall2_app; auto. constructor; [|constructor].
  split; [|split].
  - exists dom, trk, kept. destruct HS as [_ _ _ S (_ & _ & V & _) _ _]. auto.
  - apply (st_counts _ _ _ _ _ _ _ _ HS).
  - eapply story_good_balance; eauto.
Qed.

Lemma bsum_bget l k : bget (bsum l) k = fold_right (fun b a => bget b k + a) 0 l.
Proof.
  induction l as [|b l IH]; [apply bget_zero|]. rewrite bsum_cons, bget_badd, IH. reflexivity.
Qed.

Lemma total_concat f evss : total f (concat evss) = fold_right (fun e a => total f e + a) 0 evss.
Proof. induction evss as [|e l IH]; [reflexivity|]. cbn [concat fold_right]. rewrite total_app, IH. reflexivity. Qed.

Lemma good_badd a b n m : good_balance a n -> good_balance b m -> good_balance (badd a b) (n + m).
Proof.
  intros [A1 A2 A3 A4] [B1 B2 B3 B4]. constructor; unfold conserved in * ; rewrite ?bget_badd; lia.
Qed.
Lemma good_zero : good_balance balance_zero 0.
Proof. constructor; reflexivity. Qed.

Lemma crossings_good b n : good_balance b n -> reported_crossings b = Ok n.
Proof.
  intros [_ _ _ G]. unfold reported_crossings, usub. rewrite G.
  destruct (N.leb_spec (bget b ECollision) (bget b ECollision + bget b ECensus + n)); [|lia].
  cbn [rbind]. destruct (N.leb_spec (bget b ECensus) (bget b ECollision + bget b ECensus + n - bget b ECollision)); [|lia].
  f_equal. lia.
Qed.

Lemma run_events fuel cfuel (md : mcdata K) d s :
  core_loop fuel cfuel md (initial_sim md d) (Ok s) ->
  exists evss, 
    Forall2 (fun r evs =>
      (exists dom tracked kept, d_mesh dom = d_mesh d /\ all_valid tracked /\
         rounds_paths (mc_track md) dom tracked evs kept) /\
      forall k, In k [EAbsorb; ECensus; EEscape; ECollision; EFission; EProduce; EScatter; ENumSegments] ->
                bget (rp_balance r) k = total (counts k) evs) (s_reports s) evss /\
    forall k, In k [EAbsorb; ECensus; EEscape; ECollision; EFission; EProduce; EScatter; ENumSegments] ->
      bget (rs_balance (s_results s)) k = total (counts k) (concat evss).
Proof.
  intros H. destruct (core_loop_story _ _ _ _ _ H) as (R & S & L & _ & E).
  destruct (run_story_events _ _ _ _ S) as (evss & F). exists evss. split.
  - remember (map rp_balance (s_reports s)) as l eqn:El. clear - F El. revert El.
    generalize (s_reports s). induction F as [|b evs l evss (A & B & _) F IH]; intros rs El.
    + destruct rs; [constructor|discriminate].
    + destruct rs as [|r rs]; [discriminate|]. injection El; intros; subst. constructor; auto.
  - intros k Hk. rewrite E, bsum_bget, total_concat.
    clear - F Hk. induction F as [|b evs l evss (A & B & _) F IH]; [reflexivity|].
    cbn [fold_right]. rewrite IH, (B k Hk). reflexivity.
Qed.

Lemma run_collisions fuel cfuel (md : mcdata K) d s :
  core_loop fuel cfuel md (initial_sim md d) (Ok s) ->
  Forall (fun b => bget b ECollision = bget b EScatter + bget b EAbsorb + bget b EFission)
         (rs_balance (s_results s) :: map rp_balance (s_reports s)).
Proof.
  intros H. destruct (core_loop_story _ _ _ _ _ H) as (R & S & L & _ & E).
  apply run_story_good in S. constructor.
  - rewrite E. clear - S. induction S as [|b l (n & [_ _ G _]) S IH]; [reflexivity|].
    rewrite bsum_cons, !bget_badd. lia.
  - eapply Forall_impl; [|exact S]. intros b (n & G). apply (gb_collision _ _ G).
Qed.

Lemma run_crossings fuel cfuel (md : mcdata K) d s :
  core_loop fuel cfuel md (initial_sim md d) (Ok s) ->
  exists evss,
    Forall2 (fun r evs =>
      (exists dom tracked kept, d_mesh dom = d_mesh d /\ all_valid tracked /\
         rounds_paths (mc_track md) dom tracked evs kept) /\
      reported_crossings (rp_balance r) = Ok (total is_crossing evs)) (s_reports s) evss /\
    reported_crossings (rs_balance (s_results s)) = Ok (total is_crossing (concat evss)).
Proof.
  intros H. destruct (core_loop_story _ _ _ _ _ H) as (R & S & L & _ & E).
  destruct (run_story_events _ _ _ _ S) as (evss & F). exists evss. split.
  - remember (map rp_balance (s_reports s)) as l eqn:El. clear - F El. revert El.
    generalize (s_reports s). induction F as [|b evs l evss (A & _ & B) F IH]; intros rs El.
    + destruct rs; [constructor|discriminate].
    + destruct rs as [|r rs]; [discriminate|]. injection El; intros; subst. constructor; auto.
      split; auto. apply crossings_good. exact B.
  - rewrite E. apply crossings_good. clear - F. induction F as [|b evs l evss (A & _ & B) F IH]; [apply good_zero|].
    rewrite bsum_cons. cbn [concat]. rewrite total_app. apply good_badd; auto.
Qed.

(** C10 *)
Lemma run_chained fuel cfuel (md : mcdata K) d s :
  core_loop fuel cfuel md (initial_sim md d) (Ok s) ->
  map rp_cycle (s_reports s) = nrange 0 (N.to_nat (sp_n_steps (mc_params md))) /\
  chained 0 (map rp_balance (s_reports s)) /\
  forall k, bget (rs_balance (s_results s)) k = fold_right (fun r a => bget (rp_balance r) k + a) 0 (s_reports s).
Proof.
  intros H. destruct (core_loop_story _ _ _ _ _ H) as (R & S & L & Nb & E).
  split; [exact Nb|]. split; [apply (run_story_chained _ _ _ _ S)|].
  intros k. rewrite E, bsum_bget. clear. induction (s_reports s) as [|r l IH]; [reflexivity|]. cbn [map fold_right]. rewrite IH. reflexivity.
Qed.

(** C11 *)
Lemma outcome_census (dom : domain K) q speed force xs p1 :
  outcome_after dom q speed force xs = Ok (OutCensus, p1) -> p_last_event p1 = EvCensus.
Proof.
  unfold outcome_after. intros H. rb H as [nf p] E.
  match type of H with context [let '(_, _) := ?h in _] => destruct h as [md o] end.
  rb H as u Hu. destruct o;
    match type of H with context [if ?c then _ else _] => destruct c end;
    injection H; intros; subst; try discriminate; reflexivity.
Qed.

Lemma path_census td dom (p : particle K) evs p' nx :
  track_path td dom p evs p' nx -> p_species p = Known -> p_species p' = Known -> p_last_event p' = EvCensus.
Proof.
  induction 1 as [p e p' nx Hs|p e p1 nx1 evs p' nx2 Hs Hp IH]; intros Hk Hk'.
  - inversion Hs; subst; clear Hs.
    + destruct (1 <=? n); discriminate.
    + destruct (fa_event fa); try discriminate; try contradiction. subst. discriminate.
    + unfold set_num_segments. cbn. eapply outcome_census; eauto.
  - apply IH; auto. destruct (seg_step_count _ _ _ _ _ _ _ Hs Hk) as (_ & S1 & _). apply S1. reflexivity.
Qed.

Lemma rounds_census td dom (ps : list (particle K)) evs kept :
  rounds_paths td dom ps evs kept -> all_valid ps ->
  Forall (fun p => p_species p = Known /\ p_last_event p = EvCensus) kept.
Proof.
  induction 1 as [|ps ps0 ps1 evss nxs next evs kept P S P' R IH]; intros V; [constructor|].
  pose proof (all_valid_perm _ _ P V) as V0.
  destruct (slice_paths_accounted _ _ _ _ _ _ S V0) as (V1 & _).
  apply Forall_app. split.
  - clear - S V0. induction S as [|p q p' ps ps' evs evss nx nxs Hq Hp HS IH]; [constructor|].
    apply Forall_inv in V0 as Hk. apply Forall_inv_tail in V0. cbn [filter].
    destruct (is_valid p') eqn:E; [constructor|]; auto.
    assert (Hp' : p_species p' = Known) by (unfold is_valid in E; destruct (p_species p'); congruence).
    split; auto. apply (path_census _ _ _ _ _ _ Hp); auto.
    unfold prepare_particle in Hq. ok_inv. injection Hq; intros; subst.
    destruct (fle (p_time_to_census p) f0); exact Hk.
  - apply IH. eapply all_valid_perm; [apply Permutation_sym; exact P'|exact V1].
Qed.

Lemma run_drained fuel cfuel (md : mcdata K) d n s :
  run_steps fuel cfuel md (initial_sim md d) n (Ok s) -> n <= sp_n_steps (mc_params md) ->
  processing (s_cont s) = [] /\ extra_particles (s_cont s) = [] /\
  Forall (fun p => p_species p = Known /\ p_last_event p = EvCensus) (processed (s_cont s)).
Proof.
  intros H Hn. pose proof (run_steps_settled _ _ _ _ _ _ H _ eq_refl Hn) as St.
  split; [apply (se_processing _ _ _ _ St)|]. split; [apply (se_extra _ _ _ _ St)|].
  destruct (N.eq_dec n 0) as [E|E].
  - destruct (se_first _ _ _ _ St E) as (_ & P & _). rewrite P. constructor.
  - destruct (se_story _ _ _ _ St E) as (start & dom & src & trk & evs & _ & _ & S).
    destruct S as [_ _ _ S (_ & _ & V & _) _ _]. eapply rounds_census; eauto.
Qed.

(** C46 *)
Lemma sync_fluence (md : mcdata K) n s s' : cycle_sync md n s = Ok s' ->
  rs_fluence (s_results s) = [] -> rs_fluence (s_results s') = [].
Proof.
  unfold cycle_sync. intros H E.
  assert (Hprep : forall s s', prepare_cycle md s = Ok s' -> s_results s' = s_results s).
  { clear. unfold prepare_cycle. intros s s' H. rb H as w Hw. rb H as n Hn. injection H; intros; subst. reflexivity. }
  destruct (n =? 0).
  - rewrite (Hprep _ _ H). exact E.
  - rb H as s1 H1.
    assert (E1 : rs_fluence (s_results s1) = []).
    { unfold finish_cycle in H1. destruct (ei_policy (mc_exec md)); try discriminate;
        rb H1 as [u rs] Hst; rb H1 as rs' Hsp; injection H1; intros; subst; cbn [s_results];
        apply update_spectrum_parts in Hsp as (_ & ->); unfold update_stats in Hst;
        rb Hst as fl Hfl; injection Hst; intros; subst; cbn [rs_fluence];
        (destruct (sp_standard (mc_params md)); [injection Hfl; intros; subst; exact E|]);
        unfold fluence_compute in Hfl; rb Hfl as u0 Hu; injection Hfl; intros; subst; rewrite E; reflexivity. }
    destruct (n =? sp_n_steps (mc_params md) + 1); [injection H; intros; subst; exact E1|].
    rewrite (Hprep _ _ H). exact E1.
Qed.

Lemma process_results fuel cfuel (md : mcdata K) s s' : cycle_process fuel cfuel md s (Ok s') -> s_results s' = s_results s.
Proof.
  intros H. remember (Ok s') as r0 eqn:Er. destruct H as [u c r Hpop Htr|Hpop|Hpop]; try discriminate.
  rb Er as [u' c'] E. injection Er; intros; subst. reflexivity.
Qed.

Lemma steps_fluence fuel cfuel (md : mcdata K) s0 n r : run_steps fuel cfuel md s0 n r ->
  rs_fluence (s_results s0) = [] -> forall s, r = Ok s -> rs_fluence (s_results s) = [].
Proof.
  intros H E0. induction H as [|n s s1 r H IH Hsync Hproc|n s H IH Hsync|n r H IH Hr]; intros s' Er.
  - injection Er; intros; subst. exact E0.
  - subst r. rewrite (process_results _ _ _ _ _ Hproc). eapply sync_fluence; eauto.
  - discriminate.
  - subst r. destruct Hr; discriminate.
Qed.

Lemma run_fluence fuel cfuel (md : mcdata K) d s :
  core_loop fuel cfuel md (initial_sim md d) (Ok s) -> rs_fluence (s_results s) = [].
Proof.
  intros H. remember (Ok s) as r0 eqn:Er. destruct H as [r Hpol Hrun|]; [|discriminate].
  rb Er as s1 E1. subst r. eapply sync_fluence; [exact Er|]. eapply steps_fluence; [exact Hrun|reflexivity|reflexivity].
Qed.

Lemma run_fluence_test fuel cfuel (md : mcdata K) d s :
  core_loop fuel cfuel md (initial_sim md d) (Ok s) ->
  fluence_test (rs_fluence (s_results s)) = fle f0 (flit (6 # 1) : F K).
Proof. intros H. rewrite (run_fluence _ _ _ _ _ H). reflexivity. Qed.

(** C47 *)
Definition group_count (g : N) (ps : list (particle K)) : N :=
  N.of_nat (length (filter (fun p => p_energy_group p =? g) ps)).

Lemma nth_list_set {A} (l : list A) i j x d : (i < length l)%nat ->
  nth j (list_set l i x) d = if Nat.eqb j i then x else nth j l d.
Proof.
  revert i j. induction l as [|y l IH]; intros i j Hi; cbn [length] in Hi; [lia|].
  destruct i as [|i], j as [|j]; cbn [list_set nth Nat.eqb]; auto. apply IH. lia.
Qed.
Lemma length_list_set {A} (l : list A) i x : length (list_set l i x) = length l.
Proof. revert i. induction l as [|y l IH]; intros [|i]; cbn [list_set length]; auto. Qed.

Lemma spectrum_add_counts (ps : list (particle K)) : forall sp sp',
  rfold spectrum_add ps sp = Ok sp' ->
  length sp' = length sp /\ forall g, nth g sp' 0 = nth g sp 0 + group_count (N.of_nat g) ps.
Proof.
  induction ps as [|p ps IH]; intros sp sp' H; cbn [rfold] in H.
  - injection H; intros; subst. split; auto. intros g. unfold group_count. cbn. lia.
  - rb H as sp1 H1. destruct (IH _ _ H) as (L & C). clear IH H.
    unfold spectrum_add in H1. rb H1 as x Hx. injection H1; intros; subst. clear H1.
    rewrite length_list_set in L. split; auto. intros g. rewrite C. clear C.
    unfold vec_get, unwrap in Hx. destruct (nth_error sp (N.to_nat (p_energy_group p))) as [x'|] eqn:En; [|discriminate].
    injection Hx; intros; subst. rewrite nth_list_set by (apply nth_error_Some; congruence).
    unfold group_count. cbn [filter]. destruct (N.eqb_spec (p_energy_group p) (N.of_nat g)) as [E|E].
    + replace g with (N.to_nat (p_energy_group p)) by lia. rewrite Nat.eqb_refl.
      rewrite (nth_error_nth _ _ 0 En). cbn [length]. lia.
    + destruct (Nat.eqb_spec g (N.to_nat (p_energy_group p))); [lia|]. reflexivity.
Qed.

Definition nsum (l : list N) : N := fold_right N.add 0 l.
Lemma nsum_list_set l i x y : nth_error l i = Some x -> nsum (list_set l i (x + y)) = nsum l + y.
Proof.
  revert i. induction l as [|z l IH]; intros [|i] H; cbn [nth_error] in H; try discriminate.
  - injection H; intros; subst. cbn [list_set nsum fold_right]. lia.
  - cbn [list_set nsum fold_right]. apply IH in H. unfold nsum in * . rewrite H. lia.
Qed.
Lemma spectrum_total (ps : list (particle K)) : forall sp sp',
  rfold spectrum_add ps sp = Ok sp' -> nsum sp' = nsum sp + N.of_nat (length ps).
Proof.
  induction ps as [|p ps IH]; intros sp sp' H; cbn [rfold] in H.
  - injection H; intros; subst. cbn. lia.
  - rb H as sp1 H1. rewrite (IH _ _ H). unfold spectrum_add in H1. rb H1 as x Hx.
    injection H1; intros; subst. unfold vec_get, unwrap in Hx.
    destruct (nth_error sp (N.to_nat (p_energy_group p))) as [x'|] eqn:En; [|discriminate].
    injection Hx; intros; subst. rewrite (nsum_list_set _ _ _ _ En). cbn [length]. lia.
Qed.

Lemma finish_spectrum (md : mcdata K) step s s' :
  finish_cycle md step s = Ok s' -> sp_spectrum (mc_params md) = true ->
  length (rs_spectrum (s_results s')) = length (rs_spectrum (s_results s)) /\
  (forall g, nth g (rs_spectrum (s_results s')) 0
             = nth g (rs_spectrum (s_results s)) 0
               + group_count (N.of_nat g) (processing (s_cont s) ++ processed (s_cont s))) /\
  nsum (rs_spectrum (s_results s')) = nsum (rs_spectrum (s_results s))
     + N.of_nat (length (processing (s_cont s) ++ processed (s_cont s))).
Proof.
  unfold finish_cycle. intros H Hsp.
  assert (G : forall s0 u rs rs', update_stats md s0 (s_results s) = Ok (u, rs) ->
    update_spectrum md (s_cont s) rs = Ok rs' ->
    length (rs_spectrum rs') = length (rs_spectrum (s_results s)) /\
    (forall g, nth g (rs_spectrum rs') 0 = nth g (rs_spectrum (s_results s)) 0
               + group_count (N.of_nat g) (processing (s_cont s) ++ processed (s_cont s))) /\
    nsum (rs_spectrum rs') = nsum (rs_spectrum (s_results s))
     + N.of_nat (length (processing (s_cont s) ++ processed (s_cont s)))).
  { intros s0 u rs rs' Hst Hup. unfold update_stats in Hst. rb Hst as fl Hfl.
    injection Hst; intros; subst; clear Hst. unfold update_spectrum in Hup. rewrite Hsp in Hup.
    rb Hup as sp1 H1. rb Hup as sp2 H2. injection Hup; intros; subst. cbn [rs_spectrum] in * .
    destruct (spectrum_add_counts _ _ _ H1) as (L1 & C1). destruct (spectrum_add_counts _ _ _ H2) as (L2 & C2).
    split; [congruence|]. split.
    - intros g. rewrite C2, C1. unfold group_count. rewrite filter_app, app_length. lia.
    - rewrite (spectrum_total _ _ _ H2), (spectrum_total _ _ _ H1), app_length. lia. }
  destruct (ei_policy (mc_exec md)); try discriminate; rb H as [u rs] Hst; rb H as rs' Hup;
    injection H; intros; subst; cbn [s_results]; eapply G; eauto.
Qed.

Lemma finish_no_spectrum (md : mcdata K) step s s' :
  finish_cycle md step s = Ok s' -> sp_spectrum (mc_params md) = false ->
  rs_spectrum (s_results s') = rs_spectrum (s_results s).
Proof.
  unfold finish_cycle. intros H Hsp.
  destruct (ei_policy (mc_exec md)); try discriminate; rb H as [u rs] Hst; rb H as rs' Hup;
    injection H; intros; subst; cbn [s_results]; unfold update_spectrum in Hup; rewrite Hsp in Hup;
    injection Hup; intros; subst; unfold update_stats in Hst; rb Hst as fl Hfl;
    injection Hst; intros; subst; reflexivity.
Qed.

Definition end_sum (rs : list (report K)) : N := fold_right (fun r a => bget (rp_balance r) EEnd + a) 0 rs.
Lemma end_sum_app l r : end_sum (l ++ [r]) = end_sum l + bget (rp_balance r) EEnd.
Proof. induction l as [|x l IH]; cbn [app end_sum fold_right] in * ; [lia|]. unfold end_sum in * . lia. Qed.

Lemma prepare_reports (md : mcdata K) s s' : prepare_cycle md s = Ok s' ->
  s_results s' = s_results s /\ s_reports s' = s_reports s.
Proof.
  unfold prepare_cycle. intros H. rb H as w Hw. rb H as n Hn. injection H; intros; subst. auto.
Qed.

Lemma sync_spectrum (md : mcdata K) m0 n s s' : settled md m0 n s -> cycle_sync md n s = Ok s' ->
  sp_spectrum (mc_params md) = true ->
  nsum (rs_spectrum (s_results s)) = end_sum (s_reports s) ->
  nsum (rs_spectrum (s_results s')) = end_sum (s_reports s').
Proof.
  intros St H Hsp E. unfold cycle_sync in H. destruct (n =? 0).
  - apply prepare_reports in H as (-> & ->). exact E.
  - rb H as s1 H1.
    assert (E1 : nsum (rs_spectrum (s_results s1)) = end_sum (s_reports s1)).
    { destruct (finish_spectrum _ _ _ _ H1 Hsp) as (_ & _ & T).
      destruct (finish_cycle_parts _ _ _ _ H1) as (_ & _ & _ & R & _).
      rewrite R, end_sum_app, T, E. cbn [rp_balance]. rewrite bget_bset_same, (se_processing _ _ _ _ St). reflexivity. }
    destruct (n =? sp_n_steps (mc_params md) + 1); [injection H; intros; subst; exact E1|].
    apply prepare_reports in H as (-> & ->). exact E1.
Qed.

Lemma process_reports fuel cfuel (md : mcdata K) s s' : cycle_process fuel cfuel md s (Ok s') -> s_reports s' = s_reports s.
Proof.
  intros H. remember (Ok s') as r0 eqn:Er. destruct H as [u c r Hpop Htr|Hpop|Hpop]; try discriminate.
  rb Er as [u' c'] E. injection Er; intros; subst. reflexivity.
Qed.

Lemma nsum_repeat n : nsum (repeat 0 n) = 0.
Proof. induction n; cbn; auto. Qed.

Lemma steps_spectrum fuel cfuel (md : mcdata K) d n r : run_steps fuel cfuel md (initial_sim md d) n r ->
  sp_spectrum (mc_params md) = true -> n <= sp_n_steps (mc_params md) ->
  forall s, r = Ok s -> nsum (rs_spectrum (s_results s)) = end_sum (s_reports s).
Proof.
  intros H Hsp. induction H as [|n s s1 r H IH Hsync Hproc|n s H IH Hsync|n r H IH Hr]; intros Hn s' Er.
  - injection Er; intros; subst. cbn [initial_sim s_results rs_spectrum s_reports]. rewrite nsum_repeat. reflexivity.
  - subst r. rewrite (process_results _ _ _ _ _ Hproc), (process_reports _ _ _ _ _ Hproc).
    eapply sync_spectrum; [|exact Hsync|exact Hsp|].
    + eapply run_steps_settled; [exact H|reflexivity|lia].
    + apply IH; [lia|reflexivity].
  - discriminate.
  - subst r. destruct Hr; discriminate.
Qed.

Lemma run_spectrum fuel cfuel (md : mcdata K) d s :
  core_loop fuel cfuel md (initial_sim md d) (Ok s) -> sp_spectrum (mc_params md) = true ->
  nsum (rs_spectrum (s_results s)) = end_sum (s_reports s).
Proof.
  intros H Hsp. remember (Ok s) as r0 eqn:Er. destruct H as [r Hpol Hrun|]; [|discriminate].
  rb Er as s1 E1. subst r. eapply sync_spectrum; [|exact Er|exact Hsp|].
  - eapply run_steps_settled; [exact Hrun|reflexivity|lia].
  - eapply steps_spectrum; [exact Hrun|exact Hsp|lia|reflexivity].
Qed.

End Facts.
