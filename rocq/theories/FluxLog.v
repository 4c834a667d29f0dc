(** The flux tally holds the lengths of the segments of the log. *)
From Coq Require Import NArith ZArith List Bool Lia Reals Lra Permutation.
From Flocq Require Import Core.
From Verif Require Import Float RealOps RngModel ParticleModel NuclearModel MeshTypes Balance TrackModel CycleModel
  ProgLemmas TrackSpec CycleSpec TrackAccount CycleAccount SegmentFacts PopSpec SegmentSpec GeomSpec StaySpec SpeedSpec SourceLemmas PopLemmas SourceCount StayRun
  ScheduleSpec ScheduleLemmas RangeSpec RangeFacts ScheduleFacts RunAgree SafeRun ScheduleRun WeightSpec WeightFacts WeightRun.
Import ListNotations.
Local Open Scope N_scope.

(** ** A segment alone is a segment of the log *)
Section Any.
Context {K : FloatOps}.

Lemma after_step cf td dom (p : particle K) xs o q0 b ex keep p' b' ex' :
  outcome_after dom (entering p) (get_speed p) (out_of_paths p) xs = Ok (o, q0) ->
  after_segment cf td dom o (set_num_segments q0 (fadd (p_num_segments q0) f1)) b ex = Ok (keep, p', b', ex') ->
  exists e nx, seg_step td dom p e keep p' nx /\ ex' = ex ++ nx /\ tag p' = tag q0.
Proof.
  intros E E2. destruct o; unfold after_segment in E2.
  - unfold on_collision in E2. rb E2 as cs Ecs. rb E2 as [[[keep0 p0] b0] ex0] Ece. rb E2 as g Eg. unfold collision_event in Ece.
    destruct (get_current_xs (set_num_segments q0 (fadd (p_num_segments q0) f1))) as [cur p2] eqn:Ecur.
    rb Ece as r Er. rb Ece as mat Emat. rb Ece as [[n p3] sec] Esc. injection Ece; intros; subst; clear Ece. injection E2; intros; subst; clear E2.
    exists (SegCollision (r_type r) n), sec. split; [eapply ss_collision; eauto|]. split; [reflexivity|].
    pose proof (Forall_inv (collision_tag _ _ _ _ _ _ Esc)) as T. assert (T2 : tag p2 = tag q0).
    { unfold get_current_xs, draw in Ecur. injection Ecur; intros; subst. reflexivity. }
    rewrite <- T2, <- T. destruct (1 <=? n); reflexivity.
  - unfold on_facet in E2. rb E2 as conn Econn. rb E2 as fa Efa. rb E2 as p2 Ep2. pose proof (facet_event_last _ _ _ Ep2) as Hl.
    assert (Hc : keep = match fa_event fa with BoundaryEscape => false | _ => true end /\ ex' = ex /\
      match fa_event fa with
      | TransitOnProcessor => p' = p2
      | BoundaryReflection => exists planes pl, vec_get (me_geom (d_mesh dom)) (p_cell p2) = Ok planes /\ vec_get planes (p_facet p2) = Ok pl /\ p' = reflect_particle p2 pl
      | BoundaryEscape => p' = set_species (set_last_event p2 EvEscape) Unknown
      | _ => False
      end).
    { destruct (fa_event fa); try contradiction; rewrite Hl in E2; try discriminate.
      - injection E2; intros; subst; auto.
      - rb E2 as planes Epl. rb E2 as pl Epl2. injection E2; intros; subst. eauto 10.
      - injection E2; intros; subst; auto. }
    destruct Hc as (-> & -> & Hc). exists (SegFacet (fa_event fa)), []. split; [eapply ss_facet; eauto|]. split; [symmetry; apply app_nil_r|].
    exact (facet_tag dom _ _ _ _ Ep2 Hc).
  - injection E2; intros; subst; clear E2. exists SegCensus, []. split; [eapply ss_census; eauto|]. split; [symmetry; apply app_nil_r|reflexivity].
Qed.

Lemma solo_step cf td dom (p : particle K) keep p' b nx x : solo_segment cf td dom p = Ok (keep, p', b, nx, x) ->
  exists e, seg_step td dom p e keep p' nx /\ x = (p_cell p, p_energy_group p, fmul (p_segment_path_length p') (p_weight p)).
Proof.
  unfold solo_segment. intros H. rb H as xs Ex. rb H as [o q] Eo. rb H as [[[k p1] b1] nx1] Ea. injection H; intros; subst; clear H.
  destruct (after_step cf td dom p xs o q _ _ _ _ _ _ Eo Ea) as (e & nx' & S & En & T). cbn [app] in En. subst nx'. exists e. split; [exact S|].
  apply outcome_weight in Eo. destruct Eo as (Ew & _). unfold tag in T. injection T; intros T1 T2. f_equal. cbn [p_segment_path_length p_weight set_num_segments].
  rewrite T1. f_equal. rewrite Ew. destruct (flt _ _); reflexivity.
Qed.
End Any.

(** What a segment of the log adds to the flux. *)
Definition deposit (h : happening) : list (@contribution Rops) :=
  match h with Born _ => [] | Flew p _ q => [(p_cell p, p_energy_group p, fmul (p_segment_path_length q) (p_weight p))] end.
Definition deposits (hs : list happening) : list (@contribution Rops) := flat_map deposit hs.

Lemma solo_logged fuel cf td dom : forall (p : particle Rops) p' b nx l, solo_track fuel cf td dom p = Ok (p', b, nx, l) ->
  exists hs, track_log td dom p hs p' nx /\ l = deposits hs.
Proof.
  induction fuel as [|fuel IH]; intros p p' b nx l H; cbn [solo_track] in H; [discriminate|].
  rb H as [[[[k p1] b1] nx1] x] E. destruct (solo_step _ _ _ _ _ _ _ _ _ E) as (e & S & ->). destruct k.
  - rb H as [[[p2 b2] nx2] l2] E2. injection H; intros; subst. destruct (IH _ _ _ _ _ E2) as (hs & T & ->).
    exists (Flew p e p1 :: hs). split; [eapply tl_more; eauto|reflexivity].
  - injection H; intros; subst. exists [Flew p e p']. split; [apply tl_last; exact S|reflexivity].
Qed.
Lemma solos_logged fuel cf td dom : forall (ps : list (particle Rops)) rs, rmap (solo fuel cf td dom) ps = Ok rs ->
  exists hs, slice_log td dom ps hs (finals rs) (created rs) /\ contributions rs = deposits hs.
Proof.
  induction ps as [|p ps IH]; intros rs H; cbn [rmap] in H.
  - injection H; intros; subst. exists []. split; [constructor|reflexivity].
  - rb H as [[[p' b] nx] l] E. rb H as rs' E'. injection H; intros; subst. destruct (IH _ E') as (hs & S & C).
    unfold solo in E. rb E as q Eq. destruct (solo_logged _ _ _ _ _ _ _ _ _ E) as (h & T & ->). exists (h ++ hs).
    split; [cbn [finals created map concat]; eapply sl_cons; eauto|]. unfold contributions in * . cbn [map concat]. rewrite C. unfold deposits. symmetry. apply flat_map_app.
Qed.

(** ** The tracking phase of a cycle *)
Lemma zero_R : flt (f0 : F Rops) f0 = false.
Proof. apply Rltb_false, Rle_refl. Qed.
Lemma deposits_app a b : deposits (a ++ b) = deposits a ++ deposits b.
Proof. apply flat_map_app. Qed.
Lemma flux_with_app {K : FloatOps} ng (fl : list (F K)) a b : flux_with ng fl (a ++ b) = flux_with ng (flux_with ng fl a) b.
Proof. apply fold_left_app. Qed.

Lemma rounds_logged fuel cf (md : mcdata Rops) ok u c r :
  safe_energies md ok -> run_ok md -> tracking_rounds fuel cf md u c r ->
  uc_rel md ok (u, c) (u, c) -> extra_particles c = [] -> forall u' c', r = Ok (u', c') ->
  exists hs l kept', rounds_log (mc_track md) (u_domain u) (processing c) hs kept' /\ processed c' = processed c ++ kept' /\
    Permutation l (deposits hs) /\ m_flux (u_mem u') = flux_with (sp_n_groups (mc_params md)) (m_flux (u_mem u)) l /\
    Forall (fun x => let '(c, g, _) := x in in_range (u_domain u) (sp_n_groups (mc_params md)) c g) l.
Proof.
  intros Hs Hr H. induction H as [u c D|u c u1 c1 r D Hp Ht IH|u c D Hp|u c D Hp]; intros HR He u' c' Er; try discriminate.
  - injection Er; intros; subst. exists [], [], []. unfold is_done_processing in D. apply andb_true_iff in D as (_ & D).
    destruct (processing c'); [|discriminate]. split; [constructor|]. split; [symmetry; apply app_nil_r|]. split; [constructor|]. split; [reflexivity|constructor].
  - pose proof HR as [E1 E2 E3 P1 P2 P3 S PL M1 M2]. cbn [fst snd] in * . apply Forall_app in PL as (PL & _).
    assert (HS : Forall (stays_in_range (mc_track md) (u_domain u) (sp_n_groups (mc_params md))) (processing (sort_processing c))).
    { apply (Permutation_Forall (sort_particles_perm (processing c))). eapply Forall_impl; [|exact PL].
      intros p Hp'. exact (placed_stays ok md Hs (u_domain u) S p Hp'). }
    pose proof (process_as zero_R _ _ _ _ _ _ M1 HS Hr Hp) as GA.
    destruct (rmap (solo fuel cf (mc_track md) (u_domain u)) (processing (sort_processing c))) as [rs| |] eqn:F1;
      [|destruct GA; discriminate|destruct GA; discriminate].
    destruct GA as (u2 & c2 & Eq & [A1 A2 A3 A4 A5 A6 A7 A8]). injection Eq; intros; subst u2 c2.
    pose proof (process_rel md md ok (same_problem_refl md) Hs Hr Hr zero_R _ _ _ _ _ _ _ _ HR Hp Hp) as HR'.
    cbn [agree fst snd] in HR'. destruct A8 as (l1 & Q1 & G1).
    destruct (IH HR' eq_refl _ _ Er) as (hs2 & l2 & k2 & F2 & Pr2 & Q2 & G2 & R2).
    cbn [clean_extra_vaults processing processed] in F2, Pr2. rewrite A4 in F2. cbn [app] in F2.
    cbn [sort_processing extra_particles] in A6. rewrite He in A6. cbn [app] in A6. rewrite A1 in F2, R2.
    pose proof (solos_groups _ _ _ _ _ _ _ HS F1) as HG. destruct (solos_logged _ _ _ _ _ _ F1) as (hs1 & L1 & C1).
    exists (hs1 ++ hs2), (l1 ++ l2), (filter is_valid (finals rs) ++ k2).
    split; [eapply rl_more; [apply (sort_particles_perm (processing c))|exact L1|exact A6|exact F2]|].
    split; [rewrite Pr2, A5, <- app_assoc; reflexivity|]. rewrite deposits_app, <- C1. split; [exact (Permutation_app Q1 Q2)|].
    split; [rewrite flux_with_app, <- G1; exact G2|]. apply Forall_app. split; [|exact R2].
    exact (Permutation_Forall (Permutation_sym Q1) HG).
Qed.

(** ** The sum of the tally *)
Lemma flux_total ng (fl : list (F Rops)) l : Forall (fun x => let '(c, g, _) := x in (N.to_nat (slot ng c g) < length fl)%nat) l ->
  (fsum (flux_with ng fl l) = fsum fl + Rsum (map snd l))%R.
Proof.
  revert fl. induction l as [|[[c g] v] l IH]; intros fl H.
  - cbn [flux_with fold_left map Rsum fold_right]. symmetry. apply Rplus_0_r.
  - pose proof (Forall_inv H) as H1. cbn beta iota in H1. change (flux_with ng fl ((c, g, v) :: l)) with (flux_with ng (add_contribution ng fl (c, g, v)) l).
    assert (E : exists old, nth_error fl (N.to_nat (slot ng c g)) = Some old) by (destruct (nth_error fl _) eqn:E; [eauto|apply nth_error_None in E; lia]).
    destruct E as (old & E). cbn [add_contribution]. rewrite E. rewrite IH.
    + unfold fsum. rewrite (fsum_list_set fl _ old v); [|intros x y z; cbn [fadd Rops]; change (F Rops) with R in * ; ring|exact E|intros x y z; cbn [fadd Rops]; change (F Rops) with R in * ; ring].
      cbn [map snd Rsum fold_right]. cbn [fadd Rops]. apply Rplus_assoc.
    + pose proof (Forall_inv_tail H) as H2. eapply Forall_impl; [|exact H2]. intros [[c' g'] v'] Hx. rewrite list_set_length. exact Hx.
Qed.
Lemma deposits_total hs : Rsum (map snd (deposits hs)) = Rsum (map weighted_length hs).
Proof.
  induction hs as [|[p|p e q] hs IH]; [reflexivity| |].
  - cbn [deposits flat_map deposit app map Rsum fold_right weighted_length]. unfold deposits, Rsum in IH. rewrite IH. symmetry. apply Rplus_0_l.
  - cbn [deposits flat_map deposit app map snd Rsum fold_right weighted_length]. unfold deposits, Rsum in IH. rewrite IH. reflexivity.
Qed.
Lemma deposits_entry c g hs :
  Rsum (map snd (filter (fun x : @contribution Rops => (fst (fst x) =? c) && (snd (fst x) =? g)) (deposits hs))) = Rsum (map weighted_length (filter (flies_in c g) hs)).
Proof.
  induction hs as [|[p|p e q] hs IH]; [reflexivity|exact IH|].
  cbn [deposits flat_map deposit app filter fst snd flies_in]. destruct ((p_cell p =? c) && (p_energy_group p =? g)); [|exact IH].
  cbn [map snd Rsum fold_right weighted_length]. unfold deposits, Rsum in IH. rewrite IH. reflexivity.
Qed.
Lemma Rsum_perm a b : Permutation a b -> Rsum a = Rsum b.
Proof.
  induction 1 as [|x a b _ IH|x y a|a b c _ I1 _ I2]; unfold Rsum in * ; cbn [fold_right] in * ; [reflexivity|rewrite IH; reflexivity|ring|congruence].
Qed.

(** ** A cycle *)
Lemma in_range_slot (dom : domain Rops) ng (fl : list (F Rops)) c g : N.of_nat (List.length fl) = N.of_nat (List.length (d_cells dom)) * ng ->
  in_range dom ng c g -> (N.to_nat (slot ng c g) < List.length fl)%nat.
Proof.
  intros HZ Hin. destruct (in_range_get _ _ fl c g HZ Hin) as (old & Eo). unfold vec_get, unwrap in Eo.
  destruct (nth_error fl (N.to_nat (slot ng c g))) eqn:E; [|discriminate]. apply nth_error_Some. congruence.
Qed.
Lemma fsum_zero (fl : list (F Rops)) : Forall (eq f0) fl -> fsum fl = 0%R.
Proof.
  intros H. unfold fsum. cbn [f0 Rops] in * . assert (E : forall a : R, fold_left (@fadd Rops) fl a = a).
  { induction H as [|x fl <- _ IH]; intros a; [reflexivity|]. cbn [fold_left]. rewrite IH. cbn [fadd Rops]. apply Rplus_0_r. }
  apply E.
Qed.

Lemma cycle_logged fuel cf (md : mcdata Rops) d n s s1 u0 c0 u' c' :
  energies_bounded md -> threads_ok md -> implemented md -> sound_problem md d ->
  n < sp_n_steps (mc_params md) -> run_steps fuel cf md (initial_sim md d) n (Ok s) -> cycle_sync md n s = Ok s1 ->
  population_phase md s1 = Ok (u0, c0) -> tracking_rounds fuel cf md u0 c0 (Ok (u', c')) ->
  exists hs, rounds_log (mc_track md) (u_domain u0) (processing c0) hs (processed c') /\
    (forall cell g, in_range (u_domain u0) (sp_n_groups (mc_params md)) cell g ->
      nth_error (m_flux (u_mem u')) (N.to_nat (slot (sp_n_groups (mc_params md)) cell g)) = Some (Rsum (map weighted_length (filter (flies_in cell g) hs)))) /\
    fsum (m_flux (u_mem u')) = Rsum (map weighted_length hs).
Proof.
  intros (ok & Hs) Ht Hi Hd Hn HR Hsy Hp HT.
  assert (HTr : tracked fuel cf md d u0 c0) by (exists n, s, s1, u0, c0; repeat (split; [assumption|]); constructor).
  pose proof (tracked_rel zero_R _ _ _ _ _ _ _ Hs Ht Hi Hd HTr) as G.
  pose proof (run_steps_settled _ _ _ _ _ _ HR _ eq_refl (N.lt_le_incl _ _ Hn)) as St.
  destruct (sync_settled _ _ _ _ _ St Hsy) as (R0 & _); [lia|]. destruct R0 as [R1 R2 R3 R4].
  destruct (CycleAccount.population_ok _ _ _ _ Hp R1 R3 R4) as (src & _ & _ & E2 & E3 & _ & _ & _ & _ & _ & EM). rewrite R2 in E3.
  assert (HF : Forall (eq f0) (m_flux (u_mem u0))).
  { rewrite EM. apply (sync_flux _ _ _ _ Hsy). intros ->. inversion HR; subst; try lia.
    - cbn. apply Forall_forall. intros x Hx. apply repeat_spec in Hx. congruence. }
  destruct (rounds_logged _ _ _ _ _ _ _ Hs Ht HT G E2 _ _ eq_refl) as (hs & l & kept' & F1 & F2 & F3 & F4 & F5).
  rewrite E3 in F2. cbn [app] in F2. subst kept'.
  destruct G as [_ _ _ _ _ _ _ _ M1 _]. cbn [fst snd] in M1. destruct M1 as [_ HZ _].
  exists hs. split; [exact F1|]. split.
  - intros cell g Hin. pose proof (in_range_slot _ _ _ _ _ HZ Hin) as Hlt. apply nth_error_Some in Hlt.
    destruct (nth_error (m_flux (u_mem u0)) (N.to_nat (slot (sp_n_groups (mc_params md)) cell g))) as [o|] eqn:En; [|congruence]. clear Hlt.
    assert (Eo : o = f0) by (symmetry; rewrite Forall_forall in HF; apply HF; eapply nth_error_In; eauto). subst o. rewrite F4.
    rewrite (flux_entry _ _ _ _ _ En). f_equal. rewrite (entry_sum_filter _ cell g l);
      [|eapply Forall_impl; [|exact F5]; intros [[c1 g1] v1] (_ & Hg); exact Hg|apply Hin].
    destruct (entry_sum_exact cell g _ _ (f0 : F Rops) F3) as (X1 & _). rewrite X1.
    destruct (entry_sum_exact cell g _ _ (f0 : F Rops) (Permutation_refl (deposits hs))) as (_ & X2). rewrite X2.
    etransitivity; [apply Rplus_0_l|]. apply deposits_entry.
  - rewrite F4, flux_total.
    + rewrite (fsum_zero _ HF), Rplus_0_l, (Rsum_perm _ _ (Permutation_map snd F3)). apply deposits_total.
    + eapply Forall_impl; [|exact F5]. intros [[c1 g1] v1] Hin. exact (in_range_slot _ _ _ _ _ HZ Hin).
Qed.

(** ** The rows of a run *)
Lemma report_row (md : mcdata Rops) n s s' : cycle_sync md (N.succ n) s = Ok s' ->
  exists rep, s_reports s' = s_reports s ++ [rep] /\ rp_cycle rep = n /\ rp_flux rep = fsum (m_flux (u_mem (s_unit s))).
Proof.
  unfold cycle_sync. destruct (N.eqb_spec (N.succ n) 0) as [E|_]; [lia|]. intros H. rb H as s2 Hf.
  assert (X : exists rep, s_reports s2 = s_reports s ++ [rep] /\ rp_cycle rep = n /\ rp_flux rep = fsum (m_flux (u_mem (s_unit s)))).
  { unfold finish_cycle in Hf. destruct (ei_policy (mc_exec md)); try discriminate Hf;
      rb Hf as [u rs] Hst; rb Hf as rs' Hsp; injection Hf; intros; subst; cbn [s_reports];
      (eexists; split; [reflexivity|]; split; [cbn [rp_cycle]; lia|reflexivity]). }
  destruct (N.succ n =? sp_n_steps (mc_params md) + 1); [injection H; intros; subst; exact X|].
  unfold prepare_cycle in H. rb H as w Hw. rb H as k Hk. injection H; intros; subst. exact X.
Qed.

Lemma cycle_row fuel cf (md : mcdata Rops) d n s hs0 s1 s2 :
  energies_bounded md -> threads_ok md -> implemented md -> sound_problem md d -> n < sp_n_steps (mc_params md) ->
  run_log fuel cf md d n s hs0 -> cycle_sync md n s = Ok s1 -> cycle_process fuel cf md s1 (Ok s2) ->
  exists born hs, run_log fuel cf md d (N.succ n) s2 (hs0 ++ map Born born ++ hs) /\ s_reports s2 = s_reports s1 /\
    (forall cell g, in_range (u_domain (s_unit s2)) (sp_n_groups (mc_params md)) cell g ->
      nth_error (m_flux (u_mem (s_unit s2))) (N.to_nat (slot (sp_n_groups (mc_params md)) cell g)) = Some (Rsum (map weighted_length (filter (flies_in cell g) hs)))) /\
    fsum (m_flux (u_mem (s_unit s2))) = Rsum (map weighted_length hs) /\
    (forall s3, cycle_sync md (N.succ n) s2 = Ok s3 ->
      exists rep, s_reports s3 = s_reports s2 ++ [rep] /\ rp_cycle rep = n /\ rp_flux rep = Rsum (map weighted_length hs)).
Proof.
  intros He Ht Hi Hd Hn HL Hsy Hproc. pose proof (log_run _ _ _ _ _ _ _ HL) as HR. pose proof Hproc as Hproc0.
  remember (Ok s2) as r0 eqn:Er0 in Hproc. destruct Hproc as [u c r Hpop Htr|Hpop|Hpop]; try discriminate Er0.
  rb Er0 as [u' c'] E. subst r. injection Er0; intros; subst s2; clear Er0.
  destruct (cycle_logged _ _ _ _ _ _ _ _ _ _ _ He Ht Hi Hd Hn HR Hsy Hpop Htr) as (hs & L & En & Sm).
  assert (Hdom : u_domain u' = u_domain u).
  { pose proof (run_steps_settled _ _ _ _ _ _ HR _ eq_refl ltac:(lia)) as St.
    destruct (sync_settled _ _ _ _ _ St Hsy ltac:(lia)) as ([R1 R2 R3 R4] & _).
    destruct (CycleAccount.population_ok _ _ _ _ Hpop R1 R3 R4) as (src & _ & _ & E2 & _).
    destruct (CycleAccount.rounds_ok _ _ _ _ _ _ Htr E2 _ _ eq_refl) as (evs & kept & _ & Q & _). exact Q. }
  pose proof Hpop as Hpop'. unfold population_phase in Hpop'. rb Hpop' as [ua ca] Hsrc. clear Hpop'.
  pose proof Hsrc as Hso'. unfold source_now in Hso'. rb Hso' as rates Er. rb Hso' as [[cells k] new] Ec.
  assert (Hnew : processing ca = processing (s_cont s1) ++ new) by (injection Hso'; intros; subst; reflexivity).
  cbn [s_unit s_cont s_reports u_mem] in * . exists new, hs.
  split; [eapply lg_cycle; [exact HL|exact Hsy|exact Hsrc|exact Hnew|exact Hpop|exact Hproc0|exact L]|].
  split; [reflexivity|]. split; [rewrite Hdom; exact En|]. split; [exact Sm|].
  intros s3 H3. destruct (report_row _ _ _ _ H3) as (rep & A & B & C). exists rep. split; [exact A|]. split; [exact B|]. rewrite C. exact Sm.
Qed.

Lemma Rsum_app a b : (Rsum (a ++ b) = Rsum a + Rsum b)%R.
Proof. induction a as [|x a IH]; unfold Rsum in * ; cbn [app fold_right]; [|rewrite IH]; ring. Qed.
Lemma born_length ps : Rsum (map weighted_length (map Born ps)) = 0%R.
Proof. induction ps as [|p ps IH]; [reflexivity|]. unfold Rsum in * . cbn [map weighted_length fold_right]. rewrite IH. ring. Qed.

Lemma sync_reports_start (md : mcdata Rops) s s1 : cycle_sync md 0 s = Ok s1 -> s_reports s1 = s_reports s.
Proof. unfold cycle_sync, prepare_cycle. cbn [N.eqb]. intros H. rb H as w Hw. rb H as k Hk. injection H; intros; subst. reflexivity. Qed.

Lemma run_rows fuel cf (md : mcdata Rops) d n r : 
  energies_bounded md -> threads_ok md -> implemented md -> sound_problem md d -> 
  run_steps fuel cf md (initial_sim md d) n r -> forall s, r = Ok s -> n <= sp_n_steps (mc_params md) ->
  exists hs, run_log fuel cf md d n s hs /\
    (Rsum (map (@rp_flux Rops) (s_reports s)) + (if n =? 0 then 0 else fsum (m_flux (u_mem (s_unit s)))) = Rsum (map weighted_length hs))%R.
Proof.
  intros He Ht Hi Hd. induction 1 as [|n s0 s1 r H IH Hsync Hproc|n s0 H IH Hsync|n r H IH Hr]; intros s Er Hn.
  - injection Er; intros; subst. exists []. split; [constructor|]. cbn. ring.
  - subst r. destruct (IH _ eq_refl ltac:(lia)) as (hs0 & HL & Hsum).
    assert (Hn' : n < sp_n_steps (mc_params md)) by lia.
    destruct (cycle_row _ _ _ _ _ _ _ _ _ He Ht Hi Hd Hn' HL Hsync Hproc) as (born & hs & L & Rp & _ & Sm & _).
    exists (hs0 ++ map Born born ++ hs). split; [exact L|]. rewrite Rp. destruct (N.eqb_spec (N.succ n) 0) as [E|_]; [lia|].
    rewrite !map_app, !Rsum_app, born_length, <- Hsum, Sm. destruct (N.eqb_spec n 0) as [E|E].
    + subst n. rewrite (sync_reports_start _ _ _ Hsync). ring.
    + destruct (report_row md (N.pred n) s0 s1) as (rep & A & _ & C); [rewrite N.succ_pred by exact E; exact Hsync|].
      rewrite A, map_app, Rsum_app. cbn [map Rsum fold_right]. rewrite C. change (F Rops) with R in * . ring.
  - discriminate Er.
  - subst r. destruct Hr; discriminate.
Qed.

(** The rows printed by a whole run. *)
Lemma run_total fuel cf (md : mcdata Rops) d s' : 
  energies_bounded md -> threads_ok md -> implemented md -> sound_problem md d -> 0 < sp_n_steps (mc_params md) ->
  core_loop fuel cf md (initial_sim md d) (Ok s') ->
  exists s hs, run_log fuel cf md d (sp_n_steps (mc_params md)) s hs /\ cycle_sync md (sp_n_steps (mc_params md)) s = Ok s' /\
    Rsum (map (@rp_flux Rops) (s_reports s')) = Rsum (map weighted_length hs).
Proof.
  intros He Ht Hi Hd Hpos H. remember (Ok s') as r0 eqn:Er0 in H. destruct H as [r Hpol HR|]; [|discriminate Er0].
  rb Er0 as s E. subst r. destruct (run_rows _ _ _ _ _ _ He Ht Hi Hd HR _ eq_refl (N.le_refl _)) as (hs & L & Sm).
  exists s, hs. split; [exact L|]. split; [exact Er0|]. rewrite <- Sm. destruct (N.eqb_spec (sp_n_steps (mc_params md)) 0) as [E|E]; [lia|].
  destruct (report_row md (N.pred (sp_n_steps (mc_params md))) s s') as (rep & A & _ & C); [rewrite N.succ_pred by exact E; exact Er0|].
  rewrite A, map_app, Rsum_app. cbn [map Rsum fold_right]. rewrite C. change (F Rops) with R in * . ring.
Qed.
