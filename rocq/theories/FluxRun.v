(** The lengths of the segments of a run. *)
From Coq Require Import NArith ZArith List Bool Lia Reals Lra Permutation.
From Flocq Require Import Core.
From Verif Require Import Float RealOps RngModel ParticleModel NuclearModel MeshTypes Balance TrackModel CycleModel GridModel MeshModel GridSpec MeshSpec NuclearSpec OutcomeLemmas FacetLemmas
  ProgLemmas TrackSpec CycleSpec TrackAccount CycleAccount SegmentFacts PopSpec SegmentSpec GeomSpec StaySpec SpeedSpec GeomLemmas PlaneLemmas SourcePoint
  StayLemmas StaySteps StayRun SpeedFacts WeightSpec WeightFacts WeightRun FluxLog.
Import ListNotations.
Local Open Scope R_scope.

Lemma seg_outcome td (dom : domain Rops) p e keep p' nx : seg_step td dom p e keep p' nx ->
  exists xs o p1, outcome_after dom (entering p) (get_speed p) (out_of_paths p) xs = Ok (o, p1) /\ p_segment_path_length p' = p_segment_path_length p1 .
Proof.
  intros H. inversion H as [? xs p1 cs cur p2 cfuel r mat n p3 ? gr ? Ho p1' Hcs Hcur Hpick Hmat Hcol Hg Hp'|? xs p1 conn fa p2 ? Ho p1' Hconn Hfa Hev Hm|? xs p1 Ho]; subst;
    (eexists; eexists; eexists; split; [exact Ho|]).
  - apply collision_tag in Hcol. assert (E2 : tag p2 = tag p1) by (unfold get_current_xs, draw in Hcur; injection Hcur; intros; subst; reflexivity).
    pose proof (Forall_inv Hcol) as T. cbn beta in T. rewrite E2 in T. destruct (1 <=? n)%N; unfold tag in T; injection T; intros T1 _; exact T1.
  - pose proof (facet_tag dom _ _ _ _ Hev Hm) as T. unfold tag in T. injection T; intros T1 _. exact T1.
  - reflexivity.
Qed.
Lemma outcome_forward (dom : domain Rops) p speed fc xs o q : outcome_after dom p speed fc xs = Ok (o, q) -> 0 <= p_segment_path_length q.
Proof.
  intros H. destruct (outcome_parts _ _ _ _ _ _ _ H) as (i & df & p1 & d & En & Eo & Hd & ->).
  destruct (end_clock p1 speed d o i) as (_ & _ & El & _). rewrite El. apply Rleb_iff. exact Hd.
Qed.
Lemma step_forward td (dom : domain Rops) p e keep p' nx : seg_step td dom p e keep p' nx -> forward (Flew p e p').
Proof. intros H. destruct (seg_outcome _ _ _ _ _ _ _ H) as (xs & o & p1 & Ho & E). cbn [forward]. rewrite E. exact (outcome_forward _ _ _ _ _ _ _ Ho). Qed.

Lemma track_forward td dom p hs p' nx : track_log td dom p hs p' nx -> Forall forward hs.
Proof. induction 1; constructor; eauto using step_forward. Qed.
Lemma slice_forward td dom ps hs ps' nx : slice_log td dom ps hs ps' nx -> Forall forward hs.
Proof. induction 1; [constructor|]. apply Forall_app. split; [eapply track_forward; eauto|assumption]. Qed.
Lemma rounds_forward td dom ps hs k : rounds_log td dom ps hs k -> Forall forward hs.
Proof. induction 1; [constructor|]. apply Forall_app. split; [eapply slice_forward; eauto|assumption]. Qed.
Lemma run_forward fuel cf md dom n s hs : run_log fuel cf md dom n s hs -> Forall forward hs.
Proof.
  induction 1; [constructor|]. apply Forall_app. split; [assumption|]. apply Forall_app. split; [|eapply rounds_forward; eauto].
  apply Forall_forall. intros h Hh. apply in_map_iff in Hh. destruct Hh as (p & <- & _). exact I.
Qed.
Lemma weighted_nonneg hs : Forall forward hs -> Forall happens_weighty hs -> Forall (fun h => 0 <= weighted_length h) hs.
Proof.
  intros H1 H2. induction H1 as [|[p|p e q] hs A _ IH]; [constructor| |]; (constructor; [|apply IH; exact (Forall_inv_tail H2)]); [apply Rle_refl|].
  apply Forall_inv in H2. destruct H2 as (H2 & _). cbn [forward] in A. apply Rmult_le_pos; [exact A|apply Rlt_le; exact H2].
Qed.

(** ** Lengths are distances *)
Section Stay.
Context (g : grid Rops) (bc : String.string) (pt : partition) (dom : domain Rops).
Hypothesis B : built g bc pt (d_mesh dom).
Hypothesis Hs : sized g.
Hypothesis Hfit : fits g.

Lemma step_measured td p e keep p' nx : seg_step td dom p e keep p' nx -> flying g pt p -> measured (Flew p e p').
Proof.
  intros H ((c & L & Hin & Hst) & Hu & Ht). destruct (on_time_enters _ Ht) as (E1 & E2).
  destruct (seg_outcome _ _ _ _ _ _ _ H) as (xs0 & o0 & q0 & Ho0 & E0). cbn [measured].
  assert (Seg : forall xs o p1, outcome_after dom p (get_speed p) false xs = Ok (o, p1) -> p_segment_path_length p1 = apart (p_coordinate p) (p_coordinate p1) /\ p_direction p1 = p_direction p).
  { intros xs o p1 Ho. destruct (segment_stays g bc pt dom B Hs Hfit _ _ _ _ _ _ L Hin Hst Hu Ho) as (_ & Hd & f & df & _ & Hlen & _ & Hx & _). split; [|exact Hd].
    rewrite Hx, apart_along; [reflexivity|exact Hu|apply Hlen]. }
  inversion H as [? xs p1 cs cur p2 cfuel r mat n p3 ? gr ? Ho p1' Hcs Hcur Hpick Hmat Hcol Hg Hp'|? xs p1 conn fa p2 ? Ho p1' Hconn Hfa Hev Hm|? xs p1 Ho]; subst;
    rewrite E1, E2 in Ho; apply Seg in Ho; destruct Ho as (Ho & Hd).
  - assert (Hp2 : same_place p1' p2 /\ p_direction p2 = p_direction p1 /\ tag p2 = tag p1).
    { unfold get_current_xs in Hcur. rewrite draw_next in Hcur. injection Hcur as <- <-. split; [repeat split|split; reflexivity]. }
    destruct Hp2 as (S2 & D2 & T2). rewrite <- Hd, <- D2 in Hu.
    pose proof (collision_directions _ _ _ _ _ _ Hcol Hu) as Hpl. pose proof (same_trans _ _ _ S2 (proj1 (Forall_inv Hpl))) as (A1 & _).
    apply collision_tag in Hcol. pose proof (Forall_inv Hcol) as T. cbn beta in T. rewrite T2 in T. unfold tag in T. injection T; intros T1 _.
    assert (X : forall q : particle Rops, p_segment_path_length q = p_segment_path_length p3 -> p_coordinate q = p_coordinate p3 -> p_segment_path_length q = apart (p_coordinate p) (p_coordinate q)).
    { intros q -> -> . rewrite T1, A1. exact Ho. }
    apply X; destruct (1 <=? n)%N; reflexivity.
  - pose proof (facet_tag dom _ _ _ _ Hev Hm) as T. unfold tag in T. injection T; intros T1 _. rewrite T1.
    assert (X : p_coordinate p' = p_coordinate p1).
    { unfold facet_crossing_event in Hev. destruct (fa_event fa); try contradiction.
      + apply Ok_inj in Hev. subst. reflexivity.
      + apply Ok_inj in Hev. subst p2. destruct Hm as (planes & pl & _ & _ & ->). unfold reflect_particle. destruct (flt _ _); reflexivity.
      + rb Hev as d0 Ed. rb Hev as c0 Ec. rb Hev as f0' Ef. apply Ok_inj in Hev. subst. reflexivity. }
    rewrite X. exact Ho.
  - exact Ho.
Qed.
End Stay.

Lemma run_measured g bc pt geoms mats dom fuel cf (md : mcdata Rops) n s hs : built_domain g bc pt geoms mats dom -> sized g -> fits g ->
  0 <= td_dt (mc_track md) -> run_log fuel cf md dom n s hs -> (n <= sp_n_steps (mc_params md))%N ->
  forall hs1 h hs2, hs = hs1 ++ h :: hs2 -> Forall (clean g) hs1 -> measured h.
Proof.
  intros D Hs Hfit Hdt H Hn.
  destruct (run_fine measured (clean g) (flying g pt) g bc pt geoms mats dom fuel cf md hs n s hs D Hs Hdt) as (A & _).
  - intros dom' p e keep p' nx B Hst Hf. split; [exact (step_measured g bc pt dom' B Hs Hfit _ _ _ _ _ _ Hst Hf)|].
    exact (proj2 (flying_step g bc pt Hs Hfit _ _ _ _ _ _ _ B Hst Hf)).
  - intros; eapply prepared_flies; eauto.
  - exact (flying_same g pt).
  - intros p _ St Ht. split; [exact I|]. intros Hc. apply (starts_flying g pt md p St Ht); exact Hc.
  - exact H.
  - exact Hn.
  - apply incl_refl.
  - exact (fine_at _ _ _ A).
Qed.
Lemma clean_measured g hs : (forall hs1 h hs2, hs = hs1 ++ h :: hs2 -> Forall (clean g) hs1 -> measured h) -> Forall (clean g) hs -> Forall measured hs.
Proof.
  intros H Hc. apply Forall_forall. intros h Hin. apply in_split in Hin. destruct Hin as (l1 & l2 & E). apply (H _ _ _ E). rewrite E in Hc. apply Forall_app in Hc. apply Hc.
Qed.
Lemma measured_sum hs : Forall measured hs -> map weighted_length hs = map weighted_distance hs.
Proof. induction 1 as [|[p|p e q] hs A _ IH]; [reflexivity| |]; cbn [map]; rewrite IH; [reflexivity|]. cbn [weighted_length weighted_distance]. cbn [measured] in A. rewrite A. reflexivity. Qed.

(** ** The rows *)
Lemma run_flux_positive fuel cf (md : mcdata Rops) dom n s hs xs : run_log fuel cf md dom n s hs -> (n <= sp_n_steps (mc_params md))%N ->
  ei_n_units (mc_exec md) = 1%N -> (10 <= sp_n_particles (mc_params md) < 2 ^ 64)%N -> Forall2 (emits md) (d_cells dom) xs -> 0 < Rsum xs ->
  Forall forward hs /\ Forall (fun h => 0 <= weighted_length h) hs.
Proof.
  intros H Hn Hu Hp Hx Hpos. destruct (run_weighty _ _ _ _ _ _ _ _ H Hn Hu Hp Hx Hpos) as (_ & W & _). pose proof (run_forward _ _ _ _ _ _ _ H) as Fw.
  split; [exact Fw|exact (weighted_nonneg _ Fw W)].
Qed.

(** ** The balance of a cycle *)
Lemma cycle_balance fuel cf (md : mcdata Rops) d n s hs s1 u c s2 hs' : run_log fuel cf md d n s hs -> (n < sp_n_steps (mc_params md))%N ->
  cycle_sync md n s = Ok s1 -> population_phase md s1 = Ok (u, c) -> cycle_process fuel cf md s1 (Ok s2) ->
  rounds_log (mc_track md) (u_domain u) (processing c) hs' (processed (s_cont s2)) ->
  weights (processing c) + worths EProduce hs' = weights (processed (s_cont s2)) + worths EAbsorb hs' + worths EEscape hs' + worths EFission hs'.
Proof.
  intros HL Hn Hsy Hpop _ Hl. apply (rounds_balance _ _ _ _ _ Hl).
  pose proof (run_steps_settled _ _ _ _ _ _ (log_run _ _ _ _ _ _ _ HL) _ eq_refl (N.lt_le_incl _ _ Hn)) as St.
  destruct (sync_settled _ _ _ _ _ St Hsy ltac:(lia)) as ([R1 R2 R3 R4] & _).
  destruct (CycleAccount.population_ok _ _ _ _ Hpop R1 R3 R4) as (src & V1 & V2 & _). exact V2.
Qed.

Lemma run_distance g bc pt geoms mats dom fuel cf (md : mcdata Rops) n s hs : built_domain g bc pt geoms mats dom -> sized g -> fits g ->
  0 <= td_dt (mc_track md) -> run_log fuel cf md dom n s hs -> (n <= sp_n_steps (mc_params md))%N ->
  (forall hs1 h hs2, hs = hs1 ++ h :: hs2 -> Forall (clean g) hs1 -> measured h) /\
  (Forall (clean g) hs -> Rsum (map weighted_length hs) = Rsum (map weighted_distance hs)).
Proof.
  intros D Hs Hfit Hdt H Hn. assert (A := run_measured g bc pt geoms mats dom fuel cf md n s hs D Hs Hfit Hdt H Hn). split; [exact A|].
  intros Hc. rewrite (measured_sum _ (clean_measured _ _ A Hc)). reflexivity.
Qed.
