(** No run panics when the indices and the values of the problem are right. *)
From Coq Require Import NArith PeanoNat QArith List Bool Lia Permutation.
From Verif Require Import Float RngModel RngLemmas ParticleModel NuclearModel MeshTypes Balance TrackModel CycleModel
  ProgLemmas TrackSpec CycleSpec TrackAccount CycleAccount CycleFacts ScheduleSpec ScheduleLemmas ScheduleFacts RangeSpec RangeFacts
  RunAgree PopSpec SourceLemmas SourceCount SegmentSpec NearestLemmas SegmentFacts SegmentDefined NuclearFacts SafeSpec SafeLemmas.
Import ListNotations.
Local Open Scope N_scope.
Local Open Scope float_scope.
Local Opaque rng_next spawn_rn_seed.

(** ** A parallel region or a sequential pass panics only if a track does *)
Section Panics.
Context {K : FloatOps}.
Hypothesis zero_not_positive : f0 <. (f0 : F K) = false.

Lemma process_panics fuel cf (md : mcdata K) u c :
  sound_mem (mc_track md) (u_domain u) (sp_n_groups (mc_params md)) (u_mem u) ->
  Forall (stays_in_range (mc_track md) (u_domain u) (sp_n_groups (mc_params md))) (processing c) ->
  run_ok md -> process_particles fuel cf md u c Panic ->
  exists p, In p (processing c) /\ solo fuel cf (mc_track md) (u_domain u) p = Panic.
Proof.
  intros Hm Hr Hok H. remember (@Panic (unit_state K * container K)) as R eqn:ER.
  destruct H as [r Hpol Hrun|n r b Hpol Hch Hpar Hsum|Hpol Hch].
  - pose proof (right_run_seq _ _ _ _ _ _ _ _
      (slice_right _ _ _ zero_not_positive fuel cf (processing c) balance_zero (extra_particles c) [] Hr) _ Hm) as G.
    unfold slice_result in G. rewrite Hrun in G. destruct r as [[[[s b] ex] m']| |]; cbn [rbind] in ER; try discriminate.
    apply rmap_panics. exact G.
  - set (ch := chunks (N.to_nat n) (processing c)) in * .
    assert (Ec : concat ch = processing c) by (apply chunks_concat; apply chunk_size_pos in Hch; lia).
    assert (HF : Forall2 (fun s p => meets (mc_track md) (u_domain u) (sp_n_groups (mc_params md)) s [] p)
              (map (slice_spec (mc_track md) (u_domain u) fuel cf) ch)
              (map (fun l => track_slice fuel cf (mc_track md) (u_domain u) l balance_zero []) ch)).
    { rewrite <- Ec in Hr. clear - Hr zero_not_positive. induction ch as [|l ch IH]; cbn [map concat] in * ; constructor.
      - apply Forall_app in Hr. apply (slice_right _ _ _ zero_not_positive). tauto.
      - apply IH. apply Forall_app in Hr. tauto. }
    pose proof (par_exec_right _ _ _ _ _ _ _ _ Hm HF Hpar) as G.
    destruct r as [[[[slices bals] m'] ex]| |]; cbn [rbind] in ER.
    + specialize (Hsum _ _ _ _ eq_refl). apply par_sum_bsum in Hsum.
      destruct G as (es & Ls & l & HR & He & Hs & Hl & Hf).
      destruct (results4_solo _ _ _ _ _ _ _ _ _ HR) as (rss & HF2 & H1 & H2 & H3 & H4).
      pose proof (rmap_concat_back _ _ _ HF2) as E. rewrite Ec in E.
      rewrite H2 in Hsum. subst b.
      pose proof (counters_quiet _ _ _ _ _ _ E) as (Q1 & Q2 & Q3). rewrite Q1, Q2, Q3 in ER. discriminate.
    + destruct G as (s & Hs & Hf). apply in_map_iff in Hs as (l & <- & Hin). cbn [slice_spec sp_fail] in Hf.
      apply rmap_panics in Hf as (p & Hp & E). exists p. split; [|exact E]. rewrite <- Ec. apply in_concat. eauto.
    + discriminate.
  - destruct (chunk_size_ok md (N.of_nat (length (processing c))) Hok Hpol) as (n & E). congruence.
Qed.

End Panics.

Section Run.
Context {K : FloatOps}.
Variable good : F K -> Prop.
Hypothesis SL : sign_laws good.
Variable ok : F K -> Prop.
Variable md : mcdata K.
Hypothesis Hsafe : safe_energies md ok.
Let td := mc_track md.
Let ng := sp_n_groups (mc_params md).

(** ** Tracks *)
Section Track.
Variable dom : domain K.
Hypothesis Hsound : sound_problem md dom.
Hypothesis Hix : indexed md dom.
Hypothesis Hval : safe_values good md dom.

Definition timely (p : particle K) : Prop := not_negative (p_time_to_census p).

Lemma timely_clock (p q : particle K) : clock q = clock p -> timely p -> timely q.
Proof. unfold clock, timely. intros H. injection H as -> _. auto. Qed.

Lemma facet_clock (q : particle K) b k p' b' nx : on_facet dom q b [] = Ok (k, p', b', nx) -> clock p' = clock q /\ nx = [].
Proof.
  unfold on_facet. intros H. rb H as conn E1. rb H as fa E2. rb H as p2 E3.
  assert (C : clock p2 = clock q).
  { unfold facet_crossing_event in E3. destruct (fa_event fa); try discriminate; try (injection E3 as <-; reflexivity);
      rb E3 as d Ed; rb E3 as c Ec; rb E3 as f Ef; injection E3 as <-; reflexivity. }
  destruct (p_last_event p2); try discriminate.
  - injection H; intros; subst. split; [exact C|reflexivity].
  - injection H; intros; subst. split; [exact C|reflexivity].
  - rb H as pls E4. rb H as pl E5. injection H; intros; subst. split; [|reflexivity]. rewrite <- C.
    unfold reflect_particle. cbv zeta. destruct (f0 <. _); reflexivity.
Qed.

Lemma segment_goes cf (p : particle K) : fine ok md dom p -> timely p ->
  solo_segment cf td dom p <> Panic /\
  forall k p' b nx x, solo_segment cf td dom p = Ok (k, p', b, nx, x) -> timely p' /\ Forall timely nx.
Proof.
  intros ((Hc & He) & Hg) Ht. unfold solo_segment.
  assert (HR : in_range dom (sp_n_groups (mc_params md)) (p_cell p) (p_energy_group p)) by (split; assumption).
  destruct (cross_section_defined good md dom Hix Hval _ _ HR) as (xs & Ex). fold td in Ex. rewrite Ex. cbn [rbind]. cbv zeta.
  pose proof (sv_total _ _ _ Hval _ _ _ HR Ex) as Gx.
  set (force := p_num_mean_free_paths p <. f0). set (p0 := if force then set_num_mean_free_paths p fsmall else p).
  assert (C0 : p_cell p0 = p_cell p /\ p_time_to_census p0 = p_time_to_census p /\ p_energy_group p0 = p_energy_group p /\
               not_negative (p_num_mean_free_paths p0)).
  { unfold p0. destruct force eqn:Ef; (split; [reflexivity|split; [reflexivity|split; [reflexivity|]]]); [apply (sl_small _ SL)|exact Ef]. }
  destruct C0 as (C1 & C2 & C3 & C4).
  pose proof Hc as Hc'. unfold n_cells in Hc'. rewrite (ix_cells _ _ Hix) in Hc'.
  destruct (segment_defined good SL dom p0 (get_speed p) force xs (ix_mesh _ _ Hix) ltac:(rewrite C1; exact Hc') Gx (speed_known good SL p)
              ltac:(rewrite C2; exact Ht) C4) as (o & q & Eo & Xq & Tq & Fq).
  rewrite Eo. cbn [rbind]. pose proof (outcome_after_place _ _ _ _ _ _ _ Eo) as (P1 & P2).
  set (q1 := set_num_segments q (p_num_segments q +. f1)).
  assert (Q1 : p_cell q1 < n_cells dom /\ p_energy_group q1 < ng /\ good (p_total_cross_section q1) /\ timely q1 /\ (o = OutFacetCrossing -> p_facet q1 < 24)).
  { unfold q1, timely. cbn [p_cell p_energy_group p_total_cross_section p_time_to_census p_facet set_num_segments].
    split; [rewrite P1, C1; exact Hc|]. split; [rewrite P2, C3; exact Hg|]. split; [rewrite Xq; exact Gx|]. split; [exact Tq|exact Fq]. }
  clearbody q1. destruct Q1 as (Qc & Qg & Qx & Qt & Qf).
  assert (A : after_segment cf td dom o q1 (binc balance_zero ENumSegments 1) [] <> Panic /\
     forall k p' b nx, after_segment cf td dom o q1 (binc balance_zero ENumSegments 1) [] = Ok (k, p', b, nx) -> timely p' /\ Forall timely nx).
  { destruct o; cbn [after_segment].
    - split; [exact (collision_defined good SL md dom Hsound Hix Hval cf q1 _ Qc Qg Qx)|].
      intros k p' b nx H. unfold on_collision in H. rb H as cs E4. rb H as [[[k2 p2] b2] nx2] E5. rb H as g E6.
      injection H; intros; subst; clear H. unfold collision_event in E5. destruct (get_current_xs q1) as [cur p3] eqn:E7.
      assert (T3 : timely p3) by (unfold get_current_xs, draw in E7; cbv zeta in E7; injection E7; intros; subst; exact Qt).
      rb E5 as r E8. rb E5 as mat E9. rb E5 as [[n p4] sec] E10. injection E5; intros; subst; clear E5.
      destruct (collision_clock _ _ _ _ _ _ E10) as (K1 & K2). split.
      + pose proof (timely_clock _ _ K1 T3) as T4. destruct (1 <=? n); exact T4.
      + cbn [app]. eapply Forall_impl; [|exact K2]. intros a Ha. exact (timely_clock _ _ Ha T3).
    - split; [exact (crossing_defined md dom Hix q1 _ Qc (Qf eq_refl))|].
      intros k p' b nx H. destruct (facet_clock _ _ _ _ _ _ H) as (K1 & ->). split; [exact (timely_clock _ _ K1 Qt)|constructor].
    - split; [discriminate|]. intros k p' b nx H. injection H; intros; subst. split; [exact Qt|constructor]. }
  destruct A as (A1 & A2). destruct (after_segment cf td dom o q1 _ []) as [[[[k1 p1] b1] nx1]| |]; cbn [rbind].
  - split; [discriminate|]. intros k p' b nx x H. injection H; intros; subst. eapply A2; reflexivity.
  - congruence.
  - split; [discriminate|]. intros; discriminate.
Qed.

Lemma track_goes fuel : forall cf (p : particle K), fine ok md dom p -> timely p ->
  solo_track fuel cf td dom p <> Panic /\
  forall p' b nx l, solo_track fuel cf td dom p = Ok (p', b, nx, l) -> (timely p' /\ p_energy_group p' < ng) /\ Forall timely nx.
Proof.
  induction fuel as [|fuel IH]; intros cf p Hf Ht; cbn [solo_track]; [split; [discriminate|intros; discriminate]|].
  destruct (segment_goes cf p Hf Ht) as (N1 & N2).
  destruct (solo_segment cf td dom p) as [[[[[k p1] b1] nx1] x]| |] eqn:E; [|congruence|split; [discriminate|intros; discriminate]].
  cbn [rbind]. destruct (solo_segment_fine ok md Hsafe dom Hsound _ _ _ _ _ _ _ Hf E) as (F1 & F2).
  destruct (N2 _ _ _ _ _ eq_refl) as (T1 & T2). destruct k.
  - destruct (IH cf p1 F1 T1) as (M1 & M2). destruct (solo_track fuel cf td dom p1) as [[[[p2 b2] nx2] l2]| |]; cbn [rbind].
    + split; [discriminate|]. intros p' b nx l H. injection H; intros; subst. destruct (M2 _ _ _ _ eq_refl) as (M3 & M4).
      split; [exact M3|]. apply Forall_app. auto.
    + congruence.
    + split; [discriminate|intros; discriminate].
  - split; [discriminate|]. intros p' b nx l H. injection H; intros; subst. split; [split; [exact T1|apply F1]|exact T2].
Qed.

Definition calm (p : particle K) : Prop := placed ok dom p /\ timely p.

Lemma solo_goes fuel cf (p : particle K) : calm p -> solo fuel cf td dom p <> Panic /\
  forall p' b nx l, solo fuel cf td dom p = Ok (p', b, nx, l) -> (calm p' /\ p_energy_group p' < ng) /\ Forall calm nx.
Proof.
  intros (Hp & Ht). unfold solo, prepare_particle. cbv zeta.
  match goal with |- context [get_energy_groups _ ?e] => destruct (group_defined md dom Hsound e) as (g & Eg) end. fold td in Eg.
  rewrite Eg. cbn [rbind].
  match goal with |- context [solo_track fuel cf td dom ?q] => set (q0 := q) end.
  assert (E0 : prepare_particle td p = Ok q0) by (unfold prepare_particle; cbv zeta; rewrite Eg; reflexivity).
  assert (F0 : fine ok md dom q0) by exact (prepare_fine ok md Hsafe dom Hsound p q0 Hp E0).
  assert (T0 : timely q0).
  { unfold q0, timely. cbn. destruct (p_time_to_census p <=. f0); cbn; [|exact Ht].
    apply (sl_add _ SL); [exact Ht|exact (sv_dt _ _ _ Hval)]. }
  destruct (track_goes fuel cf q0 F0 T0) as (M1 & M2). split; [exact M1|]. intros p' b nx l H.
  destruct (M2 _ _ _ _ H) as ((M3 & M4) & M5). destruct (solo_track_fine ok md Hsafe dom Hsound fuel cf q0 _ _ _ _ F0 H) as (G1 & G2).
  split; [split; [split; assumption|exact M4]|]. apply Forall_forall. intros a Ha. rewrite Forall_forall in M5, G2. split; auto.
Qed.

Lemma solos_calm fuel cf ps : forall rs, Forall calm ps -> rmap (solo fuel cf td dom) ps = Ok rs ->
  Forall (fun p => calm p /\ p_energy_group p < ng) (finals rs) /\ Forall calm (created rs).
Proof.
  induction ps as [|p ps IH]; intros rs Hp H; cbn [rmap] in H.
  - injection H; intros; subst. split; constructor.
  - inversion Hp; subst. rb H as [[[p' b] nx] l] E. rb H as rs' E'. injection H; intros; subst.
    destruct (IH _ H3 E') as (I1 & I2). destruct (proj2 (solo_goes fuel cf p H2) _ _ _ _ E) as (J1 & J2).
    split; [constructor; auto|]. unfold created. cbn [map concat]. apply Forall_app. auto.
Qed.

End Track.

(** ** The domain during the run *)

Record sane (d : domain K) : Prop := { sa_sound : sound_problem md d; sa_indexed : indexed md d; sa_values : safe_values good md d }.

Definition unchanged (cs cs' : cell_state K) : Prop :=
  cs_material cs' = cs_material cs /\ cs_volume cs' = cs_volume cs /\ cs_number_density cs' = cs_number_density cs.

Lemma Forall2_in_r {A B} (R : A -> B -> Prop) l l' y : Forall2 R l l' -> In y l' -> exists x, In x l /\ R x y.
Proof. induction 1 as [|a b l l' Hab H IH]; cbn; [tauto|]. intros [<- |Hy]; [eauto|]. destruct (IH Hy) as (x & H1 & H2). eauto. Qed.
Lemma Forall2_same {A B} (R : A -> B -> Prop) l l' : Forall2 R l l' -> length l = length l'.
Proof. induction 1; cbn; congruence. Qed.
Lemma Forall2_nth_r {A B} (R : A -> B -> Prop) l l' : Forall2 R l l' -> forall i,
  match nth_error l i, nth_error l' i with Some x, Some y => R x y | None, None => True | _, _ => False end.
Proof. induction 1; intros [|i]; cbn; auto. apply IHForall2. Qed.

Lemma sane_stays (d : domain K) cells : sane d -> Forall2 unchanged (d_cells d) cells -> sane (set_cells d cells).
Proof.
  intros [[S1 S2 S3] [I1 I2 I3 I4 I5 I6 I7] [V1 V2 V3 V4 V5 V6 V7]] HF.
  pose proof (Forall2_same _ _ _ HF) as L.
  assert (Hn : n_cells (set_cells d cells) = n_cells d) by (unfold n_cells; cbn; rewrite L; reflexivity).
  assert (Hx : forall c g, cell_cross_section (mc_track md) (set_cells d cells) c g = cell_cross_section (mc_track md) d c g).
  { intros c g. unfold cell_cross_section, vec_get. cbn [d_cells set_cells]. pose proof (Forall2_nth_r _ _ _ HF (N.to_nat c)) as G.
    destruct (nth_error (d_cells d) (N.to_nat c)) as [a|], (nth_error cells (N.to_nat c)) as [b|]; try contradiction; [|reflexivity].
    destruct G as (G1 & G2 & G3). cbn [unwrap rbind]. rewrite G1, G3. reflexivity. }
  assert (Hw : unit_weight md (set_cells d cells) = unit_weight md d).
  { unfold unit_weight. destruct (source_rates md) as [rates| |]; cbn [rbind]; try reflexivity. f_equal. cbn [d_cells set_cells].
    clear - HF. induction HF as [|a b l l' (G1 & G2 & G3) H IH]; cbn [rmap]; [reflexivity|]. rewrite G1, G2, IH. reflexivity. }
  constructor; constructor; auto.
  - intros conn fa c. rewrite Hn. apply S3.
  - cbn. rewrite <- L. exact I2.
  - intros cs Hcs. destruct (Forall2_in_r _ _ _ _ HF Hcs) as (cs0 & Hin & (G1 & _)). rewrite G1. auto.
  - intros conn fa Hc Hf. specialize (I6 conn fa Hc Hf). unfold crossable in * . rewrite Hn. exact I6.
  - intros c g xs Hr. unfold in_range in Hr. rewrite Hn in Hr. rewrite Hx. apply V2. exact Hr.
  - intros cs mat iso rs r g x Hcs. destruct (Forall2_in_r _ _ _ _ HF Hcs) as (cs0 & Hin & (G1 & _ & G3)). rewrite G1, G3. eapply V3; eauto.
  - intros w cs x. rewrite Hw. intros Ew Hcs. destruct (Forall2_in_r _ _ _ _ HF Hcs) as (cs0 & Hin & (G1 & G2 & _)).
    intros (mat & mp & M1 & M2 & M3). eapply V6; eauto. exists mat, mp. rewrite <- G1, <- G2. auto.
Qed.

(** ** Rounds *)

Record state_ok (u : unit_state K) (c : container K) : Prop := {
  so_sane : sane (u_domain u);
  so_processing : Forall (calm (u_domain u)) (processing c ++ extra_particles c);
  so_processed : Forall (fun p => calm (u_domain u) p /\ p_energy_group p < ng) (processed c);
  so_mem : sound_mem td (u_domain u) ng (u_mem u)
}.
Hypothesis Hrun : run_ok md.

Lemma calm_in_range d l : sane d -> Forall (calm d) l -> Forall (stays_in_range td d ng) l.
Proof. intros [S _ _] Hl. eapply Forall_impl; [|exact Hl]. intros p (Hp & _). exact (placed_stays ok md Hsafe d S p Hp). Qed.

Lemma round_ok fuel cf u c r : state_ok u c -> process_particles fuel cf md u (sort_processing c) r ->
  r <> Panic /\ forall u' c', r = Ok (u', c') -> state_ok u' (clean_extra_vaults c').
Proof.
  intros [HS HP HD HM] H. apply Forall_app in HP as (HP & HE).
  assert (HP' : Forall (calm (u_domain u)) (processing (sort_processing c))).
  { cbn. eapply Permutation_Forall; [apply sort_particles_perm|exact HP]. }
  pose proof (calm_in_range _ _ HS HP') as HR. destruct HS as [S1 S2 S3]. split.
  - intros ->. destruct (process_panics (sl_zero _ SL) fuel cf md u _ HM HR Hrun H) as (p & Hp & E).
    rewrite Forall_forall in HP'. exact (proj1 (solo_goes (u_domain u) S1 S2 S3 fuel cf p (HP' _ Hp)) E).
  - intros u' c' ->. pose proof (process_as (sl_zero _ SL) fuel cf md u _ _ HM HR Hrun H) as G.
    destruct (rmap (solo fuel cf (mc_track md) (u_domain u)) (processing (sort_processing c))) as [rs| |] eqn:E;
      [|destruct G; discriminate|destruct G; discriminate].
    destruct G as (u1 & c1 & E1 & [A1 A2 A3 A4 A5 A6 A7 A8]). injection E1 as <- <-.
    destruct (solos_calm (u_domain u) S1 S2 S3 fuel cf _ _ HP' E) as (G1 & G2).
    constructor; cbn [clean_extra_vaults processing processed extra_particles].
    + rewrite A1. constructor; assumption.
    + rewrite A1, A4, app_nil_r. cbn [app]. eapply Permutation_Forall; [apply Permutation_sym; exact A6|]. apply Forall_app. split; assumption.
    + rewrite A1, A5. apply Forall_app. split; [exact HD|]. apply Forall_forall. intros p Hp. apply filter_In in Hp as (Hp & _).
      rewrite Forall_forall in G1. auto.
    + rewrite A1. exact A7.
Qed.

Lemma rounds_ok fuel cf u c r : tracking_rounds fuel cf md u c r -> state_ok u c ->
  r <> Panic /\ forall u' c', r = Ok (u', c') -> state_ok u' c' /\ processing c' = [] /\ extra_particles c' = [].
Proof.
  induction 1 as [u c D|u c u' c' r D Hp Ht IH|u c D Hp|u c D Hp]; intros HS.
  - split; [discriminate|]. intros u' c' E. injection E as <- <-. split; [exact HS|].
    unfold is_done_processing in D. apply andb_prop in D as (D1 & D2). destruct (extra_particles c), (processing c); try discriminate. auto.
  - apply IH. eapply (round_ok _ _ _ _ _ HS Hp). reflexivity.
  - exfalso. exact (proj1 (round_ok _ _ _ _ _ HS Hp) eq_refl).
  - split; [discriminate|]. intros; discriminate.
Qed.

(** ** Source and population control *)

Record ready_ok (s : sim K) : Prop := {
  ro_sane : sane (u_domain (s_unit s));
  ro_processing : Forall (calm (u_domain (s_unit s))) (processing (s_cont s));
  ro_processed : processed (s_cont s) = [];
  ro_extra : extra_particles (s_cont s) = [];
  ro_zeros : zeros (m_cache (u_mem (s_unit s)));
  ro_cache : N.of_nat (length (m_cache (u_mem (s_unit s)))) = n_cells (u_domain (s_unit s)) * ng;
  ro_flux : N.of_nat (length (m_flux (u_mem (s_unit s)))) = n_cells (u_domain (s_unit s)) * ng;
  ro_weight : exists w, unit_weight md (u_domain (s_unit s)) = Ok w /\
    s_source_weight s = (f0 +. w) /. (src_fraction *. fof_N (sp_n_particles (mc_params md)));
  ro_global : 0 < s_global_n s;
  ro_spectrum : N.of_nat (length (rs_spectrum (s_results s))) = ng + 1
}.

Lemma rates_length rates : source_rates md = Ok rates -> length rates = length (td_mats td).
Proof. unfold source_rates. intros H. apply rmap_ok in H as (L & _). exact L. Qed.

Lemma cells_emit d : sane d -> exists xs, Forall2 (emits md) (d_cells d) xs.
Proof.
  intros [_ HI _]. assert (G : forall cells, incl cells (d_cells d) -> exists xs, Forall2 (emits md) cells xs); [|apply G, incl_refl].
  induction cells as [|cs cells IH]; intros Hi; [exists []; constructor|].
  destruct IH as (xs & Hxs); [intros x Hx; apply Hi; right; exact Hx|].
  destruct (material_defined md d HI cs) as (mat & Em); [apply Hi; left; reflexivity|].
  pose proof (ix_names _ _ HI) as HM. unfold materials_known in HM. rewrite Forall_forall in HM.
  destruct (HM mat (nth_error_In _ _ Em)) as (mp & Ep).
  eexists (_ :: xs). constructor; [|exact Hxs]. exists mat, mp. split; [exact Em|]. split; [exact Ep|reflexivity].
Qed.

Lemma source_unchanged w rates d : forall cells i cells' n ps, source_cells md w rates d i cells = Ok (cells', n, ps) ->
  Forall2 unchanged cells cells'.
Proof.
  induction cells as [|cs cells IH]; intros i cells' n ps H; cbn [source_cells] in H.
  - injection H; intros; subst. constructor.
  - rb H as n0 Hn0. rb H as ps0 Hps0. rb H as [[cells1 n1] ps1] Hrec. injection H; intros; subst; clear H.
    constructor; [repeat split; reflexivity|]. eapply IH; eauto.
Qed.

Lemma source_timely w rates d : sane d -> forall cells i cells' n ps, source_cells md w rates d i cells = Ok (cells', n, ps) -> Forall timely ps.
Proof.
  intros [_ _ HV]. induction cells as [|cs cells IH]; intros i cells' n ps H; cbn [source_cells] in H.
  - injection H; intros; subst. constructor.
  - rb H as n0 Hn0. rb H as ps0 Hps0. rb H as [[cells1 n1] ps1] Hrec. injection H; intros; subst; clear H.
    apply Forall_app. split; [|eapply IH; eauto]. apply rmap_ok in Hps0 as (_ & F2). clear - F2 HV SL. induction F2; constructor; auto.
    destruct (source_parts _ _ _ _ _ _ _ H) as (s & coord & q & _ & ->). unfold timely.
    cbn [p_time_to_census set_time_to_census]. apply (sl_mul _ SL); [exact (sv_dt _ _ _ HV)|]. apply (sl_sample _ SL), rng_next_lt.
Qed.

Lemma low_weight_clock (p : particle K) c w : clock (snd (low_weight_rr p c w)) = clock p.
Proof.
  unfold low_weight_rr, draw. destruct (fle (p_weight p) _); [|reflexivity]. cbv zeta. destruct (fle (fsample _) c); reflexivity.
Qed.
Lemma over_populated_clock (p : particle K) f : clock (snd (over_populated_rr p f)) = clock p.
Proof. unfold over_populated_rr, draw. destruct (flt f _); reflexivity. Qed.
Lemma regulate_clock f c w (p : particle K) : clock (snd (regulate_one f c w p)) = clock p.
Proof.
  unfold regulate_one. pose proof (over_populated_clock p f) as H1. destruct (over_populated_rr p f) as [o p1].
  pose proof (low_weight_clock p1 c w) as H2. destruct (low_weight_rr p1 c w) as [t p2]. cbn [snd] in * . congruence.
Qed.
Lemma copies_clock n : forall (p : particle K),
  clock (snd (split_copies n p)) = clock p /\ Forall (fun q => clock q = clock p) (fst (split_copies n p)).
Proof.
  induction n as [|n IH]; intros p; cbn [split_copies]; [split; [reflexivity|constructor]|].
  assert (Hs : clock (snd (spawn p)) = clock p) by (unfold spawn; destruct (spawn_rn_seed _); reflexivity).
  destruct (spawn p) as [s p1]. cbn [snd] in Hs.
  specialize (IH p1). cbv zeta. destruct (split_copies n p1) as [l p2]. cbn [fst snd] in * .
  destruct IH as (I1 & I2). split; [congruence|]. constructor; [reflexivity|].
  eapply Forall_impl; [|exact I2]. cbn. intros. congruence.
Qed.
Lemma split_clock (p : particle K) f p' l : under_populated_split p f = Ok (p', l) ->
  clock p' = clock p /\ Forall (fun q => clock q = clock p) l.
Proof.
  unfold under_populated_split, draw. cbv zeta. intros H. rb H as n Hn.
  match type of H with context [split_copies ?m ?q] =>
    pose proof (copies_clock m q) as (S1 & S2); destruct (split_copies m q) as [l0 p2] end.
  cbn [fst snd] in * . injection H; intros; subst. split; [exact S1|exact S2].
Qed.

Lemma same_calm d (p q : particle K) : ce q = ce p -> clock q = clock p -> calm d p -> calm d q.
Proof. intros H1 H2 (A & B). split; [exact (ce_placed ok d p q H1 A)|exact (timely_clock p q H2 B)]. Qed.

Lemma retain_calm d (f : particle K -> bool * particle K) l : (forall p, ce (snd (f p)) = ce p) -> (forall p, clock (snd (f p)) = clock p) ->
  Forall (calm d) l -> Forall (calm d) (retain_mut f l).
Proof.
  intros Hf Hg. induction 1 as [|p l Hp Hl IH]; cbn [retain_mut]; [constructor|].
  specialize (Hf p). specialize (Hg p). destruct (f p) as [keep p']. cbn [snd] in Hf, Hg. destruct keep; auto.
  constructor; auto. exact (same_calm d p p' Hf Hg Hp).
Qed.
Lemma split_all_calm d f (l : list (particle K)) : forall ps cs, Forall (calm d) l ->
  split_all f l = Ok (ps, cs) -> Forall (calm d) ps /\ Forall (calm d) cs.
Proof.
  induction l as [|p l IH]; intros ps cs Hl H; cbn [split_all] in H.
  - injection H; intros; subst. split; constructor.
  - inversion Hl; subst. rb H as [p1 c1] H1. rb H as [ps1 r1] H5. injection H; intros; subst; clear H.
    destruct (IH _ _ H3 H5) as (I1 & I2). pose proof (under_populated_ce _ _ _ _ H1) as (S1 & S2). apply split_clock in H1 as (T1 & T2).
    split; [constructor; [exact (same_calm d _ _ S1 T1 H2)|exact I1]|]. apply Forall_app. split; [|exact I2].
    apply Forall_forall. intros q Hq. rewrite Forall_forall in S2, T2. exact (same_calm d _ _ (S2 _ Hq) (T2 _ Hq) H2).
Qed.
Lemma split_all_goes f (l : list (particle K)) : (forall s, s < two64 -> exists n, fto_usize (copies f (fsample s)) = Some n) ->
  exists r, split_all f l = Ok r.
Proof.
  intros H. induction l as [|p l (r & IH)]; cbn [split_all]; [eexists; reflexivity|].
  unfold under_populated_split, draw. cbv zeta. destruct (H (rng_next (p_random_number_seed p)) (rng_next_lt _)) as (n & E).
  unfold copies in E. rewrite E. cbn [unwrap rbind]. destruct (split_copies _ _) as [c q]. cbn [rbind]. rewrite IH. cbn [rbind].
  destruct r as [ps rest]. eexists. reflexivity.
Qed.

Lemma population_ok s : ready_ok s ->
  exists u c, population_phase md s = Ok (u, c) /\ state_ok u c.
Proof.
  intros [HS HP HD HE HZ HC HX (w & Ew & Hw) HG _].
  destruct (cells_emit _ HS) as (xs & Hxs). pose proof HS as [S1 S2 S3].
  destruct (rates_defined md (ix_names _ _ S2)) as (rates & Er).
  assert (Hfit : Forall (fun x => fto_usize (ffloor (x /. s_source_weight s)) <> None) xs).
  { rewrite Hw. clear - Hxs S3 Ew.
    assert (G : forall cells, incl cells (d_cells (u_domain (s_unit s))) -> forall xs, Forall2 (emits md) cells xs ->
      Forall (fun x => fto_usize (ffloor (x /. ((f0 +. w) /. (src_fraction *. fof_N (sp_n_particles (mc_params md)))))) <> None) xs).
    { intros cells Hi ys H. induction H as [|cs x cells ys Hx H IH]; constructor.
      - destruct (sv_source _ _ _ S3 _ _ _ Ew (Hi _ (or_introl eq_refl)) Hx) as (n & ->). discriminate.
      - apply IH. intros y Hy. apply Hi. right. exact Hy. }
    exact (G _ (incl_refl _) _ Hxs). }
  destruct (source_cells_defined md (s_source_weight s) rates (u_domain (s_unit s)) Er (proj1 (ix_mesh _ _ S2)) (sl_points _ SL)
              (d_cells (u_domain (s_unit s))) 0 xs Hxs Hfit) as (((cells & n) & ps) & Es).
  { rewrite (ix_cells _ _ S2). lia. }
  unfold population_phase, source_now. cbv zeta. rewrite Er. cbn [rbind]. rewrite Es. cbn [rbind].
  pose proof (source_unchanged _ _ _ _ _ _ _ _ Es) as HU. pose proof (source_timely _ _ _ HS _ _ _ _ _ Es) as HT.
  assert (Hpl : Forall (placed ok (u_domain (s_unit s))) ps).
  { eapply (source_cells_placed md ok Hsafe); [|exact Es]. unfold n_cells. lia. }
  set (dom := u_domain (s_unit s)) in * . set (dom' := set_cells dom cells).
  assert (HS' : sane dom') by (apply sane_stays; assumption).
  assert (Hn : n_cells dom = n_cells dom') by (unfold n_cells, dom'; cbn; rewrite (Forall2_same _ _ _ HU); reflexivity).
  assert (Hcalm : forall p, calm dom p -> calm dom' p) by (intros p ((A & B) & C); split; [split; [rewrite <- Hn; exact A|exact B]|exact C]).
  assert (HPs : Forall (calm dom') (processing (s_cont s) ++ ps)).
  { apply Forall_app. split; [eapply Forall_impl; [|exact HP]; auto|]. apply Forall_forall. intros p Hp. apply Hcalm.
    rewrite Forall_forall in Hpl, HT. split; auto. }
  assert (M1 : sound_mem td dom' ng (u_mem (s_unit s))) by (apply zeros_sound; auto; rewrite <- Hn; auto).
  cbn [processing processed extra_particles]. rewrite HD, HE.
  set (l := processing (s_cont s) ++ ps) in * .
  assert (HF : exists f, compute_split_factor (sp_n_particles (mc_params md)) (s_global_n s) (N.of_nat (length l)) (ei_n_units (mc_exec md))
                  (sp_load_balance (mc_params md)) = Ok f /\ (f1 <. f = true -> exists r, split_all f l = Ok r)).
  { destruct l as [|p l'].
    - unfold compute_split_factor. cbn. destruct (sp_load_balance _); (eexists; split; [reflexivity|]); intros _; eexists; reflexivity.
    - destruct (sv_split _ _ _ S3 (s_global_n s) (N.of_nat (length (p :: l'))) HG ltac:(cbn [length]; lia)) as (f & Ef & Hf).
      exists f. split; [exact Ef|]. intros H1. apply split_all_goes. exact (Hf H1). }
  destruct HF as (f & -> & HF). cbn [rbind]. destruct (f <. f1); [|destruct (f1 <. f)].
  - unfold regulate_population. cbv zeta. eexists _, _. split; [reflexivity|].
    constructor; cbn [u_domain u_mem processing processed extra_particles]; auto; rewrite ?app_nil_r.
    apply retain_calm; auto; [apply regulate_one_ce|apply regulate_clock].
  - unfold split_population. cbv zeta. cbn [processing processed extra_particles u_balance].
    destruct (HF eq_refl) as ((a & b) & E). rewrite E. cbn [rbind]. destruct (split_all_calm dom' _ _ _ _ HPs E) as (HA & HB).
    cbn [clean_extra_vaults processing processed extra_particles]. eexists _, _. split; [reflexivity|].
    constructor; cbn [u_domain u_mem processing processed extra_particles]; auto; rewrite ?app_nil_r.
    apply retain_calm; [intros; apply low_weight_ce|intros; apply low_weight_clock|]. cbn [app]. apply Forall_app. auto.
  - eexists _, _. split; [reflexivity|]. constructor; cbn [u_domain u_mem processing processed extra_particles]; auto; rewrite ?app_nil_r; auto.
Qed.

(** ** Cycles *)

Record between_ok (s : sim K) : Prop := {
  bo_sane : sane (u_domain (s_unit s));
  bo_processed : Forall (fun p => calm (u_domain (s_unit s)) p /\ p_energy_group p < ng) (processed (s_cont s));
  bo_processing : processing (s_cont s) = [];
  bo_extra : extra_particles (s_cont s) = [];
  bo_cache : N.of_nat (length (m_cache (u_mem (s_unit s)))) = n_cells (u_domain (s_unit s)) * ng;
  bo_flux : N.of_nat (length (m_flux (u_mem (s_unit s)))) = n_cells (u_domain (s_unit s)) * ng;
  bo_spectrum : N.of_nat (length (rs_spectrum (s_results s))) = ng + 1
}.

Lemma process_ok fuel cf s r : ready_ok s -> cycle_process fuel cf md s r -> r <> Panic /\ forall s', r = Ok s' -> between_ok s'.
Proof.
  intros HR H. destruct (population_ok s HR) as (u & c & E & HS). inversion H as [u1 c1 q E1 T1|E1|E1]; subst; try congruence.
  rewrite E in E1. injection E1 as <- <-. destruct (rounds_ok _ _ _ _ _ T1 HS) as (N1 & N2). destruct q as [[u' c']| |]; cbn [rbind]; [|congruence|].
  - split; [discriminate|]. intros s' Es. injection Es as <-. destruct (N2 _ _ eq_refl) as ([A B C D] & E2 & E3).
    constructor; cbn; auto; try apply D. apply HR.
  - split; [discriminate|]. intros; discriminate.
Qed.

Lemma prepare_ok s : between_ok s -> exists s', prepare_cycle md s = Ok s' /\ ready_ok s'.
Proof.
  intros [HS HD HP HE HC HX HSp]. pose proof HS as [S1 S2 S3]. unfold prepare_cycle. cbv zeta.
  assert (HW : exists w, unit_weight md (u_domain (s_unit s)) = Ok w).
  { unfold unit_weight. destruct (rates_defined md (ix_names _ _ S2)) as (rates & Er). rewrite Er. cbn [rbind].
    match goal with |- context [rmap ?f ?l] => destruct (rmap_total f l) as (ys & ->) end; [|eexists; reflexivity].
    intros cs Hcs. destruct (vec_get_in_range rates (cs_material cs)) as (rate & ->); [|eexists; reflexivity].
    rewrite (rates_length _ Er). exact (ix_material _ _ S2 cs Hcs). }
  destruct HW as (w & Ew). rewrite Ew. cbn [rbind]. destruct (sv_spawn _ _ _ S3) as (n & -> & Hn). cbn [unwrap rbind].
  eexists. split; [reflexivity|]. constructor; cbn; rewrite ?map_length; auto.
  - rewrite HP. cbn [app]. eapply Forall_impl; [|exact HD]. intros p (A & _). exact A.
  - apply zeros_map.
  - exists w. auto.
  - lia.
Qed.

Lemma list_set_length {A} (l : list A) : forall i x, length (list_set l i x) = length l.
Proof. induction l; intros [|i] x; cbn; auto. Qed.
Lemma spectrum_ok (l : list (particle K)) : Forall (fun p => p_energy_group p < ng) l -> forall sp, N.of_nat (length sp) = ng + 1 ->
  exists sp', rfold spectrum_add l sp = Ok sp' /\ N.of_nat (length sp') = ng + 1.
Proof.
  induction 1 as [|p l Hp Hl IH]; intros sp Hs; cbn [rfold]; [eauto|]. unfold spectrum_add at 1.
  destruct (vec_get_in_range sp (p_energy_group p)) as (x & ->); [lia|]. cbn [rbind]. apply IH. rewrite list_set_length. exact Hs.
Qed.

Hypothesis Hpol : loop_policy md.

Lemma finish_ok step s : between_ok s -> exists s', finish_cycle md step s = Ok s' /\ between_ok s'.
Proof.
  intros [HS HD HP HE HC HX HSp]. pose proof HS as [S1 S2 S3].
  assert (HF : exists fl, (if sp_standard (mc_params md) then Ok (rs_fluence (s_results s))
            else fluence_compute (sp_n_groups (mc_params md)) (rs_fluence (s_results s)) (m_flux (u_mem (s_unit s)))) = Ok fl).
  { destruct (sp_standard _); [eexists; reflexivity|]. unfold fluence_compute. pose proof (sd_groups _ _ S1).
    destruct (N.eqb_spec (sp_n_groups (mc_params md)) 0); [lia|]. cbn [negb rassert rbind]. eexists. reflexivity. }
  destruct HF as (fl & EF).
  assert (G : exists s', (do (u, rs) <- update_stats md (mkUnit (u_domain (s_unit s))
        (bset (u_balance (s_unit s)) EEnd (N.of_nat (length (processed (s_cont s))))) (u_mem (s_unit s)) (u_weight (s_unit s))) (s_results s) ;
     do rs <- update_spectrum md (s_cont s) rs ;
     Ok (mkSim u (s_cont s) rs (s_source_weight s) (s_global_n s) (s_reports s ++
       [mkReport (step - 1) (bset (u_balance (s_unit s)) EEnd (N.of_nat (length (processed (s_cont s))))) (fsum (m_flux (u_mem (s_unit s))))]))) = Ok s'
     /\ between_ok s').
  { unfold update_stats. cbn [u_mem]. rewrite EF. cbn [rbind]. unfold update_spectrum. cbn [rs_spectrum rs_balance rs_fluence].
    destruct (sp_spectrum (mc_params md)).
    - rewrite HP. cbn [rfold rbind].
      destruct (spectrum_ok (processed (s_cont s))) with (sp := rs_spectrum (s_results s)) as (sp' & -> & L); [|exact HSp|].
      + eapply Forall_impl; [|exact HD]. intros p (_ & A). exact A.
      + cbn [rbind]. eexists. split; [reflexivity|]. constructor; cbn; rewrite ?map_length; auto.
    - cbn [rbind]. eexists. split; [reflexivity|]. constructor; cbn; rewrite ?map_length; auto. }
  unfold finish_cycle. destruct Hpol as [-> | ->]; exact G.
Qed.

Lemma sync_ok step s : between_ok s -> step <= sp_n_steps (mc_params md) -> exists s', cycle_sync md step s = Ok s' /\ ready_ok s'.
Proof.
  intros HB Hs. unfold cycle_sync. destruct (step =? 0); [apply prepare_ok; exact HB|].
  destruct (finish_ok step s HB) as (s' & -> & HB'). cbn [rbind].
  destruct (N.eqb_spec step (sp_n_steps (mc_params md) + 1)); [lia|]. apply prepare_ok. exact HB'.
Qed.

Lemma steps_ok fuel cf s0 n r : between_ok s0 -> run_steps fuel cf md s0 n r -> n <= sp_n_steps (mc_params md) ->
  r <> Panic /\ forall s, r = Ok s -> between_ok s.
Proof.
  intros HB. induction 1 as [|n a a1 r H IH Hs Hp|n a H IH Hs|n r H IH Hr]; intros Hn.
  - split; [discriminate|]. intros s E. injection E as <-. exact HB.
  - destruct IH as (_ & IH); [lia|]. destruct (sync_ok n a (IH _ eq_refl) ltac:(lia)) as (s' & E & HR). rewrite E in Hs. injection Hs as <-.
    eapply process_ok; eauto.
  - destruct IH as (_ & IH); [lia|]. destruct (sync_ok n a (IH _ eq_refl) ltac:(lia)) as (s' & E & HR). congruence.
  - apply IH. lia.
Qed.

Lemma initial_ok d : sane d -> between_ok (initial_sim md d).
Proof.
  intros HS. constructor; cbn; rewrite ?repeat_length; auto; try (unfold n_cells; apply N2Nat.id).
Qed.

Theorem run_never_panics fuel cf d r : sane d -> core_loop fuel cf md (initial_sim md d) r -> r <> Panic.
Proof.
  intros HS H. inversion H as [q Q T|Q]; subst; [|destruct Hpol, Q; congruence].
  destruct (steps_ok _ _ _ _ _ (initial_ok d HS) T (N.le_refl _)) as (N1 & N2). destruct q as [s| |]; cbn [rbind]; [|congruence|discriminate].
  destruct (sync_ok _ s (N2 _ eq_refl) (N.le_refl _)) as (s' & -> & _). discriminate.
Qed.

End Run.
