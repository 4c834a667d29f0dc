(** Accounting of whole cycles and runs. *)
From Coq Require Import NArith PeanoNat List Bool Lia Permutation.
From Verif Require Import Float RngModel ParticleModel NuclearModel MeshTypes Balance TrackModel CycleModel
  TrackSpec CycleSpec ProgLemmas TrackAccount.
Import ListNotations.
Local Open Scope N_scope.
Local Opaque rng_next spawn_rn_seed.

Section CycleAccount.
Context {K : FloatOps}.

(** ** Lists *)

Lemma chunks_fuel_concat {A} fuel n (l : list A) : (0 < n)%nat -> (length l <= fuel)%nat ->
  concat (chunks_fuel fuel n l) = l.
Proof.
  intros Hn. revert l. induction fuel as [|fuel IH]; intros l Hl.
  - destruct l; cbn in * ; [reflexivity|lia].
  - destruct l as [|x l]; [reflexivity|]. cbn [chunks_fuel concat].
    rewrite IH.
    + apply firstn_skipn.
    + rewrite skipn_length. cbn [length] in * . lia.
Qed.
Lemma chunks_concat {A} n (l : list A) : (0 < n)%nat -> concat (chunks n l) = l.
Proof. intros Hn. apply chunks_fuel_concat; auto. Qed.

Lemma chunk_size_pos ei len n : chunk_size ei len = Ok n -> 0 < n.
Proof.
  unfold chunk_size. destruct (ei_chunk_size ei) eqn:E; intros H.
  - rb H as u Hu. injection H; intros; subst. generalize (len / ei_n_rayon_threads ei). lia.
  - injection H; intros; subst. lia.
Qed.

Lemma sort_insert_perm (p : particle K) l : Permutation (p :: l) (sort_insert p l).
Proof.
  induction l as [|q l IH]; cbn [sort_insert]; auto. destruct (sort_le p q); auto.
  rewrite perm_swap. constructor. exact IH.
Qed.
Lemma sort_particles_perm (l : list (particle K)) : Permutation l (sort_particles l).
Proof.
  induction l as [|p l IH]; cbn [sort_particles]; auto.
  rewrite <- sort_insert_perm. constructor. exact IH.
Qed.

Lemma par_sum_bsum l b : par_sum l b -> b = bsum l.
Proof.
  induction 1 as [l|l1 l2 a b _ IH1 _ IH2].
  - rewrite bsum_cons. cbn. apply badd_zero_r.
  - rewrite bsum_app, !bsum_cons, IH1, IH2. cbn. rewrite badd_zero_r. reflexivity.
Qed.

(** ** One call of [process_particles] *)

Lemma slice_paths_app td dom (ps1 ps2 ps1' ps2' : list (particle K)) e1 e2 n1 n2 :
  slice_paths td dom ps1 ps1' e1 n1 -> slice_paths td dom ps2 ps2' e2 n2 ->
  slice_paths td dom (ps1 ++ ps2) (ps1' ++ ps2') (e1 ++ e2) (n1 ++ n2).
Proof.
  intros H1 H2. induction H1; cbn [app]; auto.
  rewrite <- app_assoc. econstructor; eauto.
Qed.

Lemma results_paths td dom (ch : list (list (particle K))) slices bals es :
  results3 (map (fun l => slice_post td dom l balance_zero []) ch) slices bals es ->
  exists evss, slice_paths td dom (concat ch) (concat slices) evss (concat es) /\
    bsum bals = history_balance (concat evss).
Proof.
  revert slices bals es. induction ch as [|l ch IH]; intros slices bals es H; cbn [map] in H;
    inversion H as [|P Ps s ss b bs e es' HP HR]; subst; cbn [concat].
  - exists []. split; [constructor|reflexivity].
  - destruct HP as (evss1 & nx1 & Hp & -> & ->).
    destruct (IH _ _ _ HR) as (evss2 & Hp2 & Hb).
    exists (evss1 ++ evss2). split; [apply slice_paths_app; assumption|].
    rewrite bsum_cons, Hb, concat_app, history_app, badd_zero_l. reflexivity.
Qed.

Lemma slices_leaves fuel cfuel td dom (ch : list (list (particle K))) :
  Forall2 leaves (map (fun l => slice_post td dom l balance_zero []) ch)
    (map (fun l => track_slice fuel cfuel td dom l balance_zero []) ch).
Proof. induction ch; cbn [map]; constructor; auto. apply slice_leaves. Qed.

Lemma process_paths fuel cfuel (md : mcdata K) u c r :
  process_particles fuel cfuel md u c r -> forall u' c', r = Ok (u', c') ->
  exists ps' evss nxs,
    slice_paths (mc_track md) (u_domain u) (processing c) ps' evss nxs /\
    u_domain u' = u_domain u /\ u_weight u' = u_weight u /\
    u_balance u' = badd (u_balance u) (history_balance (concat evss)) /\
    processing c' = [] /\ processed c' = processed c ++ filter is_valid ps' /\
    Permutation (extra_particles c') (extra_particles c ++ nxs).
Proof.
  intros H u' c' Er. destruct H as [r Hpol Hrun|n r b Hpol Hch Hpar Hsum|]; [| |discriminate].
  - rb Er as [[[ps b] ex] m] E. injection Er; intros; subst; clear Er.
    pose proof (leaves_run_seq _ _ _ _ _ _ (slice_leaves _ _ _ _ _ _ _) E) as (evss & nxs & Hp & -> & ->).
    exists ps, evss, nxs. cbn. rewrite badd_zero_l. repeat split; auto.
  - rb Er as [[[slices bals] m] ex] E. rb Er as t Et. injection Er; intros; subst; clear Er.
    specialize (Hsum _ _ _ _ eq_refl). apply par_sum_bsum in Hsum. subst b.
    pose proof (slices_leaves fuel cfuel (mc_track md) (u_domain u) (chunks (N.to_nat n) (processing c))) as HL.
    destruct (par_exec_ok _ _ _ _ _ _ _ _ _ HL Hpar) as (es & HR & HP).
    destruct (results_paths _ _ _ _ _ _ HR) as (evss & Hp & Hb).
    rewrite chunks_concat in Hp by (apply chunk_size_pos in Hch; lia).
    exists (concat slices), evss, (concat es). cbn. rewrite Hb. repeat split; auto.
Qed.

(** ** All the rounds *)

Lemma rounds_ok fuel cfuel (md : mcdata K) u c r :
  tracking_rounds fuel cfuel md u c r -> extra_particles c = [] ->
  forall u' c', r = Ok (u', c') ->
  exists evs kept,
    rounds_paths (mc_track md) (u_domain u) (processing c) evs kept /\
    u_domain u' = u_domain u /\ u_weight u' = u_weight u /\
    u_balance u' = badd (u_balance u) (history_balance evs) /\
    processing c' = [] /\ extra_particles c' = [] /\ processed c' = processed c ++ kept.
Proof.
  induction 1 as [u c Hd|u c u1 c1 r Hd Hpp Htr IH|u c Hd Hpp|u c Hd Hpp]; intros Hex u' c' Er.
  - injection Er; intros; subst; clear Er.
    unfold is_done_processing in Hd. apply andb_true_iff in Hd as (_ & Hd).
    destruct (processing c') eqn:Ep; [|discriminate].
    exists [], []. rewrite history_nil, badd_zero_r, app_nil_r. repeat split; auto. constructor.
  - destruct (process_paths _ _ _ _ _ _ Hpp _ _ eq_refl) as
      (ps' & evss & nxs & Hp & Hdom & Hw & Hb & H1 & H2 & H3).
    cbn [sort_processing processing processed extra_particles] in * .
    rewrite Hex in H3. cbn [app] in H3.
    destruct (IH eq_refl _ _ Er) as (evs & kept & Hr & D & W & B & P1 & P2 & P3).
    cbn [clean_extra_vaults processing processed extra_particles] in * .
    rewrite H1 in Hr. cbn [app] in Hr. rewrite Hdom in Hr.
    exists (concat evss ++ evs), (filter is_valid ps' ++ kept). repeat split; auto; try congruence.
    + eapply rp_more; [apply sort_particles_perm|exact Hp|exact H3|exact Hr].
    + rewrite B, Hb, history_app, badd_assoc. reflexivity.
    + rewrite P3, H2, app_assoc. reflexivity.
  - discriminate.
  - discriminate.
Qed.

Lemma all_valid_perm (l1 l2 : list (particle K)) : Permutation l1 l2 -> all_valid l1 -> all_valid l2.
Proof. intros HP. apply Permutation_Forall. exact HP. Qed.

Lemma filter_valid (ps : list (particle K)) :
  all_valid (filter is_valid ps) /\ N.of_nat (length (filter is_valid ps)) = valid_count ps.
Proof.
  split.
  - apply Forall_forall. intros p Hp. apply filter_In in Hp. destruct Hp as (_ & Hp).
    unfold is_valid in Hp. destruct (p_species p); congruence.
  - unfold valid_count. do 2 f_equal.
Qed.

Lemma rounds_accounted td dom (ps : list (particle K)) evs kept :
  rounds_paths td dom ps evs kept -> all_valid ps ->
  all_valid kept /\
  accounted (N.of_nat (length ps)) (N.of_nat (length kept)) 0
    (fun k => total (counts k) evs) (total is_crossing evs).
Proof.
  induction 1 as [|ps ps0 ps1 evss nxs next evs kept HP Hs HN Hr IH]; intros Hv.
  - split; [constructor|]. constructor; reflexivity.
  - apply (all_valid_perm _ _ HP) in Hv.
    destruct (slice_paths_accounted _ _ _ _ _ _ Hs Hv) as (V1 & L & [A1 A2 A3 A4 A5 A6 A7 A8 A9 A10]).
    apply Permutation_sym in HN.
    destruct (IH (all_valid_perm _ _ HN V1)) as (V2 & [B1 B2 B3 B4 B5 B6 B7 B8 B9 B10]).
    destruct (filter_valid ps1) as (V3 & L3).
    split; [apply Forall_app; auto|].
    rewrite (Permutation_length HP). rewrite <- (Permutation_length HN) in B1.
    rewrite app_length, Nat2N.inj_add, L3.
    constructor; rewrite ?total_app; lia.
Qed.

(** ** Source and population control *)

Lemma generate_species (p : particle K) m cell vol co p' :
  generate_coordinate_3dg p m cell vol = Ok (co, p') -> p_species p' = p_species p.
Proof.
  unfold generate_coordinate_3dg. intros H. rb H as center Hc.
  pose proof (draw_species p) as D1. destruct (draw p) as [r p1]. cbn [snd] in D1.
  rb H as points Hpt.
  pose proof (draw_species p1) as D2. destruct (draw p1) as [r1 p2]. cbn [snd] in D2.
  pose proof (draw_species p2) as D3. destruct (draw p2) as [r2 p3]. cbn [snd] in D3.
  pose proof (draw_species p3) as D4. destruct (draw p3) as [r3 p4]. cbn [snd] in D4.
  destruct (fold_barycentric _ _ _) as [[[a b] c] d]. destruct points as [[q0 q1] q2].
  injection H; intros; subst. congruence.
Qed.

Lemma sample_isotropic_species (p : particle K) : p_species (sample_isotropic p) = p_species p.
Proof.
  unfold sample_isotropic.
  pose proof (draw_species p) as D1. destruct (draw p) as [r p1]. cbn [snd] in D1.
  pose proof (draw_species p1) as D2. destruct (draw p1) as [r1 p2]. cbn [snd] in D2.
  cbn. congruence.
Qed.
Lemma sample_num_mfp_species (p : particle K) : p_species (sample_num_mfp p) = p_species p.
Proof.
  unfold sample_num_mfp.
  pose proof (draw_species p) as D1. destruct (draw p) as [r p1]. cbn [snd] in D1.
  cbn. congruence.
Qed.

Lemma source_particle_species (md : mcdata K) w dom cell vol seed p :
  source_particle md w dom cell vol seed = Ok p -> p_species p = Known.
Proof.
  unfold source_particle. destruct (spawn_rn_seed seed) as [s seed']. intros H.
  rb H as [co p1] Hg. apply generate_species in Hg. cbn [set_identifier set_random_number_seed p_species particle_default] in Hg.
  match type of H with context [sample_isotropic ?q] =>
    assert (Hq : p_species (sample_isotropic q) = Known) by (rewrite sample_isotropic_species; exact Hg);
    generalize dependent (sample_isotropic q) end.
  intros p2 H Hp2.
  pose proof (draw_species p2) as D1. destruct (draw p2) as [r p3]. cbn [snd] in D1.
  match type of H with context [sample_num_mfp ?q] =>
    assert (Hq : p_species (sample_num_mfp q) = Known) by (rewrite sample_num_mfp_species; cbn; congruence);
    generalize dependent (sample_num_mfp q) end.
  intros p4 H Hp4.
  pose proof (draw_species p4) as D2. destruct (draw p4) as [r1 p5]. cbn [snd] in D2.
  injection H; intros; subst. cbn. congruence.
Qed.

Lemma rmap_ok {A B} (f : A -> result B) l l' : rmap f l = Ok l' ->
  length l' = length l /\ Forall2 (fun x y => f x = Ok y) l l'.
Proof.
  revert l'. induction l as [|x l IH]; intros l' H; cbn [rmap] in H.
  - injection H; intros; subst. split; constructor.
  - rb H as y Hy. rb H as ys Hys. injection H; intros; subst.
    destruct (IH _ Hys) as (L & F2). split; [cbn; lia|constructor; auto].
Qed.

Lemma nrange_length lo n : length (nrange lo n) = n.
Proof. revert lo. induction n; intros; cbn; auto. Qed.

Lemma source_cells_ok (md : mcdata K) w rates dom idx cells cells' n ps :
  source_cells md w rates dom idx cells = Ok (cells', n, ps) ->
  N.of_nat (length ps) = n /\ all_valid ps /\ length cells' = length cells.
Proof.
  revert idx cells' n ps. induction cells as [|cs cells IH]; intros idx cells' n ps H; cbn [source_cells] in H.
  - injection H; intros; subst. repeat split; constructor.
  - rb H as n0 Hn0. rb H as ps0 Hps0. rb H as [[cells1 n1] ps1] Hrec.
    injection H; intros; subst; clear H.
    destruct (IH _ _ _ _ Hrec) as (L1 & V1 & C1).
    destruct (rmap_ok _ _ _ Hps0) as (L0 & F0).
    unfold source_seeds in L0. rewrite map_length, nrange_length in L0.
    repeat split.
    + rewrite app_length. lia.
    + apply Forall_app. split; auto.
      clear - F0. induction F0; constructor; eauto using source_particle_species.
    + cbn. lia.
Qed.

Lemma retain_mut_ok (f : particle K -> bool * particle K) l :
  (forall p, p_species (snd (f p)) = p_species p) ->
  (length (retain_mut f l) <= length l)%nat /\ (all_valid l -> all_valid (retain_mut f l)).
Proof.
  intros Hf. induction l as [|p l (IH1 & IH2)]; cbn [retain_mut]; auto.
  destruct (f p) as [keep p'] eqn:E. pose proof (Hf p) as Hp. rewrite E in Hp. cbn in Hp.
  destruct keep; cbn [length]; (split; [lia|]); intros Hv; inversion Hv; subst; [|auto].
  constructor; [congruence|apply IH2; assumption].
Qed.

Lemma low_weight_species (p : particle K) c w : p_species (snd (low_weight_rr p c w)) = p_species p.
Proof.
  unfold low_weight_rr, draw. destruct (fle (p_weight p) _); [|reflexivity].
  cbv zeta. destruct (fle (fsample _) c); reflexivity.
Qed.
Lemma over_populated_species (p : particle K) f : p_species (snd (over_populated_rr p f)) = p_species p.
Proof. unfold over_populated_rr, draw. destruct (flt f _); reflexivity. Qed.

Lemma regulate_one_species f c w (p : particle K) : p_species (snd (regulate_one f c w p)) = p_species p.
Proof.
  unfold regulate_one. destruct (over_populated_rr p f) as [o p1] eqn:E1.
  destruct (low_weight_rr p1 c w) as [t p2] eqn:E2. cbn.
  change p2 with (snd (t, p2)). rewrite <- E2, low_weight_species.
  change p1 with (snd (o, p1)). rewrite <- E1. apply over_populated_species.
Qed.

Lemma split_copies_species n (p : particle K) :
  p_species (snd (split_copies n p)) = p_species p /\
  Forall (fun q => p_species q = p_species p) (fst (split_copies n p)).
Proof.
  revert p. induction n as [|n IH]; intros p; cbn [split_copies]; [split; [reflexivity|constructor]|].
  pose proof (spawn_species p) as Hs. destruct (spawn p) as [s p1]. cbn in Hs.
  specialize (IH p1). cbv zeta. destruct (split_copies n p1) as [l p2]. cbn [fst snd] in * .
  destruct IH as (I1 & I2). split; [congruence|].
  constructor; [reflexivity|]. eapply Forall_impl; [|exact I2]. cbn. congruence.
Qed.

Lemma under_populated_species (p : particle K) f p' l :
  under_populated_split p f = Ok (p', l) ->
  p_species p' = p_species p /\ Forall (fun q => p_species q = p_species p) l.
Proof.
  unfold under_populated_split. destruct (draw p) as [r p1] eqn:E1.
  assert (Hp1 : p_species p1 = p_species p) by (change p1 with (snd (r, p1)); rewrite <- E1; reflexivity).
  intros H. rb H as n Hn.
  match type of H with context [split_copies ?n ?q] =>
    pose proof (split_copies_species n q) as Hs; destruct (split_copies n q) as [l1 p2] end.
  injection H; intros; subst. cbn in Hs. rewrite Hp1 in Hs. exact Hs.
Qed.

Lemma split_all_ok f (l : list (particle K)) ps copies :
  split_all f l = Ok (ps, copies) -> length ps = length l /\ (all_valid l -> all_valid ps /\ all_valid copies).
Proof.
  revert ps copies. induction l as [|p l IH]; intros ps copies H; cbn [split_all] in H.
  - injection H; intros; subst. repeat split; constructor.
  - rb H as [p1 c1] H1. rb H as [ps1 r1] H2. injection H; intros; subst; clear H.
    destruct (IH _ _ H2) as (L & V). apply under_populated_species in H1 as (S1 & S2).
    split; [cbn; lia|]. intros Hv. inversion Hv as [|? ? Hp Hl]; subst.
    destruct (V Hl) as (V1 & V2). split.
    + constructor; auto. congruence.
    + apply Forall_app. split; auto. rewrite Hp in S2. exact S2.
Qed.

(** The population phase. *)
Lemma population_ok (md : mcdata K) (s : sim K) u c :
  population_phase md s = Ok (u, c) -> extra_particles (s_cont s) = [] ->
  all_valid (processing (s_cont s)) ->
  (forall k, bget (u_balance (s_unit s)) k = if tallied_event_eq_dec k EStart then N.of_nat (length (processing (s_cont s))) else 0) ->
  exists sourced : list (particle K),
    all_valid sourced /\ all_valid (processing c) /\ extra_particles c = [] /\
    processed c = processed (s_cont s) /\
    bget (u_balance u) EStart = N.of_nat (length (processing (s_cont s))) /\
    bget (u_balance u) ESource = N.of_nat (length sourced) /\
    N.of_nat (length (processing c)) + bget (u_balance u) EOverRr + bget (u_balance u) EWeightRr
      = N.of_nat (length (processing (s_cont s))) + N.of_nat (length sourced) + bget (u_balance u) ESplit /\
    (forall k, In k [EAbsorb; ECensus; EEscape; ECollision; EEnd; EFission; EProduce; EScatter; ENumSegments] ->
       bget (u_balance u) k = 0) /\
    d_mesh (u_domain u) = d_mesh (u_domain (s_unit s)) /\
    u_mem u = u_mem (s_unit s).
Proof.
  unfold population_phase. intros H Hex Hv Hb.
  rb H as [u1 c1] Hsrc. unfold source_now in Hsrc.
  rb Hsrc as rates Hr. rb Hsrc as [[cells n] ps] Hcells. injection Hsrc; intros; subst; clear Hsrc.
  destruct (source_cells_ok _ _ _ _ _ _ _ _ _ Hcells) as (Ln & Vn & _).
  exists ps. rb H as f Hf.
  set (b0 := binc (u_balance (s_unit s)) ESource n) in * .
  assert (Hb0 : forall k, bget b0 k = if tallied_event_eq_dec k EStart then N.of_nat (length (processing (s_cont s)))
                       else if tallied_event_eq_dec k ESource then n else 0).
  { intros k. unfold b0. destruct (tallied_event_eq_dec k ESource) as [->|E].
    - rewrite bget_binc_same, Hb. cbn. lia.
    - rewrite bget_binc_other by congruence. rewrite Hb. destruct (tallied_event_eq_dec k EStart); reflexivity. }
  assert (Vp : all_valid (processing (s_cont s) ++ ps)) by (apply Forall_app; auto).
  destruct (flt f f1).
  - unfold regulate_population in H. cbn [processing processed extra_particles u_balance u_domain u_mem u_weight] in H.
    injection H; intros; subst; clear H. cbn [processing processed extra_particles u_balance u_domain u_mem set_cells d_mesh].
    destruct (retain_mut_ok (regulate_one f (sp_low_weight_cutoff (mc_params md)) (s_source_weight s))
       (processing (s_cont s) ++ ps) (regulate_one_species _ _ _)) as (R1 & R2).
    rewrite app_length in R1 |- * .
    split; [exact Vn|]. split; [apply R2; exact Vp|]. split; [exact Hex|]. split; [reflexivity|].
    rewrite bget_bset_same, !bget_bset_other by discriminate. rewrite !Hb0. cbn -[N.of_nat N.add].
    split; [reflexivity|]. split; [lia|]. split; [lia|]. split; [|auto].
    intros k Hk. rewrite bget_bset_other, Hb0 by (intros <-; cbn in Hk; intuition discriminate).
    destruct (tallied_event_eq_dec k EStart) as [->|]; [cbn in Hk; intuition discriminate|].
    destruct (tallied_event_eq_dec k ESource) as [->|]; [cbn in Hk; intuition discriminate|reflexivity].
  - destruct (flt f1 f).
    + rb H as [c2 b2] Hsp. unfold split_population in Hsp.
      cbn [processing processed extra_particles u_balance u_domain u_mem u_weight] in * .
      rb Hsp as [ps1 copies] Hall. injection Hsp; intros; subst; clear Hsp.
      injection H; intros; subst; clear H. cbn [processing processed extra_particles u_balance u_domain u_mem set_cells d_mesh clean_extra_vaults].
      destruct (split_all_ok _ _ _ _ Hall) as (Lall & Vall). destruct (Vall Vp) as (V1 & V2).
      destruct (retain_mut_ok (fun p => low_weight_rr p (sp_low_weight_cutoff (mc_params md)) (s_source_weight s))
         (ps1 ++ extra_particles (s_cont s) ++ copies) (fun p => low_weight_species p _ _)) as (R1 & R2).
      rewrite Hex in * . cbn [app] in * .
      rewrite !app_length in R1 |- * . rewrite app_length in Lall.
      split; [exact Vn|]. split; [apply R2, Forall_app; auto|]. split; [reflexivity|]. split; [reflexivity|].
      rewrite bget_bset_same, !(bget_bset_other _ EWeightRr) by discriminate.
      rewrite bget_bset_same, !(bget_bset_other _ ESplit) by discriminate. rewrite !Hb0. cbn -[N.of_nat N.add].
      split; [reflexivity|]. split; [lia|]. split; [rewrite (app_length (processing (s_cont s))); lia|]. split; [|auto].
      intros k Hk. rewrite !bget_bset_other, Hb0 by (intros <-; cbn in Hk; intuition discriminate).
      destruct (tallied_event_eq_dec k EStart) as [->|]; [cbn in Hk; intuition discriminate|].
      destruct (tallied_event_eq_dec k ESource) as [->|]; [cbn in Hk; intuition discriminate|reflexivity].
    + injection H; intros; subst; clear H. cbn [processing processed extra_particles u_balance u_domain u_mem set_cells d_mesh].
      rewrite app_length.
      split; [exact Vn|]. split; [exact Vp|]. split; [exact Hex|]. split; [reflexivity|].
      rewrite !Hb0. cbn -[N.of_nat N.add].
      split; [reflexivity|]. split; [lia|]. split; [lia|]. split; [|auto].
      intros k Hk. rewrite Hb0.
      destruct (tallied_event_eq_dec k EStart) as [->|]; [cbn in Hk; intuition discriminate|].
      destruct (tallied_event_eq_dec k ESource) as [->|]; [cbn in Hk; intuition discriminate|reflexivity].
Qed.

(** ** One cycle *)

(** The state from which a cycle is processed. *)
Record ready (s : sim K) : Prop := {
  rd_extra : extra_particles (s_cont s) = [];
  rd_processed : processed (s_cont s) = [];
  rd_valid : all_valid (processing (s_cont s));
  rd_balance : forall k, bget (u_balance (s_unit s)) k =
     if tallied_event_eq_dec k EStart then N.of_nat (length (processing (s_cont s))) else 0
}.

Lemma cycle_process_story fuel cfuel (md : mcdata K) s s' :
  cycle_process fuel cfuel md s (Ok s') -> ready s ->
  exists dom sourced tracked evs,
    cycle_story (mc_track md) dom (processing (s_cont s)) sourced tracked evs (processed (s_cont s'))
      (u_balance (s_unit s')) /\
    processing (s_cont s') = [] /\ extra_particles (s_cont s') = [] /\
    u_domain (s_unit s') = dom /\ d_mesh dom = d_mesh (u_domain (s_unit s)) /\
    s_results s' = s_results s /\ s_reports s' = s_reports s.
Proof.
  intros H [He Hp Hv Hb]. remember (Ok s') as r0 eqn:Er. destruct H as [u c r Hpop Htr|Hpop|Hpop]; try discriminate.
  rb Er as [u' c'] E. subst r. injection Er; intros; subst; clear Er.
  destruct (population_ok _ _ _ _ Hpop He Hv Hb) as
    (src & V1 & V2 & E2 & P2 & S1 & S2 & S3 & S4 & M & _).
  destruct (rounds_ok _ _ _ _ _ _ Htr E2 _ _ eq_refl) as (evs & kept & Hr & D & W & B & Q1 & Q2 & Q3).
  destruct (rounds_accounted _ _ _ _ _ Hr V2) as (V3 & [A1 A2 A3 A4 A5 A6 A7 A8 A9 A10]).
  exists (u_domain u), src, (processing c), evs. cbn.
  rewrite P2, Hp in Q3. cbn [app] in Q3. rewrite Q3, B.
  split; [|repeat split; auto].
  constructor; rewrite ?bget_badd, ?bget_history; auto; try lia.
  - intros k Hk. rewrite bget_badd, bget_history. rewrite S4; [lia|]. cbn in Hk |- * . tauto.
  - rewrite A2. rewrite S4 by (cbn; tauto). lia.
Qed.

(** The consequences of a story. *)
Lemma story_good td dom start (sourced tracked : list (particle K)) evs kept b :
  cycle_story td dom start sourced tracked evs kept b ->
  good_balance (bset b EEnd (N.of_nat (length kept))) (total is_crossing evs).
Proof.
  intros [S1 S2 S3 S4 (V1 & V2 & V3 & V4) S5 S6].
  destruct (rounds_accounted _ _ _ _ _ S4 V3) as (_ & [A1 A2 A3 A4 A5 A6 A7 A8 A9 A10]).
  constructor; unfold conserved; rewrite ?bget_bset_same, ?(bget_bset_other _ EEnd) by discriminate;
    rewrite ?(S5 EAbsorb), ?(S5 EEscape), ?(S5 ECollision), ?(S5 EFission), ?(S5 EProduce), ?(S5 EScatter), ?(S5 ENumSegments)
      by (cbn; tauto); lia.
Qed.

(** ** Synchronisation *)

Lemma prepare_ready (md : mcdata K) s s' :
  prepare_cycle md s = Ok s' -> extra_particles (s_cont s) = [] ->
  all_valid (processing (s_cont s)) -> all_valid (processed (s_cont s)) ->
  (forall k, k <> EStart -> bget (u_balance (s_unit s)) k = 0) ->
  ready s' /\ processing (s_cont s') = processing (s_cont s) ++ processed (s_cont s) /\
  s_results s' = s_results s /\ s_reports s' = s_reports s /\ d_mesh (u_domain (s_unit s')) = d_mesh (u_domain (s_unit s)).
Proof.
  unfold prepare_cycle. intros H He V1 V2 Hb.
  rb H as w Hw. rb H as n Hn. injection H; intros; subst; clear H.
  cbn [s_cont swap_processing_processed processing processed extra_particles s_results s_reports].
  split; [|auto].
  constructor; cbn [s_cont s_unit u_balance swap_processing_processed processing processed extra_particles]; auto.
  - apply Forall_app; auto.
  - intros k. destruct (tallied_event_eq_dec k EStart) as [->|E].
    + apply bget_bset_same.
    + rewrite bget_bset_other by congruence. apply Hb; exact E.
Qed.

(** The state between two cycles, after [n] cycles. *)
Record settled (md : mcdata K) (m0 : mesh K) (n : N) (s : sim K) : Prop := {
  se_extra : extra_particles (s_cont s) = [];
  se_processing : processing (s_cont s) = [];
  se_mesh : d_mesh (u_domain (s_unit s)) = m0;
  se_valid : all_valid (processed (s_cont s));
  se_first : n = 0 -> u_balance (s_unit s) = balance_zero /\ processed (s_cont s) = [] /\ s_reports s = [];
  se_story : n <> 0 -> exists start dom sourced tracked evs,
     run_story (mc_track md) m0 (map rp_balance (s_reports s)) start /\
     d_mesh dom = m0 /\
     cycle_story (mc_track md) dom start sourced tracked evs (processed (s_cont s)) (u_balance (s_unit s));
  se_reports : List.length (s_reports s) = N.to_nat (n - 1);
  se_numbers : map rp_cycle (s_reports s) = nrange 0 (N.to_nat (n - 1));
  se_sum : rs_balance (s_results s) = bsum (map rp_balance (s_reports s))
}.

Lemma initial_settled (md : mcdata K) d : settled md (d_mesh d) 0 (initial_sim md d).
Proof. constructor; cbn; auto; try constructor; try congruence. Qed.

Lemma nrange_app lo n : nrange lo (S n) = nrange lo n ++ [lo + N.of_nat n].
Proof.
  revert lo. induction n as [|n IH]; intros lo.
  - cbn. f_equal. lia.
  - change (nrange lo (S (S n))) with (lo :: nrange (N.succ lo) (S n)). rewrite IH. cbn [nrange app].
    do 2 f_equal. f_equal. lia.
Qed.

Lemma update_spectrum_parts (md : mcdata K) c rs rs' :
  update_spectrum md c rs = Ok rs' -> rs_balance rs' = rs_balance rs /\ rs_fluence rs' = rs_fluence rs.
Proof.
  unfold update_spectrum. destruct (sp_spectrum (mc_params md)); intros H.
  - rb H as sp Hsp. rb H as sp' Hsp'. injection H; intros; subst. auto.
  - injection H; intros; subst. auto.
Qed.

(** What [finish_cycle] does, for any state. *)
Lemma finish_cycle_parts (md : mcdata K) step s s' :
  finish_cycle md step s = Ok s' ->
  let b := bset (u_balance (s_unit s)) EEnd (N.of_nat (List.length (processed (s_cont s)))) in
  s_cont s' = s_cont s /\
  u_balance (s_unit s') = bset balance_zero EStart (bget b EEnd) /\
  u_domain (s_unit s') = u_domain (s_unit s) /\
  s_reports s' = s_reports s ++ [mkReport (step - 1) b (fsum (m_flux (u_mem (s_unit s))))] /\
  rs_balance (s_results s') = badd (rs_balance (s_results s)) b.
Proof.
  unfold finish_cycle. destruct (ei_policy (mc_exec md)); try discriminate.
  1-2: intros H; rb H as [u rs] Hst; rb H as rs' Hsp; injection H; intros; subst; clear H;
    unfold update_stats in Hst; rb Hst as fl Hfl; injection Hst; intros; subst; clear Hst;
    apply update_spectrum_parts in Hsp as (Hsp & _); cbn in Hsp |- * ; repeat split; auto.
Qed.

(** Setting the end count does not change the rest of the story. *)
Lemma story_end td dom start (sourced tracked : list (particle K)) evs kept b n :
  cycle_story td dom start sourced tracked evs kept b ->
  cycle_story td dom start sourced tracked evs kept (bset b EEnd n).
Proof.
  intros [S1 S2 S3 S4 S5 S6 S7].
  constructor; rewrite ?(bget_bset_other _ EEnd) by discriminate; auto.
  intros k Hk. rewrite bget_bset_other; auto. intros <-. cbn in Hk. intuition discriminate.
Qed.

(** Synchronisation of step [n] from a settled state: the report of the previous cycle is
    produced and the state is ready for the next one. *)
Lemma sync_settled (md : mcdata K) m0 n s s' :
  settled md m0 n s -> cycle_sync md n s = Ok s' ->
  n <> sp_n_steps (mc_params md) + 1 ->
  ready s' /\ processing (s_cont s') = processed (s_cont s) /\
  d_mesh (u_domain (s_unit s')) = m0 /\
  List.length (s_reports s') = N.to_nat n /\
  map rp_cycle (s_reports s') = nrange 0 (N.to_nat n) /\
  run_story (mc_track md) m0 (map rp_balance (s_reports s')) (processed (s_cont s)) /\
  rs_balance (s_results s') = bsum (map rp_balance (s_reports s')).
Proof.
  intros [E1 E2 EM E3 E4 E5 E6 E7 E10] H Hn. unfold cycle_sync in H.
  destruct (N.eqb_spec n 0) as [->|Hn0].
  - destruct (E4 eq_refl) as (B0 & P0 & R0).
    destruct (prepare_ready _ _ _ H E1) as (R & Pr & Rs & Rp & Rm).
    + rewrite E2. constructor.
    + exact E3.
    + intros k _. rewrite B0. destruct k; reflexivity.
    + rewrite E2 in Pr. cbn [app] in Pr. rewrite Rs, Rp, Rm. cbn in E6, E7.
      split; [exact R|]. split; [exact Pr|]. split; [exact EM|]. rewrite R0, P0 in * . cbn. repeat split; auto. constructor.
  - rb H as s1 Hf. destruct (N.eqb_spec n (sp_n_steps (mc_params md) + 1)) as [|_]; [congruence|].
    pose proof (finish_cycle_parts _ _ _ _ Hf) as (F1 & F2 & F3 & F4 & F5).
    destruct (prepare_ready _ _ _ H) as (R & Pr & Rs & Rp & Rm).
    + rewrite F1. exact E1.
    + rewrite F1, E2. constructor.
    + rewrite F1. exact E3.
    + intros k Hk. rewrite F2, bget_bset_other by congruence. apply bget_zero.
    + rewrite F1, E2 in Pr. cbn [app] in Pr. rewrite Rs, Rp, F4, F5, !map_app, app_length.
      cbn [map length rp_cycle rp_balance].
      split; [exact R|]. split; [exact Pr|]. split; [rewrite Rm, F3; exact EM|]. split; [rewrite E6; lia|].
      split.
      { rewrite E7. replace (N.to_nat n) with (S (N.to_nat (n - 1))) by lia.
        rewrite nrange_app. do 2 f_equal. lia. }
      split.
      { destruct (E5 Hn0) as (st & dom & src & trk & evs & S1 & S2 & S3).
        econstructor; [exact S1|exact S2|apply story_end; exact S3|apply bget_bset_same]. }
      rewrite bsum_app, E10, bsum_cons. cbn. rewrite badd_zero_r. reflexivity.
Qed.

Lemma cycle_settled fuel cfuel (md : mcdata K) m0 n s s1 s2 :
  settled md m0 n s -> n <> sp_n_steps (mc_params md) + 1 ->
  cycle_sync md n s = Ok s1 -> cycle_process fuel cfuel md s1 (Ok s2) -> settled md m0 (N.succ n) s2.
Proof.
  intros Hs Hn Hsync Hproc.
  destruct (sync_settled _ _ _ _ _ Hs Hsync Hn) as (R & Pr & M & L & Nb & G & S).
  destruct (cycle_process_story _ _ _ _ _ Hproc R) as
    (dom & src & trk & evs & St & P1 & P2 & P4 & PM & P5 & P6).
  constructor; rewrite ?P5, ?P6; auto; try lia.
  - rewrite P4, PM. exact M.
  - destruct (st_valid _ _ _ _ _ _ _ _ St) as (_ & _ & _ & V). exact V.
  - intros _. rewrite Pr in St. exists (processed (s_cont s)), dom, src, trk, evs.
    split; [exact G|]. split; [rewrite PM, M; reflexivity|exact St].
  - rewrite Nb. f_equal. lia.
Qed.

Lemma run_steps_settled fuel cfuel (md : mcdata K) d n r :
  run_steps fuel cfuel md (initial_sim md d) n r ->
  forall s, r = Ok s -> n <= sp_n_steps (mc_params md) -> settled md (d_mesh d) n s.
Proof.
  induction 1 as [|n s s1 r H IH Hsync Hproc|n s H IH Hsync|n r H IH Hr]; intros s' Er Hn.
  - injection Er; intros; subst. apply initial_settled.
  - subst r. eapply cycle_settled; [apply (IH s eq_refl); lia| |eauto|eauto]. lia.
  - discriminate.
  - subst r. destruct Hr; discriminate.
Qed.

(** ** The whole run *)

Lemma core_loop_story fuel cfuel (md : mcdata K) d s :
  core_loop fuel cfuel md (initial_sim md d) (Ok s) ->
  ready s /\
  run_story (mc_track md) (d_mesh d) (map rp_balance (s_reports s)) (processing (s_cont s)) /\
  List.length (s_reports s) = N.to_nat (sp_n_steps (mc_params md)) /\
  map rp_cycle (s_reports s) = nrange 0 (N.to_nat (sp_n_steps (mc_params md))) /\
  rs_balance (s_results s) = bsum (map rp_balance (s_reports s)).
Proof.
  intros H. remember (Ok s) as r0 eqn:Er. destruct H as [r Hpol Hrun|]; [|discriminate].
  rb Er as s1 E. subst r.
  pose proof (run_steps_settled _ _ _ _ _ _ Hrun _ eq_refl (N.le_refl _)) as Hs.
  destruct (sync_settled _ _ _ _ _ Hs Er ltac:(lia)) as (R & Pr & M & L & Nb & C & S).
  rewrite Pr. auto.
Qed.

(** ** Consequences of a run's story *)

Lemma story_good_balance td dom start (sourced tracked : list (particle K)) evs kept b :
  cycle_story td dom start sourced tracked evs kept b -> bget b EEnd = N.of_nat (length kept) ->
  good_balance b (total is_crossing evs).
Proof.
  intros S E. pose proof (story_good _ _ _ _ _ _ _ _ S) as [G1 G2 G3 G4].
  unfold conserved in * . rewrite ?bget_bset_same, ?(bget_bset_other _ EEnd) in * by discriminate.
  constructor; unfold conserved; congruence.
Qed.

Lemma run_story_good td conn l (kept : list (particle K)) :
  run_story td conn l kept -> Forall (fun b => exists n, good_balance b n) l.
Proof.
  induction 1; [constructor|]. apply Forall_app. split; auto. constructor; [|constructor].
  eexists. eapply story_good_balance; eauto.
Qed.

Lemma chained_extend st l b : chained st l ->
  bget b EStart = bget (last l (bset balance_zero EEnd st)) EEnd -> chained st (l ++ [b]).
Proof.
  revert st. induction l as [|x l IH]; intros st; cbn [app chained].
  - cbn [last]. rewrite bget_bset_same. auto.
  - intros (H & H') E. split; auto. apply IH; auto. rewrite E. destruct l as [|y l]; [cbn [last]; rewrite bget_bset_same; reflexivity|].
    cbn [last] in E. f_equal. change (last (x :: y :: l) (bset balance_zero EEnd st)) with (last (y :: l) (bset balance_zero EEnd st)).
    clear. revert y. induction l as [|z l IH]; intros y; [reflexivity|]. apply (IH z).
Qed.

Lemma run_story_chained td conn l (kept : list (particle K)) :
  run_story td conn l kept -> chained 0 l /\ bget (last l balance_zero) EEnd = N.of_nat (length kept).
Proof.
  induction 1 as [|l start dom src trk evs kept b H (IH1 & IH2) HM HS HE]; [split; [exact I|reflexivity]|].
  split.
  - apply chained_extend; auto. rewrite (st_start _ _ _ _ _ _ _ _ HS).
    destruct l; cbn [last] in * ; rewrite ?bget_bset_same; auto.
  - rewrite last_last. exact HE.
Qed.

Lemma conserved_zero : conserved balance_zero.
Proof. reflexivity. Qed.
Lemma conserved_badd a b : conserved a -> conserved b -> conserved (badd a b).
Proof. unfold conserved. rewrite !bget_badd. lia. Qed.
Lemma conserved_bsum l : Forall conserved l -> conserved (bsum l).
Proof.
  induction 1 as [|b l Hb Hl IH]; [apply conserved_zero|]. rewrite bsum_cons. apply conserved_badd; auto.
Qed.

End CycleAccount.
