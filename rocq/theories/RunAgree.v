(** Two runs of the same problem agree, whatever the policy, the threads and the chunks. *)
From Coq Require Import NArith PeanoNat List Bool Lia Permutation.
From Verif Require Import Float RngModel RngLemmas ParticleModel NuclearModel MeshTypes Balance TrackModel CycleModel
  ProgLemmas TrackSpec CycleSpec TrackAccount CycleAccount CycleFacts ScheduleSpec ScheduleLemmas ScheduleFacts
  RangeSpec RangeFacts.
Import ListNotations.
Local Open Scope N_scope.
Local Open Scope float_scope.
Local Opaque rng_next spawn_rn_seed.

Section Agree.
Context {K : FloatOps}.
Local Notation track_result := (@ScheduleSpec.track_result K).

(** ** Outcomes that agree *)

Lemma agree_bind {A B A' B'} (R : A -> B -> Prop) (S : A' -> B' -> Prop) ra rb (f : A -> result A') (g : B -> result B') :
  agree R ra rb -> (forall a b, R a b -> agree S (f a) (g b)) -> agree S (rbind ra f) (rbind rb g).
Proof. intros H Hf. destruct ra, rb; cbn in * ; try tauto. apply Hf; exact H. Qed.

Lemma agree_refl {A} (R : A -> A -> Prop) r : (forall a, R a a) -> agree R r r.
Proof. intros H. destruct r; cbn; auto. Qed.

(** ** Permutations *)

Lemma rmap_perm {A B} (f : A -> result B) l1 l2 : Permutation l1 l2 ->
  agree (@Permutation B) (rmap f l1) (rmap f l2).
Proof.
  induction 1 as [|x l1 l2 _ IH|x y l|l1 l2 l3 _ IH1 _ IH2]; cbn [rmap].
  - constructor.
  - destruct (f x); cbn [rbind]; try exact I.
    destruct (rmap f l1), (rmap f l2); cbn in * ; try tauto. constructor. exact IH.
  - destruct (f y), (f x); cbn [rbind]; try exact I; destruct (rmap f l); cbn; try exact I. apply perm_swap.
  - destruct (rmap f l1), (rmap f l2), (rmap f l3); cbn in * ; try tauto. eapply Permutation_trans; eauto.
Qed.

Lemma retain_mut_perm (f : particle K -> bool * particle K) l1 l2 : Permutation l1 l2 ->
  Permutation (retain_mut f l1) (retain_mut f l2).
Proof.
  induction 1 as [|x l1 l2 _ IH|x y l|l1 l2 l3 _ IH1 _ IH2]; cbn [retain_mut].
  - constructor.
  - destruct (f x) as [[|] q]; auto.
  - destruct (f x) as [[|] q], (f y) as [[|] q']; auto. apply perm_swap.
  - eapply Permutation_trans; eauto.
Qed.

Definition perm2 (a b : list (particle K) * list (particle K)) : Prop :=
  Permutation (fst a) (fst b) /\ Permutation (snd a) (snd b).

Lemma split_all_perm f (l1 l2 : list (particle K)) : Permutation l1 l2 ->
  agree perm2 (split_all f l1) (split_all f l2).
Proof.
  induction 1 as [|x l1 l2 _ IH|x y l|l1 l2 l3 _ IH1 _ IH2]; cbn [split_all].
  - split; constructor.
  - destruct (under_populated_split x f) as [[q cs]| |]; cbn [rbind]; try exact I.
    destruct (split_all f l1) as [[a1 b1]| |], (split_all f l2) as [[a2 b2]| |]; cbn in * ; try tauto.
    destruct IH as (I1 & I2). cbn [fst snd] in * . split; cbn [fst snd]; [constructor; auto|apply Permutation_app_head; auto].
  - destruct (under_populated_split x f) as [[q cs]| |], (under_populated_split y f) as [[q' cs']| |]; cbn [rbind]; try exact I;
      destruct (split_all f l) as [[a b]| |]; cbn; try exact I.
    split; cbn [fst snd]; [apply perm_swap|]. rewrite !app_assoc. apply Permutation_app_tail. apply Permutation_app_comm.
  - destruct (split_all f l1) as [[a1 b1]| |], (split_all f l2) as [[a2 b2]| |], (split_all f l3) as [[a3 b3]| |];
      cbn in * ; try tauto. destruct IH1, IH2. split; eapply Permutation_trans; eauto.
Qed.

Lemma rfold_perm {A S} (f : S -> A -> result S) :
  (forall s a b, (do t <- f s a ; f t b) = (do t <- f s b ; f t a)) ->
  forall l1 l2, Permutation l1 l2 -> forall s, rfold f l1 s = rfold f l2 s.
Proof.
  intros Hc. induction 1 as [|x l1 l2 _ IH|x y l|l1 l2 l3 _ IH1 _ IH2]; intros s; cbn [rfold].
  - reflexivity.
  - destruct (f s x); cbn [rbind]; auto.
  - specialize (Hc s x y). destruct (f s x) as [t1| |], (f s y) as [t2| |]; cbn [rbind] in * ;
      try (rewrite <- Hc; reflexivity); try (rewrite Hc; reflexivity); try reflexivity; try discriminate.
  - congruence.
Qed.

Lemma list_set_swap {A} (l : list A) i j x y : i <> j -> list_set (list_set l i x) j y = list_set (list_set l j y) i x.
Proof.
  revert i j. induction l as [|a l IH]; intros i j H; [destruct i, j; reflexivity|].
  destruct i, j; cbn [list_set]; try congruence. f_equal. apply IH. congruence.
Qed.

Lemma spectrum_add_swap sp (p q : particle K) :
  (do t <- spectrum_add sp p ; spectrum_add t q) = (do t <- spectrum_add sp q ; spectrum_add t p).
Proof.
  unfold spectrum_add, vec_get.
  destruct (N.eq_dec (p_energy_group p) (p_energy_group q)) as [E|E]; [rewrite E; reflexivity|].
  assert (E1 : N.to_nat (p_energy_group p) <> N.to_nat (p_energy_group q)) by lia.
  destruct (nth_error sp (N.to_nat (p_energy_group p))) as [x|] eqn:Ex,
           (nth_error sp (N.to_nat (p_energy_group q))) as [y|] eqn:Ey; cbn [unwrap rbind]; try reflexivity.
  - rewrite nth_error_list_set_other by exact E1. rewrite Ey.
    rewrite nth_error_list_set_other by (intro; apply E1; auto). rewrite Ex. cbn [unwrap rbind].
    rewrite list_set_swap by exact E1. reflexivity.
  - rewrite nth_error_list_set_other by exact E1. rewrite Ey. reflexivity.
  - rewrite nth_error_list_set_other by (intro; apply E1; auto). rewrite Ex. reflexivity.
Qed.

Lemma bsum_perm l1 l2 : Permutation l1 l2 -> bsum l1 = bsum l2.
Proof.
  induction 1; rewrite ?bsum_cons; try congruence.
  rewrite !badd_assoc. f_equal. apply badd_comm.
Qed.

Lemma concat_perm {A} (l1 l2 : list (list A)) : Permutation l1 l2 -> Permutation (concat l1) (concat l2).
Proof.
  induction 1; cbn [concat]; auto.
  - apply Permutation_app_head. exact IHPermutation.
  - rewrite !app_assoc. apply Permutation_app_tail. apply Permutation_app_comm.
  - eapply Permutation_trans; eauto.
Qed.

Lemma filter_perm {A} (f : A -> bool) l1 l2 : Permutation l1 l2 -> Permutation (filter f l1) (filter f l2).
Proof.
  induction 1; cbn [filter]; auto.
  - destruct (f x); auto.
  - destruct (f x), (f y); auto. apply perm_swap.
  - eapply Permutation_trans; eauto.
Qed.

Lemma is_nil_perm {A} (l1 l2 : list A) : Permutation l1 l2 -> is_nil l1 = is_nil l2.
Proof. intros H. apply Permutation_length in H. destruct l1, l2; cbn in * ; congruence. Qed.

(** ** The same problem *)

Variables (md1 md2 : mcdata K) (ok : F K -> Prop).
Hypothesis Hsame : same_problem md1 md2.
Hypothesis Hsafe : safe_energies md1 ok.
Hypothesis Hrun1 : run_ok md1.
Hypothesis Hrun2 : run_ok md2.
Hypothesis zero_not_positive : f0 <. (f0 : F K) = false.

Lemma safe2 : safe_energies md2 ok.
Proof.
  destruct Hsame as (E1 & E2 & E3 & E4). destruct Hsafe as [A B C D]. unfold last_energy, energies in D.
  rewrite E1 in A. rewrite E2 in B, D. constructor; assumption.
Qed.
Lemma sound2 dom : sound_problem md1 dom -> sound_problem md2 dom.
Proof.
  destruct Hsame as (E1 & E2 & E3 & E4). intros [A B C]. unfold energies in B. rewrite E1, ?E2 in * . constructor; assumption.
Qed.

(** Two states of a unit and its container that differ by the order of the particles and by the
    contents of the arrays only. *)
Record uc_rel (x1 x2 : unit_state K * container K) : Prop := {
  uc_domain : u_domain (fst x1) = u_domain (fst x2);
  uc_balance : u_balance (fst x1) = u_balance (fst x2);
  uc_weight : u_weight (fst x1) = u_weight (fst x2);
  uc_processing : Permutation (processing (snd x1)) (processing (snd x2));
  uc_processed : Permutation (processed (snd x1)) (processed (snd x2));
  uc_extra : Permutation (extra_particles (snd x1)) (extra_particles (snd x2));
  uc_sound : sound_problem md1 (u_domain (fst x1));
  uc_placed : Forall (placed ok (u_domain (fst x1)))
                (processing (snd x1) ++ processed (snd x1) ++ extra_particles (snd x1));
  uc_mem1 : sound_mem (mc_track md1) (u_domain (fst x1)) (sp_n_groups (mc_params md1)) (u_mem (fst x1));
  uc_mem2 : sound_mem (mc_track md1) (u_domain (fst x1)) (sp_n_groups (mc_params md1)) (u_mem (fst x2))
}.

(** ** Tracking *)

Lemma process_rel fuel cf u1 c1 u2 c2 r1 r2 :
  uc_rel (u1, c1) (u2, c2) ->
  process_particles fuel cf md1 u1 (sort_processing c1) r1 ->
  process_particles fuel cf md2 u2 (sort_processing c2) r2 ->
  agree (fun x y => uc_rel (fst x, clean_extra_vaults (snd x)) (fst y, clean_extra_vaults (snd y))) r1 r2.
Proof.
  intros [D B W P1 P2 P3 S PL M1 M2] H1 H2. cbn [fst snd] in * .
  pose proof Hsame as (E1 & E2 & E3 & E4).
  apply Forall_app in PL as (PL1 & PL). apply Forall_app in PL as (PL2 & PL3).
  assert (Q1 : Permutation (processing c1) (sort_particles (processing c1))) by apply sort_particles_perm.
  assert (Q2 : Permutation (processing c2) (sort_particles (processing c2))) by apply sort_particles_perm.
  assert (PLs1 : Forall (placed ok (u_domain u1)) (sort_particles (processing c1))) by (eapply Permutation_Forall; eauto).
  assert (PLs2 : Forall (placed ok (u_domain u1)) (sort_particles (processing c2))).
  { eapply Permutation_Forall; [exact Q2|]. eapply Permutation_Forall; eauto. }
  pose proof (process_as zero_not_positive fuel cf md1 u1 (sort_processing c1) r1 M1) as G1.
  assert (R1 : Forall (stays_in_range (mc_track md1) (u_domain u1) (sp_n_groups (mc_params md1))) (processing (sort_processing c1))).
  { eapply Forall_impl; [|exact PLs1]. intros p Hp. exact (placed_stays ok md1 Hsafe (u_domain u1) S p Hp). }
  specialize (G1 R1 Hrun1 H1).
  assert (M2' : sound_mem (mc_track md2) (u_domain u2) (sp_n_groups (mc_params md2)) (u_mem u2))
    by (rewrite <- E1, <- E2, <- D; exact M2).
  pose proof (process_as zero_not_positive fuel cf md2 u2 (sort_processing c2) r2 M2') as G2.
  assert (R2 : Forall (stays_in_range (mc_track md2) (u_domain u2) (sp_n_groups (mc_params md2))) (processing (sort_processing c2))).
  { eapply Forall_impl; [|exact PLs2]. intros p Hp. rewrite <- E1, <- E2, <- D. exact (placed_stays ok md1 Hsafe (u_domain u1) S p Hp). }
  specialize (G2 R2 Hrun2 H2). rewrite <- E2, <- D in G2. cbn [sort_processing processing] in G1, G2.
  assert (Q : Permutation (sort_particles (processing c1)) (sort_particles (processing c2))).
  { eapply Permutation_trans; [apply Permutation_sym; exact Q1|]. exact (Permutation_trans P1 Q2). }
  pose proof (rmap_perm (solo fuel cf (mc_track md1) (u_domain u1)) _ _ Q) as G.
  destruct (rmap (solo fuel cf (mc_track md1) (u_domain u1)) (sort_particles (processing c1))) as [rs1| |] eqn:F1;
    destruct (rmap (solo fuel cf (mc_track md1) (u_domain u1)) (sort_particles (processing c2))) as [rs2| |] eqn:F2;
    cbn [agree] in G; try tauto;
    try (destruct G1 as [->| ->], G2 as [->| ->]; exact I).
  destruct G1 as (u1' & c1' & -> & [A1 A2 A3 A4 A5 A6 A7 A8]), G2 as (u2' & c2' & -> & [B1 B2 B3 B4 B5 B6 B7 B8]).
  cbn [agree fst snd sort_processing processing processed extra_particles] in * .
  destruct (solos_fine ok md1 Hsafe (u_domain u1) S fuel cf _ rs1 PLs1 F1) as (V1 & V2).
  assert (Qf : Permutation (filter is_valid (finals rs1)) (filter is_valid (finals rs2)))
    by (apply filter_perm, Permutation_map; exact G).
  assert (Qc : Permutation (created rs1) (created rs2)) by (apply concat_perm, Permutation_map; exact G).
  assert (Qe : Permutation (extra_particles c1') (extra_particles c2')).
  { eapply Permutation_trans; [exact A6|]. eapply Permutation_trans; [|apply Permutation_sym; exact B6].
    apply Permutation_app; assumption. }
  constructor; cbn [fst snd clean_extra_vaults processing processed extra_particles].
  - congruence.
  - rewrite A3, B3, B. f_equal. apply bsum_perm, Permutation_map. exact G.
  - congruence.
  - rewrite A4, B4. exact Qe.
  - rewrite A5, B5. apply Permutation_app; assumption.
  - constructor.
  - rewrite A1. exact S.
  - rewrite A1, A4, A5, app_nil_r. cbn [app]. apply Forall_app. split.
    + eapply Permutation_Forall; [apply Permutation_sym; exact A6|]. apply Forall_app. auto.
    + apply Forall_app. split; [exact PL2|]. apply Forall_forall. intros p Hp. apply filter_In in Hp as (Hp & _).
      rewrite Forall_forall in V1. auto.
  - rewrite A1. exact A7.
  - rewrite A1, D. rewrite E1, E2. exact B7.
Qed.

Lemma rounds_rel fuel cf u1 c1 r1 : tracking_rounds fuel cf md1 u1 c1 r1 ->
  forall u2 c2 r2, uc_rel (u1, c1) (u2, c2) -> tracking_rounds fuel cf md2 u2 c2 r2 -> agree uc_rel r1 r2.
Proof.
  assert (Hd : forall u1 c1 u2 c2, uc_rel (u1, c1) (u2, c2) -> is_done_processing c1 = is_done_processing c2).
  { intros u1' c1' u2 c2 [D B W P1 P2 P3 S PL M1 M2]. unfold is_done_processing. cbn [snd] in * .
    rewrite (is_nil_perm _ _ P1), (is_nil_perm _ _ P3). reflexivity. }
  induction 1 as [u1 c1 D1|u1 c1 u1' c1' r1 D1 Hp1 Ht1 IH|u1 c1 D1 Hp1|u1 c1 D1 Hp1]; intros u2 c2 r2 HR H2;
    pose proof (Hd _ _ _ _ HR) as Ed; rewrite D1 in Ed;
    inversion H2 as [u c D2|u c u2' c2' r D2 Hp2 Ht2|u c D2 Hp2|u c D2 Hp2]; subst; try congruence;
    try (exact HR); try (exact (process_rel _ _ _ _ _ _ _ _ HR Hp1 Hp2)); try exact I.
  - pose proof (process_rel _ _ _ _ _ _ _ _ HR Hp1 Hp2) as G. cbn [agree fst snd] in G. eapply IH; eauto.
  - pose proof (process_rel _ _ _ _ _ _ _ _ HR Hp1 Hp2) as G. destruct G.
  - pose proof (process_rel _ _ _ _ _ _ _ _ HR Hp1 Hp2) as G. destruct G.
  - pose proof (process_rel _ _ _ _ _ _ _ _ HR Hp1 Hp2) as G. destruct G.
  - pose proof (process_rel _ _ _ _ _ _ _ _ HR Hp1 Hp2) as G. destruct G.
Qed.

(** ** Source and population control *)

Lemma generate_ce (p : particle K) m cell vol co p' :
  generate_coordinate_3dg p m cell vol = Ok (co, p') -> ce p' = ce p.
Proof.
  unfold generate_coordinate_3dg. intros H. rb H as center Hc.
  pose proof (draw_ce p) as D1. destruct (draw p) as [r p1]. cbn [snd] in D1.
  rb H as points Hpt.
  pose proof (draw_ce p1) as D2. destruct (draw p1) as [r1 p2]. cbn [snd] in D2.
  pose proof (draw_ce p2) as D3. destruct (draw p2) as [r2 p3]. cbn [snd] in D3.
  pose proof (draw_ce p3) as D4. destruct (draw p3) as [r3 p4]. cbn [snd] in D4.
  destruct (fold_barycentric r1 r2 r3) as [[[x1 x2] x3] x4]. destruct points as [[q0 q1] q2].
  injection H; intros; subst. congruence.
Qed.

Lemma source_particle_placed w dom cell vol seed (p : particle K) :
  cell < n_cells dom -> source_particle md1 w dom cell vol seed = Ok p -> placed ok dom p.
Proof.
  intros Hc. unfold source_particle. destruct (spawn_rn_seed seed) as [s seed']. intros H.
  rb H as [co p1] Hg. cbv zeta in H.
  match type of H with context [sample_isotropic ?q] =>
    pose proof (ce_inv _ _ _ (sample_isotropic_ce q)) as (Q1 & Q2); set (q1 := sample_isotropic q) in * end.
  clearbody q1. cbn in Q1.
  unfold draw in H. cbv zeta in H. injection H as <-.
  split; cbn.
  - rewrite Q1. exact Hc.
  - apply (se_source _ _ Hsafe). apply rng_next_lt.
Qed.

Lemma source_cells_placed w rates dom : forall cells idx cells' n ps,
  idx + N.of_nat (length cells) <= n_cells dom ->
  source_cells md1 w rates dom idx cells = Ok (cells', n, ps) -> Forall (placed ok dom) ps.
Proof.
  induction cells as [|cs cells IH]; intros idx cells' n ps Hi H; cbn [source_cells] in H.
  - injection H; intros; subst. constructor.
  - rb H as n0 Hn0. rb H as ps0 Hps0. rb H as [[cells1 n1] ps1] Hrec.
    injection H; intros; subst; clear H. cbn [length] in Hi. apply Forall_app. split.
    + apply rmap_ok in Hps0 as (_ & F2). clear - F2 Hi Hsafe. induction F2; constructor; auto.
      eapply source_particle_placed; [|exact H]. lia.
    + eapply IH; [|exact Hrec]. lia.
Qed.

Lemma placed_cells (d1 d2 : domain K) p : n_cells d1 = n_cells d2 -> placed ok d1 p -> placed ok d2 p.
Proof. unfold placed. intros ->. auto. Qed.

Lemma low_weight_ce (p : particle K) c w : ce (snd (low_weight_rr p c w)) = ce p.
Proof.
  unfold low_weight_rr, draw. destruct (fle (p_weight p) _); [|reflexivity].
  cbv zeta. destruct (fle (fsample _) c); reflexivity.
Qed.
Lemma over_populated_ce (p : particle K) f : ce (snd (over_populated_rr p f)) = ce p.
Proof. unfold over_populated_rr, draw. destruct (flt f _); reflexivity. Qed.
Lemma regulate_one_ce f c w (p : particle K) : ce (snd (regulate_one f c w p)) = ce p.
Proof.
  unfold regulate_one. pose proof (over_populated_ce p f) as H1. destruct (over_populated_rr p f) as [o p1].
  pose proof (low_weight_ce p1 c w) as H2. destruct (low_weight_rr p1 c w) as [t p2]. cbn [snd] in * . congruence.
Qed.
Lemma split_copies_ce n : forall (p : particle K),
  ce (snd (split_copies n p)) = ce p /\ Forall (fun q => ce q = ce p) (fst (split_copies n p)).
Proof.
  induction n as [|n IH]; intros p; cbn [split_copies]; [split; [reflexivity|constructor]|].
  pose proof (spawn_ce p) as Hs. destruct (spawn p) as [s p1]. cbn [snd] in Hs.
  specialize (IH p1). cbv zeta. destruct (split_copies n p1) as [l p2]. cbn [fst snd] in * .
  destruct IH as (I1 & I2). split; [congruence|]. constructor; [reflexivity|].
  eapply Forall_impl; [|exact I2]. cbn. intros. congruence.
Qed.
Lemma under_populated_ce (p : particle K) f p' l : under_populated_split p f = Ok (p', l) ->
  ce p' = ce p /\ Forall (fun q => ce q = ce p) l.
Proof.
  unfold under_populated_split. pose proof (draw_ce p) as H1. destruct (draw p) as [r p1]. cbn [snd] in H1.
  cbv zeta. intros H. rb H as n Hn.
  match type of H with context [split_copies ?m ?q] =>
    pose proof (split_copies_ce m q) as (S1 & S2); destruct (split_copies m q) as [l0 p2] end.
  cbn [fst snd] in * . injection H; intros; subst.
  assert (E : ce (set_weight p1 (p_weight p1 /. f)) = ce p) by (rewrite <- H1; reflexivity).
  rewrite E in S1, S2. auto.
Qed.

Lemma ce_placed dom (p q : particle K) : ce q = ce p -> placed ok dom p -> placed ok dom q.
Proof. intros H (A & B). destruct (ce_inv _ _ _ H) as (C & D). split; [rewrite C; exact A|rewrite D; exact B]. Qed.

Lemma retain_mut_placed dom (f : particle K -> bool * particle K) l : (forall p, ce (snd (f p)) = ce p) ->
  Forall (placed ok dom) l -> Forall (placed ok dom) (retain_mut f l).
Proof.
  intros Hf. induction 1 as [|p l Hp Hl IH]; cbn [retain_mut]; [constructor|].
  specialize (Hf p). destruct (f p) as [keep p']. cbn [snd] in Hf. destruct keep; auto.
  constructor; auto. eapply ce_placed; eauto.
Qed.
Lemma split_all_placed dom f (l : list (particle K)) : forall ps cs, Forall (placed ok dom) l ->
  split_all f l = Ok (ps, cs) -> Forall (placed ok dom) ps /\ Forall (placed ok dom) cs.
Proof.
  induction l as [|p l IH]; intros ps cs Hl H; cbn [split_all] in H.
  - injection H; intros; subst. split; constructor.
  - inversion Hl; subst. rb H as [p1 c1] H1. rb H as [ps1 r1] H5. injection H; intros; subst; clear H.
    destruct (IH _ _ H3 H5) as (I1 & I2). apply under_populated_ce in H1 as (S1 & S2).
    split; [constructor; [exact (ce_placed _ _ _ S1 H2)|exact I1]|]. apply Forall_app. split; [|exact I2].
    eapply Forall_impl; [|exact S2]. intros q Hq. exact (ce_placed _ _ _ Hq H2).
Qed.

(** Two states between the phases of a cycle. *)
Record s_rel (s1 s2 : sim K) : Prop := {
  sr_same : same_state s1 s2;
  sr_sound : sound_problem md1 (u_domain (s_unit s1));
  sr_placed : Forall (placed ok (u_domain (s_unit s1)))
    (processing (s_cont s1) ++ processed (s_cont s1) ++ extra_particles (s_cont s1));
  sr_c1 : N.of_nat (length (m_cache (u_mem (s_unit s1)))) = n_cells (u_domain (s_unit s1)) * sp_n_groups (mc_params md1);
  sr_x1 : N.of_nat (length (m_flux (u_mem (s_unit s1)))) = n_cells (u_domain (s_unit s1)) * sp_n_groups (mc_params md1);
  sr_c2 : N.of_nat (length (m_cache (u_mem (s_unit s2)))) = n_cells (u_domain (s_unit s1)) * sp_n_groups (mc_params md1);
  sr_x2 : N.of_nat (length (m_flux (u_mem (s_unit s2)))) = n_cells (u_domain (s_unit s1)) * sp_n_groups (mc_params md1);
  sr_fluence : rs_fluence (s_results s1) = []
}.
Definition zeros (l : list (F K)) : Prop := Forall (fun v => v = f0) l.
Definition p_rel (s1 s2 : sim K) : Prop :=
  s_rel s1 s2 /\ zeros (m_cache (u_mem (s_unit s1))) /\ zeros (m_cache (u_mem (s_unit s2))).

Lemma zeros_map (l : list (F K)) : zeros (map (fun _ => f0) l).
Proof. apply Forall_forall. intros x Hx. apply in_map_iff in Hx as (y & <- & _). reflexivity. Qed.

Lemma zeros_sound td dom ng (m : mem K) : zeros (m_cache m) ->
  N.of_nat (length (m_cache m)) = n_cells dom * ng -> N.of_nat (length (m_flux m)) = n_cells dom * ng ->
  sound_mem td dom ng m.
Proof.
  intros Hz H1 H2. constructor; auto. intros c g v _ Hv. left.
  unfold zeros in Hz. rewrite Forall_forall in Hz. apply Hz. eapply nth_error_In; eauto.
Qed.

Lemma source_rates_same : source_rates md1 = source_rates md2.
Proof. destruct Hsame as (E1 & E2 & E3 & E4). unfold source_rates. rewrite E2, E3. reflexivity. Qed.
Lemma unit_weight_same d : unit_weight md1 d = unit_weight md2 d.
Proof. unfold unit_weight. rewrite source_rates_same. destruct Hsame as (E1 & E2 & E3 & E4). rewrite E2. reflexivity. Qed.
Lemma source_particle_same w dom i v s : source_particle md1 w dom i v s = source_particle md2 w dom i v s.
Proof. destruct Hsame as (E1 & E2 & E3 & E4). unfold source_particle. rewrite E1, E2. reflexivity. Qed.
Lemma rmap_ext {A B} (f g : A -> result B) l : (forall x, f x = g x) -> rmap f l = rmap g l.
Proof. intros H. induction l; cbn [rmap]; [reflexivity|]. rewrite H, IHl. reflexivity. Qed.
Lemma source_cells_same w rates dom : forall cells i,
  source_cells md1 w rates dom i cells = source_cells md2 w rates dom i cells.
Proof.
  pose proof Hsame as (E1 & E2 & E3 & E4).
  induction cells as [|cs cells IH]; intros i; cbn [source_cells]; [reflexivity|].
  unfold cell_n_particles. rewrite E2. destruct (do rate <- vec_get rates (cs_material cs); _) as [n| |]; cbn [rbind]; try reflexivity.
  rewrite (rmap_ext _ _ _ (source_particle_same w dom i (cs_volume cs))).
  destruct (rmap _ _); cbn [rbind]; try reflexivity. rewrite IH. reflexivity.
Qed.

Lemma population_rel s1 s2 : p_rel s1 s2 -> agree uc_rel (population_phase md1 s1) (population_phase md2 s2).
Proof.
  intros ([[D B W P1 P2 P3 (R1 & R2 & R3) (SW & SN) RP] S PL C1 X1 C2 X2 FL] & Z1 & Z2).
  pose proof Hsame as (E1 & E2 & E3 & E4).
  unfold population_phase. cbv zeta. unfold source_now. rewrite <- source_rates_same, <- D, <- SW, <- SN, <- E1, <- E4, <- B, <- W.
  destruct (source_rates md1) as [rates| |]; cbn [rbind agree]; try exact I.
  rewrite <- source_cells_same.
  destruct (source_cells md1 (s_source_weight s1) rates (u_domain (s_unit s1)) 0 (d_cells (u_domain (s_unit s1))))
    as [[[cells n] ps]| |] eqn:Es; cbn [rbind agree]; try exact I.
  assert (Hps : Forall (placed ok (u_domain (s_unit s1))) ps).
  { eapply source_cells_placed; [|exact Es]. unfold n_cells. lia. }
  destruct (source_cells_ok _ _ _ _ _ _ _ _ _ Es) as (_ & _ & Hlen).
  set (dom := u_domain (s_unit s1)) in * . set (dom' := set_cells dom cells).
  assert (Hn : n_cells dom = n_cells dom') by (unfold n_cells; cbn; rewrite Hlen; reflexivity).
  assert (S' : sound_problem md1 dom').
  { destruct S as [S1 S2 S3]. constructor; auto. intros conn fa c Hc Hf He Hl. rewrite <- Hn. eapply S3; eauto. }
  assert (Hpl : forall l, Forall (placed ok dom) l -> Forall (placed ok dom') l).
  { intros l Hl. eapply Forall_impl; [|exact Hl]. intros p. apply placed_cells. exact Hn. }
  apply Forall_app in PL as (PL1 & PL). apply Forall_app in PL as (PL2 & PL3).
  apply Hpl in PL1, PL2, PL3, Hps.
  assert (M1 : sound_mem (mc_track md1) dom' (sp_n_groups (mc_params md1)) (u_mem (s_unit s1)))
    by (apply zeros_sound; auto; rewrite <- Hn; auto).
  assert (M2 : sound_mem (mc_track md1) dom' (sp_n_groups (mc_params md1)) (u_mem (s_unit s2)))
    by (apply zeros_sound; auto; rewrite <- Hn; auto).
  assert (Q : Permutation (processing (s_cont s1) ++ ps) (processing (s_cont s2) ++ ps)) by (apply Permutation_app_tail; exact P1).
  assert (PQ : Forall (placed ok dom') (processing (s_cont s1) ++ ps)) by (apply Forall_app; auto).
  cbn [processing]. rewrite <- (Permutation_length Q).
  destruct (compute_split_factor _ _ _ _ _) as [f| |]; cbn [rbind agree]; try exact I.
  destruct (f <. f1); [|destruct (f1 <. f)].
  - unfold regulate_population. cbv zeta. cbn [agree processing processed extra_particles u_domain u_balance u_mem u_weight].
    pose proof (retain_mut_perm (regulate_one f (sp_low_weight_cutoff (mc_params md1)) (s_source_weight s1)) _ _ Q) as QR.
    constructor; cbn [fst snd u_domain u_balance u_mem u_weight processing processed extra_particles]; auto.
    + rewrite (Permutation_length Q), (Permutation_length QR). reflexivity.
    + apply Forall_app. split; [|apply Forall_app; auto].
      apply retain_mut_placed; auto. apply regulate_one_ce.
  - unfold split_population. cbv zeta. cbn [processing processed extra_particles u_balance].
    pose proof (split_all_perm f _ _ Q) as QS.
    destruct (split_all f (processing (s_cont s1) ++ ps)) as [[a1 b1]| |] eqn:F1;
      destruct (split_all f (processing (s_cont s2) ++ ps)) as [[a2 b2]| |]; cbn [agree rbind] in QS |- * ; try tauto.
    destruct QS as (QA & QB). cbn [fst snd] in QA, QB.
    destruct (split_all_placed _ _ _ _ _ PQ F1) as (HA & HB).
    cbn [clean_extra_vaults processing processed extra_particles].
    assert (QC : Permutation (a1 ++ extra_particles (s_cont s1) ++ b1) (a2 ++ extra_particles (s_cont s2) ++ b2))
      by (repeat apply Permutation_app; assumption).
    pose proof (retain_mut_perm (fun p => low_weight_rr p (sp_low_weight_cutoff (mc_params md1)) (s_source_weight s1)) _ _ QC) as QR.
    constructor; cbn [fst snd u_domain u_balance u_mem u_weight processing processed extra_particles]; auto.
    + rewrite (Permutation_length QC), (Permutation_length QR), (Permutation_length Q). reflexivity.
    + rewrite app_nil_r. apply Forall_app. split; [|exact PL2].
      apply retain_mut_placed; [intros; apply low_weight_ce|]. repeat (apply Forall_app; split); assumption.
  - constructor; cbn [fst snd u_domain u_balance u_mem u_weight processing processed extra_particles]; auto.
    apply Forall_app. split; [exact PQ|apply Forall_app; auto].
Qed.

(** ** Whole cycles *)

Lemma uc_s_rel s1 s2 x1 x2 : s_rel s1 s2 -> uc_rel x1 x2 ->
  s_rel (mkSim (fst x1) (snd x1) (s_results s1) (s_source_weight s1) (s_global_n s1) (s_reports s1))
        (mkSim (fst x2) (snd x2) (s_results s2) (s_source_weight s2) (s_global_n s2) (s_reports s2)).
Proof.
  intros [[D B W P1 P2 P3 R SW RP] S PL C1 X1 C2 X2 FL] [D' B' W' P1' P2' P3' S' PL' [M11 M12 M13] [M21 M22 M23]].
  constructor; cbn; auto. constructor; cbn; auto.
Qed.

Lemma cycle_process_rel fuel cf s1 s2 r1 r2 : p_rel s1 s2 ->
  cycle_process fuel cf md1 s1 r1 -> cycle_process fuel cf md2 s2 r2 -> agree s_rel r1 r2.
Proof.
  intros HR H1 H2. pose proof (population_rel _ _ HR) as G.
  inversion H1 as [u1 c1 q1 E1 T1|E1|E1]; inversion H2 as [u2 c2 q2 E2 T2|E2|E2]; subst;
    rewrite E1, E2 in G; cbn [agree] in G; try tauto; try exact I.
  eapply agree_bind; [exact (rounds_rel _ _ _ _ _ T1 _ _ _ G T2)|].
  intros [u c] [u' c'] Huc. cbn [agree]. exact (uc_s_rel s1 s2 (u, c) (u', c') (proj1 HR) Huc).
Qed.

Lemma prepare_rel s1 s2 : s_rel s1 s2 -> agree p_rel (prepare_cycle md1 s1) (prepare_cycle md2 s2).
Proof.
  intros [[D B W P1 P2 P3 (R1 & R2 & R3) (SW & SN) RP] S PL C1 X1 C2 X2 FL].
  pose proof Hsame as (E1 & E2 & E3 & E4).
  unfold prepare_cycle. cbv zeta. rewrite <- unit_weight_same, <- D, <- B, <- E1.
  destruct (unit_weight md1 _) as [w| |]; cbn [rbind agree]; try exact I.
  destruct (unwrap _) as [sp| |]; cbn [rbind agree]; try exact I.
  assert (Q : Permutation (processing (s_cont s1) ++ processed (s_cont s1)) (processing (s_cont s2) ++ processed (s_cont s2)))
    by (apply Permutation_app; assumption).
  cbn [swap_processing_processed processing]. rewrite <- (Permutation_length Q).
  split; [|split; apply zeros_map].
  constructor; cbn; rewrite ?map_length; auto.
  - constructor; cbn; auto.
  - rewrite <- app_assoc. exact PL.
Qed.

Lemma zip_add_nil (l : list (F K)) : zip_add [] l = [].
Proof. reflexivity. Qed.

Definition loop_policy (md : mcdata K) : Prop := ei_policy (mc_exec md) = Sequential \/ ei_policy (mc_exec md) = Rayon.
Hypothesis Hpol1 : loop_policy md1.
Hypothesis Hpol2 : loop_policy md2.

Lemma finish_rel step s1 s2 : s_rel s1 s2 -> agree s_rel (finish_cycle md1 step s1) (finish_cycle md2 step s2).
Proof.
  intros [[D B W P1 P2 P3 (R1 & R2 & R3) (SW & SN) RP] S PL C1 X1 C2 X2 FL].
  pose proof Hsame as (E1 & E2 & E3 & E4).
  assert (G : agree s_rel
    (do (u, rs) <- update_stats md1 (mkUnit (u_domain (s_unit s1))
        (bset (u_balance (s_unit s1)) EEnd (N.of_nat (length (processed (s_cont s1))))) (u_mem (s_unit s1)) (u_weight (s_unit s1))) (s_results s1) ;
     do rs <- update_spectrum md1 (s_cont s1) rs ;
     Ok (mkSim u (s_cont s1) rs (s_source_weight s1) (s_global_n s1) (s_reports s1 ++
       [mkReport (step - 1) (bset (u_balance (s_unit s1)) EEnd (N.of_nat (length (processed (s_cont s1))))) (fsum (m_flux (u_mem (s_unit s1))))])))
    (do (u, rs) <- update_stats md2 (mkUnit (u_domain (s_unit s2))
        (bset (u_balance (s_unit s2)) EEnd (N.of_nat (length (processed (s_cont s2))))) (u_mem (s_unit s2)) (u_weight (s_unit s2))) (s_results s2) ;
     do rs <- update_spectrum md2 (s_cont s2) rs ;
     Ok (mkSim u (s_cont s2) rs (s_source_weight s2) (s_global_n s2) (s_reports s2 ++
       [mkReport (step - 1) (bset (u_balance (s_unit s2)) EEnd (N.of_nat (length (processed (s_cont s2))))) (fsum (m_flux (u_mem (s_unit s2))))])))).
  { rewrite <- (Permutation_length P2), <- B, <- D, <- W.
    unfold update_stats, fluence_compute. rewrite <- R2, FL, zip_add_nil, zip_add_nil, <- E1.
    assert (HF : exists rf, (if sp_standard (mc_params md1) then Ok [] else
        do _ <- rassert (negb (sp_n_groups (mc_params md1) =? 0)) ; Ok ([] : list (F K))) = rf /\ (forall l, rf = Ok l -> l = [])).
    { eexists. split; [reflexivity|]. destruct (sp_standard _); [intros; congruence|].
      destruct (rassert _); cbn [rbind]; intros; congruence. }
    destruct HF as (rf & -> & Hrf). destruct rf as [l| |]; cbn [rbind]; try exact I. rewrite (Hrf l eq_refl).
    unfold update_spectrum. cbn [rs_spectrum rs_balance rs_fluence]. rewrite <- E1, <- R1, <- R3.
    rewrite (rfold_perm spectrum_add spectrum_add_swap _ _ P1 (rs_spectrum (s_results s1))).
    destruct (sp_spectrum (mc_params md1)).
    - destruct (rfold spectrum_add (processing (s_cont s2)) (rs_spectrum (s_results s1))) as [sp| |]; cbn [rbind agree]; try exact I.
      rewrite (rfold_perm spectrum_add spectrum_add_swap _ _ P2 sp).
      destruct (rfold spectrum_add (processed (s_cont s2)) sp) as [sp'| |]; cbn [rbind agree]; try exact I.
      constructor; cbn; rewrite ?map_length; auto. constructor; cbn; auto. rewrite !map_app, RP. reflexivity.
    - cbn [rbind agree]. constructor; cbn; rewrite ?map_length; auto. constructor; cbn; auto. rewrite !map_app, RP. reflexivity. }
  unfold finish_cycle. destruct Hpol1 as [-> | ->], Hpol2 as [-> | ->]; exact G.
Qed.

Definition sync_rel (last : bool) := if last then s_rel else p_rel.

Lemma sync_rel_ok step s1 s2 : s_rel s1 s2 ->
  agree (sync_rel (negb (step =? 0) && (step =? sp_n_steps (mc_params md1) + 1))) (cycle_sync md1 step s1) (cycle_sync md2 step s2).
Proof.
  intros H. pose proof Hsame as (E1 & _). unfold cycle_sync. rewrite <- E1. destruct (step =? 0); cbn [negb andb sync_rel].
  - apply prepare_rel. exact H.
  - eapply agree_bind; [apply finish_rel; exact H|]. intros a b Hab.
    destruct (step =? _); cbn [sync_rel agree]; [exact Hab|apply prepare_rel; exact Hab].
Qed.

Lemma steps_rel fuel cf s1 s2 n r1 : s_rel s1 s2 -> run_steps fuel cf md1 s1 n r1 ->
  forall r2, n <= sp_n_steps (mc_params md1) -> run_steps fuel cf md2 s2 n r2 -> agree s_rel r1 r2.
Proof.
  intros HR. induction 1 as [|n a a1 r1 H IH Hs Hp|n a H IH Hs|n r1 H IH Hr]; intros r2 Hn H2;
    inversion H2 as [E|m b b1 r H' Hs' Hp' E|m b H' Hs' E|m r H' Hr' E]; try lia; subst;
    try (apply N.succ_inj in E; subst m).
  - exact HR.
  - assert (G : agree s_rel (Ok a) (Ok b)) by (apply IH; [lia|exact H']). cbn [agree] in G.
    pose proof (sync_rel_ok n _ _ G) as Gs. rewrite Hs, Hs' in Gs. cbn [agree] in Gs.
    destruct (N.eqb_spec n (sp_n_steps (mc_params md1) + 1)); [lia|]. rewrite andb_false_r in Gs. cbn [sync_rel] in Gs.
    eapply cycle_process_rel; eauto.
  - assert (G : agree s_rel (Ok a) (Ok b)) by (apply IH; [lia|exact H']). cbn [agree] in G.
    pose proof (sync_rel_ok n _ _ G) as Gs. rewrite Hs, Hs' in Gs. destruct Gs.
  - assert (G : agree s_rel (Ok a) r2) by (apply IH; [lia|exact H']). destruct Hr' as [-> | ->]; destruct G.
  - assert (G : agree s_rel (Ok a) (Ok b)) by (apply IH; [lia|exact H']). cbn [agree] in G.
    pose proof (sync_rel_ok n _ _ G) as Gs. rewrite Hs, Hs' in Gs. destruct Gs.
  - exact I.
  - destruct Hr' as [-> | ->]; exact I.
  - assert (G : agree s_rel r1 (Ok b)) by (apply IH; [lia|exact H']). destruct Hr as [-> | ->]; destruct G.
  - destruct Hr as [-> | ->]; exact I.
  - destruct Hr as [-> | ->], Hr' as [-> | ->]; exact I.
Qed.

Lemma initial_rel d : sound_problem md1 d -> s_rel (initial_sim md1 d) (initial_sim md2 d).
Proof.
  intros Hs. pose proof Hsame as (E1 & E2 & E3 & E4). unfold initial_sim. rewrite <- E1.
  constructor; cbn; rewrite ?repeat_length; auto; try (unfold n_cells; apply N2Nat.id).
  constructor; cbn; auto.
Qed.

Theorem runs_agree fuel cf d r1 r2 : sound_problem md1 d ->
  core_loop fuel cf md1 (initial_sim md1 d) r1 -> core_loop fuel cf md2 (initial_sim md2 d) r2 ->
  agree same_state r1 r2.
Proof.
  intros Hd H1 H2. pose proof Hsame as (E1 & _).
  assert (G : agree s_rel r1 r2).
  { inversion H1 as [q1 Q1 T1|Q1]; subst; [|destruct Hpol1, Q1; congruence].
    inversion H2 as [q2 Q2 T2|Q2]; subst; [|destruct Hpol2, Q2; congruence].
    rewrite <- E1 in * . eapply agree_bind.
    - eapply steps_rel; eauto using initial_rel. lia.
    - intros a b Hab. pose proof (sync_rel_ok (sp_n_steps (mc_params md1)) _ _ Hab) as Gs.
      destruct (N.eqb_spec (sp_n_steps (mc_params md1)) (sp_n_steps (mc_params md1) + 1)); [lia|].
      rewrite andb_false_r in Gs. cbn [sync_rel] in Gs.
      destruct (cycle_sync md1 _ a), (cycle_sync md2 _ b); cbn [agree] in * ; auto. apply Gs. }
  destruct r1, r2; cbn [agree] in * ; auto. apply G.
Qed.

End Agree.
