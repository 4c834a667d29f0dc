(** What holds of sourced particles and is kept by tracking holds all along a run. *)
From Coq Require Import NArith List Bool Lia Permutation.
From Verif Require Import Float RngModel ParticleModel NuclearModel MeshTypes Balance TrackModel CycleModel
  TrackSpec CycleSpec TrackAccount CycleAccount PopSpec SourceLemmas PopLemmas.
Import ListNotations.
Local Open Scope N_scope.

Section Keeps.
Context {K : FloatOps}.
Variable md : mcdata K.
Variable m0 : mesh K.
(** [P]: before a track; [Q]: at census. *)
Variables P Q : particle K -> Prop.
Hypothesis HQP : forall p, Q p -> P p.
Hypothesis Hweight : forall p q, same_but_weight p q -> P p -> P q.
Hypothesis Hsource : forall w dom c v x p, d_mesh dom = m0 -> c < N.of_nat (length (d_cells dom)) ->
  source_particle md w dom c v x = Ok p -> P p.
Hypothesis Htrack : forall dom p q evs p' nx, d_mesh dom = m0 -> P p -> prepare_particle (mc_track md) p = Ok q ->
  track_path (mc_track md) dom q evs p' nx -> (p_species p = Known -> is_valid p' = true -> Q p') /\ Forall P nx.

Lemma slice_keeps dom ps ps' evss nxs : d_mesh dom = m0 -> slice_paths (mc_track md) dom ps ps' evss nxs ->
  Forall P ps -> all_valid ps -> Forall Q (filter is_valid ps') /\ Forall P nxs.
Proof.
  intros Hm H. induction H as [|p q p' ps ps' evs evss nx nxs Hp Ht Hs IH]; intros F V; [split; constructor|].
  pose proof (Forall_inv F) as F1. pose proof (Forall_inv_tail F) as F2. pose proof (Forall_inv V) as V1. pose proof (Forall_inv_tail V) as V2. destruct (IH F2 V2) as (I1 & I2).
  destruct (Htrack _ _ _ _ _ _ Hm F1 Hp Ht) as (T1 & T2).
  split; [|apply Forall_app; auto]. cbn [filter]. destruct (is_valid p') eqn:E; [constructor; auto|exact I1].
Qed.

Lemma rounds_keep dom ps evs kept : d_mesh dom = m0 -> rounds_paths (mc_track md) dom ps evs kept ->
  Forall P ps -> all_valid ps -> Forall Q kept.
Proof.
  intros Hm H. induction H as [|ps ps0 ps1 evss nxs next evs kept Pm Hs Pm' Hr IH]; intros F V; [constructor|].
  pose proof (all_valid_perm _ _ Pm V) as V0.
  destruct (slice_keeps _ _ _ _ _ Hm Hs (Permutation_Forall Pm F) V0) as (I1 & I2).
  destruct (slice_paths_accounted _ _ _ _ _ _ Hs V0) as (V1 & _).
  apply Forall_app. split; [exact I1|].
  apply IH; [exact (Permutation_Forall (Permutation_sym Pm') I2)|eapply all_valid_perm; [apply Permutation_sym; exact Pm'|exact V1]].
Qed.

Lemma source_cells_keep w rates dom : d_mesh dom = m0 -> forall cells i cells' n ps,
  i + N.of_nat (length cells) = N.of_nat (length (d_cells dom)) ->
  source_cells md w rates dom i cells = Ok (cells', n, ps) -> Forall P ps.
Proof.
  intros Hm. induction cells as [|cs cells IH]; intros i cells' n ps Hl H; cbn [source_cells] in H.
  - injection H; intros; subst ps. constructor.
  - rb H as a Ek. rb H as ps1 E1. rb H as [[cells1 n1] ps2] E2. injection H; intros; subst ps. cbn [length] in Hl.
    apply Forall_app. split; [|eapply IH; [|exact E2]; lia].
    apply rmap_Forall2 in E1. clear - E1 Hsource Hl Hm.
    induction E1 as [|x p xs ps1 E _ IH]; constructor; [eapply Hsource; [exact Hm| |exact E]; lia|exact IH].
Qed.

Lemma roulette_keeps f : forall l, Forall P l -> Forall P (flat_map (roulette f) l).
Proof.
  induction l as [|p l IH]; intros H; [constructor|]. pose proof (Forall_inv H) as H1. pose proof (Forall_inv_tail H) as H2. cbn [flat_map]. apply Forall_app. split; [|auto].
  unfold roulette. destruct (flt _ _); constructor; [|constructor]. exact (Hweight _ _ (same_reweighted _ _) H1).
Qed.
Lemma low_weight_keeps c w : forall l, Forall P l -> Forall P (flat_map (low_weight_roulette c w) l).
Proof.
  induction l as [|p l IH]; intros H; [constructor|]. pose proof (Forall_inv H) as H1. pose proof (Forall_inv_tail H) as H2. cbn [flat_map]. apply Forall_app. split; [|auto].
  unfold low_weight_roulette. destruct (fle _ _); [|constructor; [exact H1|constructor]].
  destruct (fle _ _); constructor; [|constructor]. exact (Hweight _ _ (same_reweighted _ _) H1).
Qed.

Lemma split_keeps f l : forall ps ll, Forall2 (fun p ql => is_split f p (fst ql) (snd ql)) l (combine ps ll) ->
  length ps = length l -> length ll = length l -> Forall P l -> Forall P ps /\ Forall P (concat ll).
Proof.
  induction l as [|p l IH]; intros ps ll H L1 L2 F.
  - destruct ps; [|discriminate]. destruct ll; [|discriminate]. split; constructor.
  - destruct ps as [|q ps]; [discriminate|]. destruct ll as [|c ll]; [discriminate|]. cbn [combine] in H.
    inversion H as [|? ? ? ? S1 S2]; subst. pose proof (Forall_inv F) as F1. pose proof (Forall_inv_tail F) as F2. cbn [length] in L1, L2.
    destruct (IH ps ll S2) as (I1 & I2); [congruence|congruence|exact F2|].
    destruct S1 as (S1 & _). cbn [fst snd] in S1.
    assert (G : Forall P (q :: c)) by (eapply Forall_impl; [|exact S1]; intros x (Hx & _); exact (Hweight _ _ Hx F1)).
    pose proof (Forall_inv G) as G1. pose proof (Forall_inv_tail G) as G2. split; [constructor; auto|]. cbn [concat]. apply Forall_app; auto.
Qed.

Lemma population_keeps s u c : population_phase md s = Ok (u, c) -> d_mesh (u_domain (s_unit s)) = m0 ->
  extra_particles (s_cont s) = [] -> Forall P (processing (s_cont s)) -> Forall P (processing c).
Proof.
  unfold population_phase. intros H Hm He F. rb H as [u1 c1] Hsrc. unfold source_now in Hsrc.
  rb Hsrc as rates Hr. rb Hsrc as [[cells n] ps] Hcells. injection Hsrc; intros; subst u1 c1. clear Hsrc.
  assert (F1 : Forall P (processing (s_cont s) ++ ps)).
  { apply Forall_app. split; [exact F|]. eapply source_cells_keep; [exact Hm| |exact Hcells]. reflexivity. }
  rb H as f Hf. destruct (flt f f1).
  - match type of H with context [regulate_population ?c ?f ?cu ?w ?b] =>
      pose proof (regulate_outcome c f cu w b) as E; destruct (regulate_population c f cu w b) as [c1 b1] end.
    injection H; intros; subst. cbn [fst processing] in E. rewrite E. apply low_weight_keeps, roulette_keeps, F1.
  - destruct (flt f1 f).
    + rb H as [c1 b1] Hsp. injection H; intros; subst. destruct (split_population_outcome _ _ _ _ _ _ _ Hsp) as (qs & ll & S & L1 & L2 & -> & _).
      cbn [processing extra_particles] in * . rewrite He. cbn [app]. apply low_weight_keeps.
      destruct (split_keeps _ _ _ _ S L1 L2 F1). apply Forall_app; auto.
    + injection H; intros; subst. exact F1.
Qed.

Lemma process_keeps fuel cf s s' : cycle_process fuel cf md s (Ok s') -> ready s -> d_mesh (u_domain (s_unit s)) = m0 ->
  Forall P (processing (s_cont s)) -> Forall Q (processed (s_cont s')).
Proof.
  intros H [He Hp Hv Hb] Hm F. remember (Ok s') as r0 eqn:Er. destruct H as [u c r Hpop Htr|Hpop|Hpop]; try discriminate.
  rb Er as [u' c'] E. subst r. injection Er; intros; subst s'; clear Er.
  destruct (population_ok _ _ _ _ Hpop He Hv Hb) as (src & V1 & V2 & E2 & P2 & S1 & S2 & S3 & S4 & M & _).
  pose proof (population_keeps _ _ _ Hpop Hm He F) as F2.
  destruct (rounds_ok _ _ _ _ _ _ Htr E2 _ _ eq_refl) as (evs & kept & Hr & D & W & B & Q1 & Q2 & Q3).
  cbn [s_cont]. rewrite Q3, P2, Hp. cbn [app]. eapply rounds_keep; [|exact Hr|exact F2|exact V2]. congruence.
Qed.

Theorem run_keeps fuel cf d n r : d_mesh d = m0 -> run_steps fuel cf md (initial_sim md d) n r ->
  forall s, r = Ok s -> n <= sp_n_steps (mc_params md) -> Forall Q (processed (s_cont s)).
Proof.
  intros Hd. induction 1 as [|n s0 s1 r H IH Hsync Hproc|n s0 H IH Hsync|n r H IH Hr]; intros s Er Hn.
  - injection Er; intros; subst. constructor.
  - subst r. pose proof (run_steps_settled _ _ _ _ _ _ H _ eq_refl ltac:(lia)) as St.
    destruct (sync_settled _ _ _ _ _ St Hsync ltac:(lia)) as (R & Pr & M & _).
    eapply process_keeps; [exact Hproc|exact R|congruence|]. rewrite Pr.
    eapply Forall_impl; [exact HQP|]. apply (IH _ eq_refl). lia.
  - discriminate.
  - subst r. destruct Hr; discriminate.
Qed.

End Keeps.
