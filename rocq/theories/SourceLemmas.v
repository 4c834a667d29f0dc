(** The particles created by the source: their numbers are all different. *)
From Coq Require Import NArith ZArith List Bool Lia Permutation PeanoNat.
From Verif Require Import Float RngModel RngSpec RngLemmas RngFacts ParticleModel NuclearModel MeshTypes Balance TrackModel CycleModel
  ProgLemmas TrackSpec CycleSpec TrackAccount CycleAccount PopSpec.
Import ListNotations.
Local Open Scope N_scope.

Lemma spawn_snd x : snd (spawn_rn_seed x) = rng_next x.
Proof. reflexivity. Qed.

Local Opaque rng_next spawn_rn_seed hash_state.

Lemma In_nrange lo n x : In x (nrange lo n) <-> lo <= x < lo + N.of_nat n.
Proof.
  revert lo. induction n as [|n IH]; intros lo; cbn [nrange]; [split; [intros []|lia]|].
  cbn [In]. rewrite IH. lia.
Qed.

Lemma NoDup_app {A} (l l' : list A) : NoDup l -> (forall x, In x l -> In x l' -> False) -> NoDup l' -> NoDup (l ++ l').
Proof.
  induction l as [|a l IH]; intros H D H'; [exact H'|]. inversion H; subst. cbn [app]. constructor.
  - rewrite in_app_iff. intros [G|G]; [auto|]. apply (D a); [left; reflexivity|exact G].
  - apply IH; auto. intros x G. apply D. right. exact G.
Qed.

Section Source.
Context {K : FloatOps}.
Implicit Types (p q : particle K) (md : mcdata K).

(** ** One particle *)

Lemma draw_seed p : p_random_number_seed (snd (draw p)) = rng_next (p_random_number_seed p).
Proof. reflexivity. Qed.
Lemma draw_id p : p_identifier (snd (draw p)) = p_identifier p.
Proof. reflexivity. Qed.

Lemma coordinate_seed p m cell v x q : generate_coordinate_3dg p m cell v = Ok (x, q) ->
  p_identifier q = p_identifier p /\ p_random_number_seed q = seed_after 4 (p_random_number_seed p).
Proof.
  unfold generate_coordinate_3dg. intros H. rb H as center Ec. cbn [draw] in H.
  rb H as points Ep. destruct (fold_barycentric _ _ _) as [[[r1 r2] r3] r4]. destruct points as [[q0 q1] q2].
  injection H; intros; subst. split; reflexivity.
Qed.

Lemma source_particle_numbers md w dom c v x p : source_particle md w dom c v x = Ok p ->
  p_identifier p = rng_next x /\ p_random_number_seed p = seed_after 9 (fst (spawn_rn_seed x)).
Proof.
  unfold source_particle. destruct (spawn_rn_seed x) as [s x'] eqn:E. intros H. rb H as [coord q] Eq.
  apply coordinate_seed in Eq as (E1 & E2). cbn [p_identifier p_random_number_seed set_identifier set_random_number_seed] in E1, E2.
  assert (Ex : x' = rng_next x) by (pose proof (spawn_snd x) as Hs; rewrite E in Hs; exact Hs).
  unfold sample_isotropic, sample_num_mfp, draw in H. injection H as H. rewrite <- H.
  change (p_identifier q = rng_next x /\ seed_after 5 (p_random_number_seed q) = seed_after 9 s).
  rewrite E1, E2, <- Ex. split; reflexivity.
Qed.

Lemma seed_after_inj n : forall s t, s < 2 ^ 64 -> t < 2 ^ 64 -> seed_after n s = seed_after n t -> s = t.
Proof.
  induction n as [|n IH]; intros s t Hs Ht E; [exact E|]. cbn [seed_after] in E. apply rng_next_inj in E.
  - apply IH; auto.
  - apply (proj1 (rng_full_period s Hs)).
  - apply (proj1 (rng_full_period t Ht)).
Qed.

(** The number from which a particle is made. *)
Definition made_from (p : particle K) (x : N) : Prop :=
  x < 2 ^ 64 /\ p_identifier p = rng_next x /\ p_random_number_seed p = seed_after 9 (fst (spawn_rn_seed x)).

Lemma made_distinct (ps : list (particle K)) xs : Forall2 made_from ps xs -> NoDup xs ->
  NoDup (map p_identifier ps) /\ NoDup (map p_random_number_seed ps).
Proof.
  intros H N. destruct spawn_bijective as (Sb & Si & _).
  induction H as [|p x ps xs (Hx & E1 & E2) H IH]; [split; constructor|]. inversion N as [|? ? Nx Nxs]; subst.
  destruct (IH Nxs) as (I1 & I2). cbn [map].
  assert (G : forall q, In q ps -> exists y, In y xs /\ made_from q y).
  { clear - H. induction H as [|p x ps xs Hp H IH]; intros q Hq; [destruct Hq|].
    destruct Hq as [<-|Hq]; [exists x; split; [left; reflexivity|exact Hp]|].
    destruct (IH _ Hq) as (y & Hy & Hm). exists y. split; [right; exact Hy|exact Hm]. }
  split; (constructor; [|assumption]); intros Hin; apply in_map_iff in Hin as (q & Eq & Hq);
    destruct (G _ Hq) as (y & Hy & Hy64 & F1 & F2); apply Nx.
  - rewrite E1, F1 in Eq. apply rng_next_inj in Eq; auto. subst. exact Hy.
  - rewrite E2, F2 in Eq. apply seed_after_inj in Eq; [|apply Sb; assumption|apply Sb; assumption].
    apply Si in Eq; auto. subst. exact Hy.
Qed.

(** ** The cells *)

Lemma rmap_Forall2 {A B} (f : A -> result B) l l' : rmap f l = Ok l' -> Forall2 (fun a b => f a = Ok b) l l'.
Proof.
  revert l'. induction l as [|a l IH]; intros l' H; cbn [rmap] in H.
  - injection H; intros; subst. constructor.
  - rb H as b E. rb H as l1 E1. injection H; intros; subst. constructor; auto.
Qed.

(** The numbers used by a cell whose counter goes from [t] to [t + n]. *)
Definition cell_numbers (cs : cell_state K) (n : N) : list N := map (fun t => t + cs_id cs) (nrange (cs_source_tally cs) (N.to_nat n)).

(** [cells'] are the [cells] after they have created particles from the numbers [xs]. *)
Inductive used : list (cell_state K) -> list (cell_state K) -> list N -> Prop :=
| used_nil : used [] [] []
| used_cons : forall cs n cells cells' xs, used cells cells' xs ->
    used (cs :: cells)
      (mkCellState (cs_material cs) (cs_volume cs) (cs_number_density cs) (cs_id cs) (cs_source_tally cs + n) :: cells')
      (cell_numbers cs n ++ xs).

Lemma source_cells_used md w rates dom cells : forall i cells' n ps,
  source_cells md w rates dom i cells = Ok (cells', n, ps) ->
  ids_apart cells -> Forall (fun cs => cs_source_tally cs <= 2 ^ 32) cells' ->
  exists xs, used cells cells' xs /\ Forall2 made_from ps xs.
Proof.
  induction cells as [|cs cells IH]; intros i cells' n ps H (Hid & Hnd) Ht; cbn [source_cells] in H.
  - injection H; intros; subst. exists []. split; constructor.
  - rb H as k Ek. rb H as ps1 E1. rb H as [[cells1 n1] ps2] E2. injection H; intros; subst. clear H.
    inversion Hid as [|? ? (g & Hg & Eg) Hid']; subst. inversion Hnd; subst. inversion Ht as [|? ? Ht1 Ht2]; subst.
    cbn [cs_source_tally] in Ht1.
    destruct (IH _ _ _ _ E2 (conj Hid' H2) Ht2) as (xs & U & M). exists (cell_numbers cs k ++ xs). split; [constructor; exact U|].
    apply Forall2_app; [|exact M].
    apply rmap_Forall2 in E1. unfold cell_numbers. unfold source_seeds in E1.
    assert (Hb : forall x, In x (nrange (cs_source_tally cs) (N.to_nat k)) -> x < 2 ^ 32).
    { intros x Hx. apply In_nrange in Hx. lia. }
    clear - E1 Hb Eg Hg. revert ps1 E1 Hb. generalize (nrange (cs_source_tally cs) (N.to_nat k)) as l.
    induction l as [|t l IH]; intros ps1 E1 Hb; inversion E1 as [|? p ? ps' Ep Hps]; subst; cbn [map]; constructor.
    + assert (Hx : t + cs_id cs < 2 ^ 64) by (rewrite Eg; specialize (Hb t (or_introl eq_refl)); lia).
      assert (Em : (t + cs_id cs) mod two64 = t + cs_id cs) by (apply N.mod_small; exact Hx).
      rewrite Em in Ep. apply source_particle_numbers in Ep. split; [exact Hx|exact Ep].
    + apply IH; auto. intros x Hx. apply Hb. right. exact Hx.
Qed.

(** ** Histories *)

Definition owned (cells : list (cell_state K)) (x : N) : Prop :=
  exists cs, In cs cells /\ cs_id cs <= x < cs_id cs + cs_source_tally cs.
Definition fresh_for (cells : list (cell_state K)) (x : N) : Prop :=
  exists cs, In cs cells /\ cs_id cs + cs_source_tally cs <= x < cs_id cs + 2 ^ 32.

Lemma used_ids cells cells' xs : used cells cells' xs -> map cs_id cells' = map cs_id cells.
Proof. induction 1; cbn [map cs_id]; congruence. Qed.
Lemma used_apart cells cells' xs : used cells cells' xs -> ids_apart cells -> ids_apart cells'.
Proof.
  intros U (H1 & H2). split; [|rewrite (used_ids _ _ _ U); exact H2]. clear H2.
  induction U; [constructor|]. inversion H1; subst. constructor; [exact H2|auto].
Qed.

Lemma In_cell_numbers cs n x : In x (cell_numbers cs n) <-> cs_id cs + cs_source_tally cs <= x < cs_id cs + cs_source_tally cs + n.
Proof.
  unfold cell_numbers. rewrite in_map_iff. split.
  - intros (t & <- & Ht). apply In_nrange in Ht. lia.
  - intros H. exists (x - cs_id cs). split; [lia|]. apply In_nrange. lia.
Qed.
Lemma cell_numbers_NoDup cs n : NoDup (cell_numbers cs n).
Proof.
  unfold cell_numbers. generalize (cs_source_tally cs). induction (N.to_nat n) as [|k IH]; intros t; cbn [nrange map]; constructor; auto.
  intros H. apply in_map_iff in H as (y & E & Hy). apply In_nrange in Hy. lia.
Qed.

Lemma apart_range (cells : list (cell_state K)) a b x : ids_apart cells -> In a cells -> In b cells ->
  cs_id a <= x < cs_id a + 2 ^ 32 -> cs_id b <= x < cs_id b + 2 ^ 32 -> cs_id a = cs_id b.
Proof.
  intros (H & _) Ha Hb Ra Rb. rewrite Forall_forall in H.
  destruct (H _ Ha) as (g & _ & Eg), (H _ Hb) as (h & _ & Eh). rewrite Eg, Eh in * .
  assert (g = h) by nia. congruence.
Qed.

Lemma same_id_same (cells : list (cell_state K)) a b : NoDup (map cs_id cells) -> In a cells -> In b cells -> cs_id a = cs_id b -> a = b.
Proof.
  induction cells as [|c cells IH]; intros Hn Ha Hb E; [destruct Ha|]. inversion Hn; subst.
  destruct Ha as [->|Ha], Hb as [->|Hb]; auto.
  - exfalso. apply H1. rewrite E. apply in_map. exact Hb.
  - exfalso. apply H1. rewrite <- E. apply in_map. exact Ha.
Qed.

Lemma used_fresh cells cells' xs : used cells cells' xs -> Forall (fun cs => cs_source_tally cs <= 2 ^ 32) cells' ->
  (forall x, In x xs -> fresh_for cells x /\ owned cells' x) /\ (forall x, owned cells x -> owned cells' x).
Proof.
  induction 1 as [|cs n cells cells' xs U IH]; intros Ht.
  - split; [intros x []|]. intros x (cs & [] & _).
  - inversion Ht as [|? ? Ht1 Ht2]; subst. cbn [cs_source_tally] in Ht1. destruct (IH Ht2) as (I1 & I2). split.
    + intros x Hx. apply in_app_iff in Hx as [Hx|Hx].
      * apply In_cell_numbers in Hx. split; [exists cs|eexists]; (split; [left; reflexivity|]); cbn [cs_id cs_source_tally]; lia.
      * destruct (I1 _ Hx) as ((a & Ha & Ra) & (b & Hb & Rb)). split; [exists a|exists b]; (split; [right|]; assumption).
    + intros x (a & [<-|Ha] & Ra).
      * eexists. split; [left; reflexivity|]. cbn [cs_id cs_source_tally]. lia.
      * destruct (I2 x) as (b & Hb & Rb); [exists a; auto|]. exists b. split; [right|]; assumption.
Qed.

Lemma used_NoDup cells cells' xs : used cells cells' xs -> ids_apart cells -> Forall (fun cs => cs_source_tally cs <= 2 ^ 32) cells' ->
  NoDup xs.
Proof.
  induction 1 as [|cs n cells cells' xs U IH]; intros Ha Ht; [constructor|].
  inversion Ht as [|? ? Ht1 Ht2]; subst. cbn [cs_source_tally] in Ht1.
  pose proof Ha as (Ha1 & Ha2). inversion Ha1; subst. inversion Ha2; subst.
  assert (Ha' : ids_apart cells) by (split; assumption).
  destruct (used_fresh _ _ _ U Ht2) as (Fr & _).
  apply NoDup_app; [apply cell_numbers_NoDup| |apply IH; assumption].
  intros x Hx Hx'. apply In_cell_numbers in Hx. destruct (Fr _ Hx') as ((b & Hb & Rb) & _).
  apply H3. replace (cs_id cs) with (cs_id b); [apply in_map, Hb|].
  symmetry. apply (apart_range (cs :: cells) cs b x Ha); [left; reflexivity|right; exact Hb|lia|lia].
Qed.

(** ** The run *)

Definition tallies_small (cells : list (cell_state K)) : Prop := Forall (fun cs => cs_source_tally cs <= 2 ^ 32) cells.

Lemma used_small cells cells' xs : used cells cells' xs -> tallies_small cells' -> tallies_small cells.
Proof. unfold tallies_small. induction 1; intros H0; constructor; inversion H0; subst; cbn [cs_source_tally] in * ; auto. lia. Qed.

Lemma sync_cells md n s s1 : cycle_sync md n s = Ok s1 -> u_domain (s_unit s1) = u_domain (s_unit s).
Proof.
  assert (Hprep : forall s s1, prepare_cycle md s = Ok s1 -> u_domain (s_unit s1) = u_domain (s_unit s)).
  { clear. unfold prepare_cycle. intros s s' H. rb H as w Hw. rb H as n Hn. injection H; intros; subst. reflexivity. }
  unfold cycle_sync. intros H. destruct (n =? 0); [apply Hprep, H|]. rb H as s2 Hf.
  destruct (finish_cycle_parts _ _ _ _ Hf) as (_ & _ & E & _).
  destruct (n =? sp_n_steps (mc_params md) + 1); [injection H; intros; subst; exact E|].
  rewrite (Hprep _ _ H). exact E.
Qed.

Lemma population_domain md s u c : population_phase md s = Ok (u, c) ->
  exists u0 c0, source_now md (s_source_weight s) (s_unit s) (s_cont s) = Ok (u0, c0) /\ u_domain u = u_domain u0.
Proof.
  unfold population_phase. intros H. rb H as [u0 c0] Hs. exists u0, c0. split; [exact Hs|]. rb H as f Hf.
  destruct (flt f f1).
  - destruct (regulate_population _ _ _ _ _) as [c1 b1]. injection H; intros; subst. reflexivity.
  - destruct (flt f1 f).
    + rb H as [c1 b1] Hsp. injection H; intros; subst. reflexivity.
    + injection H; intros; subst. reflexivity.
Qed.

Lemma process_domain fuel cf md s s' : cycle_process fuel cf md s (Ok s') ->
  exists u0 c0, source_now md (s_source_weight s) (s_unit s) (s_cont s) = Ok (u0, c0) /\ u_domain (s_unit s') = u_domain u0.
Proof.
  intros H. remember (Ok s') as r0 eqn:Er. destruct H as [u c r Hpop Htr|Hpop|Hpop]; try discriminate.
  rb Er as [u' c'] E. subst r. injection Er; intros; subst; clear Er. destruct (population_domain _ _ _ _ Hpop) as (u0 & c0 & H1 & H2).
  exists u0, c0. split; [exact H1|]. cbn [s_unit]. rewrite <- H2. clear - Htr.
  remember (Ok (u', c')) as r eqn:Er. revert u' c' Er.
  induction Htr as [u c D|u c u1 c1 r D Hp Ht IH|u c D Hp|u c D Hp]; intros u' c' Er; try discriminate.
  - injection Er; intros; subst. reflexivity.
  - rewrite (IH _ _ Er). inversion Hp as [r0 H1 H2 E|n r0 b H1 H2 H3 H4 E|]; subst.
    + destruct (run_seq _ _ _) as [[[[ps b] ex] m]| |]; try discriminate. cbn [rbind] in E. injection E; intros; subst. reflexivity.
    + destruct r0 as [[[[sl bals] m] ex]| |]; try discriminate. cbn [rbind] in E.
      destruct (rassert _) as [[]| |]; try discriminate. cbn [rbind] in E. injection E; intros; subst. reflexivity.
Qed.

Lemma run_numbers fuel cf md d n s ps : run_sourced fuel cf md d n s ps ->
  ids_apart (d_cells d) -> Forall (fun cs => cs_source_tally cs = 0) (d_cells d) -> tallies_small (d_cells (u_domain (s_unit s))) ->
  ids_apart (d_cells (u_domain (s_unit s))) /\
  exists xs, Forall2 made_from ps xs /\ NoDup xs /\ (forall x, In x xs -> owned (d_cells (u_domain (s_unit s))) x).
Proof.
  intros H Ha H0. induction H as [|n s ps s1 u c new s2 H IH Hsy Hso Hnew Hpr]; intros Ht.
  - split; [exact Ha|]. exists []. split; [constructor|]. split; [constructor|]. intros x [].
  - destruct (process_domain _ _ _ _ _ Hpr) as (u0 & c0 & Hso' & Ed). rewrite Hso in Hso'. injection Hso'; intros; subst u0 c0. clear Hso'.
    unfold source_now in Hso. rb Hso as rates Er. rb Hso as [[cells k] new'] Ec. injection Hso; intros; subst u c. clear Hso.
    cbn [processing] in Hnew. apply app_inv_head in Hnew. subst new'.
    cbn [u_domain set_cells d_cells] in Ed. rewrite Ed in * . cbn [set_cells d_cells] in * .
    rewrite (sync_cells _ _ _ _ Hsy) in Ec.
    assert (Ts : tallies_small (d_cells (u_domain (s_unit s)))).
    { assert (Gen : forall cells0 i, source_cells md (s_source_weight s1) rates (u_domain (s_unit s)) i cells0 = Ok (cells, k, new) -> tallies_small cells0).
      { clear - Ht. intros cells0. revert cells k new Ht. induction cells0 as [|cs cells0 IH]; intros cells k new Ht i H; cbn [source_cells] in H.
        - constructor.
        - rb H as a Ek. rb H as ps1 E1. rb H as [[cells1 n1] ps2] E2. injection H; intros; subst. inversion Ht as [|? ? T1 T2]; subst.
          cbn [cs_source_tally] in T1. constructor; [lia|]. eapply IH; eauto. }
      eapply Gen; eauto. }
    destruct (IH Ts) as (Ha' & xs & M & Nd & Ow).
    destruct (source_cells_used _ _ _ _ _ _ _ _ _ Ec Ha' Ht) as (ys & U & M').
    destruct (used_fresh _ _ _ U Ht) as (Fr & Kp).
    split; [eapply used_apart; eauto|]. exists (xs ++ ys). split; [apply Forall2_app; assumption|]. split.
    + apply NoDup_app; [exact Nd| |eapply used_NoDup; eauto].
      intros x Hx Hy. destruct (Ow _ Hx) as (a & Ia & Ra). destruct (Fr _ Hy) as ((b & Ib & Rb) & _).
      assert (Ta : cs_source_tally a <= 2 ^ 32) by (unfold tallies_small in Ts; rewrite Forall_forall in Ts; auto).
      assert (E : cs_id a = cs_id b) by (apply (apart_range _ a b x Ha' Ia Ib); lia).
      apply (same_id_same _ _ _ (proj2 Ha') Ia Ib) in E. subst b. lia.
    + intros x Hx. apply in_app_iff in Hx as [Hx|Hx]; [apply Kp, Ow, Hx|apply Fr, Hx].
Qed.

Lemma run_unique fuel cf md d n s ps : run_sourced fuel cf md d n s ps ->
  ids_apart (d_cells d) -> Forall (fun cs => cs_source_tally cs = 0) (d_cells d) ->
  Forall (fun cs => cs_source_tally cs <= 2 ^ 32) (d_cells (u_domain (s_unit s))) ->
  NoDup (map p_identifier ps) /\ NoDup (map p_random_number_seed ps).
Proof.
  intros H Ha H0 Ht. destruct (run_numbers _ _ _ _ _ _ _ H Ha H0 Ht) as (_ & xs & M & Nd & _). exact (made_distinct _ _ M Nd).
Qed.

(** Every run has such a history. *)
Lemma run_has_sourced fuel cf md d n r : run_steps fuel cf md (initial_sim md d) n r -> forall s, r = Ok s ->
  exists ps, run_sourced fuel cf md d n s ps.
Proof.
  induction 1 as [|n s0 s1 r H IH Hsync Hproc|n s0 H IH Hsync|n r H IH Hr]; intros s Er.
  - injection Er; intros; subst. exists []. constructor.
  - subst r. destruct (IH _ eq_refl) as (ps & Hps). destruct (process_domain _ _ _ _ _ Hproc) as (u0 & c0 & Hso & Ed).
    pose proof Hso as Hso'. unfold source_now in Hso'. rb Hso' as rates Er. rb Hso' as [[cells k] new] Ec. injection Hso'; intros; subst.
    exists (ps ++ new). eapply so_cycle; eauto.
  - discriminate.
  - subst r. destruct Hr; discriminate.
Qed.

End Source.
