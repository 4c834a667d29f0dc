(** Problems whose source rounds down to no particles: every cycle is empty, in any arithmetic. *)
From Coq Require Import String NArith ZArith QArith Reals Lia Lra List Bool.
From Flocq Require Import Core.
From Verif Require Import Float RngModel ParticleModel NuclearModel MeshTypes Balance TrackModel CycleModel EmptySpec TrackAccount AssignLemmas SegmentFacts.
Import ListNotations.
Local Open Scope N_scope.

Section Any.
Context {K : FloatOps}.

Lemma empty_cells (md : mcdata K) w rates dom l : forall i,
  Forall (fun cs => cell_n_particles md w rates cs = Ok 0) l -> source_cells md w rates dom i l = Ok (l, 0, []).
Proof.
  induction l as [|cs l IH]; intros i H; [reflexivity|]. inversion H as [|a b E H2]; subst. cbn [source_cells]. rewrite E. cbn [rbind].
  cbv zeta. change (N.to_nat 0) with 0%nat. cbn [source_seeds rmap rbind]. rewrite IH; [|exact H2]. cbn [rbind app].
  rewrite !N.add_0_r. destruct cs; reflexivity.
Qed.

Definition source_ready (md : mcdata K) (dom : domain K) (s : sim K) : Prop :=
  exists w, unit_weight md dom = Ok w /\ s_source_weight s = fdiv (fadd f0 w) (fmul src_fraction (fof_N (sp_n_particles (mc_params md)))).

Lemma empty_prepare (md : mcdata K) dom k s : sources_nobody md dom -> empty_after md dom k s ->
  exists s1, prepare_cycle md s = Ok s1 /\ empty_after md dom k s1 /\ source_ready md dom s1.
Proof.
  intros (rates & w & n & Er & Ew & En & _) (D & B & Fl & C & Rb & L & Rp). unfold prepare_cycle. rewrite D, Ew, C, B. cbn [rbind]. cbv zeta.
  rewrite En. cbn [unwrap rbind].
  eexists. split; [reflexivity|]. split; [|exists w; split; [exact Ew|reflexivity]].
  unfold empty_after. cbn [s_unit u_domain u_balance u_mem m_flux s_cont s_results s_reports]. repeat split; assumption || reflexivity.
Qed.

Lemma empty_phase (md : mcdata K) dom k s : sources_nobody md dom -> empty_after md dom k s -> source_ready md dom s ->
  exists u, population_phase md s = Ok (u, mkContainer [] [] []) /\ u_domain u = dom /\ u_balance u = balance_zero /\ u_mem u = u_mem (s_unit s).
Proof.
  intros (rates & w & n & Er & Ew & En & Hc) (D & B & Fl & C & Rb & L & Rp) (w' & Ew' & W). rewrite Ew in Ew'. apply Ok_inj in Ew'. subst w'.
  unfold population_phase. cbv zeta. unfold source_now. rewrite Er, W, C, D. cbn [rbind].
  rewrite (empty_cells md _ rates dom _ 0 Hc). cbn [rbind processing app List.length].
  assert (Es : set_cells dom (d_cells dom) = dom) by (destruct dom; reflexivity). rewrite Es, B.
  assert (G : exists f, compute_split_factor (K := K) (sp_n_particles (mc_params md)) (s_global_n s) (N.of_nat 0) (ei_n_units (mc_exec md))
    (sp_load_balance (mc_params md)) = Ok f) by (unfold compute_split_factor; destruct (sp_load_balance (mc_params md)); eexists; reflexivity).
  destruct G as (f & G). rewrite G. cbn [rbind].
  destruct (flt f f1); [eexists; repeat split; reflexivity|]. destruct (flt f1 f); eexists; repeat split; reflexivity.
Qed.

Lemma empty_process fuel cf (md : mcdata K) dom k s : sources_nobody md dom -> empty_after md dom k s -> source_ready md dom s ->
  exists s1, empty_after md dom k s1 /\ forall r, cycle_process fuel cf md s r <-> r = Ok s1.
Proof.
  intros He I W. destruct (empty_phase md dom k s He I W) as (u & E & Du & Bu & Mu). destruct I as (D & B & Fl & C & Rb & L & Rp).
  exists (mkSim u (mkContainer [] [] []) (s_results s) (s_source_weight s) (s_global_n s) (s_reports s)). split.
  - unfold empty_after. cbn [s_unit u_domain u_balance u_mem m_flux s_cont s_results s_reports]. rewrite Mu. repeat split; assumption || reflexivity.
  - intros r. split; intros H.
    + inversion H as [u1 c1 r1 E1 H1|E1|E1]; subst; rewrite E in E1; [|discriminate E1|discriminate E1]. apply Ok_inj in E1. injection E1; intros; subst.
      inversion H1 as [? ? X|? ? ? ? ? X|? ? X|? ? X]; subst; try discriminate X. reflexivity.
    + subst r. apply (cp_run fuel cf md s u (mkContainer [] [] []) (Ok (u, mkContainer [] [] []))); [exact E|]. apply tr_done. reflexivity.
Qed.

Lemma map_zeros n : map (fun _ : F K => f0) (repeat f0 n) = repeat (f0 : F K) n.
Proof. induction n as [|n IH]; [reflexivity|]. cbn [repeat map]. rewrite IH. reflexivity. Qed.

Lemma empty_finish (md : mcdata K) dom k n s : (ei_policy (mc_exec md) = Sequential \/ ei_policy (mc_exec md) = Rayon) ->
  sp_standard (mc_params md) = true \/ sp_n_groups (mc_params md) <> 0 -> empty_after md dom k s ->
  exists s1, finish_cycle md n s = Ok s1 /\ empty_after md dom (S k) s1.
Proof.
  intros Hp Hg (D & B & Fl & C & Rb & L & Rp).
  assert (G : exists fl, (if sp_standard (mc_params md) then Ok (rs_fluence (s_results s))
            else fluence_compute (sp_n_groups (mc_params md)) (rs_fluence (s_results s)) (m_flux (u_mem (s_unit s)))) = Ok fl).
  { destruct (sp_standard (mc_params md)); [eexists; reflexivity|]. destruct Hg as [X|X]; [discriminate X|]. unfold fluence_compute.
    apply N.eqb_neq in X. rewrite X. cbn [negb rassert rbind]. eexists. reflexivity. }
  destruct G as (fl & G).
  assert (M : exists s1, (let u := s_unit s in
      let b := bset (u_balance u) EEnd (N.of_nat (List.length (processed (s_cont s)))) in
      let rep := mkReport (n - 1) b (fsum (m_flux (u_mem u))) in
      do (u, rs) <- update_stats md (mkUnit (u_domain u) b (u_mem u) (u_weight u)) (s_results s) ;
      do rs <- update_spectrum md (s_cont s) rs ;
      Ok (mkSim u (s_cont s) rs (s_source_weight s) (s_global_n s) (s_reports s ++ [rep]))) = Ok s1 /\ empty_after md dom (S k) s1).
  { cbv zeta. unfold update_stats. cbn [u_mem]. rewrite G, C, B. cbn [rbind processed List.length]. unfold update_spectrum. cbn [processing processed rfold rbind].
    assert (Z : forall sp fl', empty_after md dom (S k) (mkSim (cycle_finalize (mkUnit (u_domain (s_unit s)) (bset balance_zero EEnd (N.of_nat 0)) (u_mem (s_unit s)) (u_weight (s_unit s))))
        (mkContainer [] [] []) (mkResults (badd (rs_balance (s_results s)) (bset balance_zero EEnd (N.of_nat 0))) fl' sp) (s_source_weight s) (s_global_n s)
        (s_reports s ++ [mkReport (n - 1) (bset balance_zero EEnd (N.of_nat 0)) (fsum (m_flux (u_mem (s_unit s))))]))).
    { intros sp fl'. unfold empty_after, cycle_finalize. cbn [s_unit u_domain u_balance u_mem m_flux s_cont s_results rs_balance s_reports].
      split; [exact D|]. split; [reflexivity|]. split; [rewrite Fl; apply map_zeros|].
      split; [reflexivity|]. split; [rewrite Rb; reflexivity|]. split; [rewrite app_length; cbn [List.length]; lia|].
      apply Forall_app. split; [exact Rp|]. constructor; [|constructor]. split; [reflexivity|]. cbn [rp_flux]. rewrite Fl. reflexivity. }
    destruct (sp_spectrum (mc_params md)); cbn [rbind]; eexists; (split; [reflexivity|apply Z]). }
  destruct M as (s1 & E1 & E2). exists s1. split; [|exact E2]. unfold finish_cycle. destruct Hp as [-> | ->]; exact E1.
Qed.

Lemma empty_sync (md : mcdata K) dom n s : (ei_policy (mc_exec md) = Sequential \/ ei_policy (mc_exec md) = Rayon) ->
  sp_standard (mc_params md) = true \/ sp_n_groups (mc_params md) <> 0 -> sources_nobody md dom ->
  n <= sp_n_steps (mc_params md) -> empty_after md dom (N.to_nat (N.pred n)) s ->
  exists s1, cycle_sync md n s = Ok s1 /\ empty_after md dom (N.to_nat n) s1 /\ source_ready md dom s1.
Proof.
  intros Hp Hg He Hle I. unfold cycle_sync. destruct (N.eqb_spec n 0) as [Z|Z].
  - subst n. destruct (empty_prepare md dom _ s He I) as (s1 & E & X). exists s1. split; [exact E|exact X].
  - destruct (empty_finish md dom _ n s Hp Hg I) as (s2 & E2 & I2). rewrite E2. cbn [rbind].
    destruct (N.eqb_spec n (sp_n_steps (mc_params md) + 1)) as [X|_]; [lia|].
    replace (S (N.to_nat (N.pred n))) with (N.to_nat n) in I2 by lia.
    destruct (empty_prepare md dom _ s2 He I2) as (s1 & E & X). exists s1. split; [exact E|exact X].
Qed.

Lemma empty_steps fuel cf (md : mcdata K) dom : (ei_policy (mc_exec md) = Sequential \/ ei_policy (mc_exec md) = Rayon) ->
  sp_standard (mc_params md) = true \/ sp_n_groups (mc_params md) <> 0 -> sources_nobody md dom ->
  forall n, n <= sp_n_steps (mc_params md) -> exists s, empty_after md dom (N.to_nat (N.pred n)) s /\ forall r, run_steps fuel cf md (initial_sim md dom) n r <-> r = Ok s.
Proof.
  intros Hp Hg He n. induction n as [|n IH] using N.peano_ind; intros Hle.
  - exists (initial_sim md dom). split.
    + unfold empty_after, initial_sim. cbn [s_unit u_domain u_balance u_mem m_flux s_cont s_results rs_balance s_reports].
      repeat split; constructor.
    + intros r. split; intros H; [|subst; constructor]. inversion H; [reflexivity|exfalso; lia|exfalso; lia|exfalso; lia].
  - destruct IH as (s & I & U); [lia|]. destruct (empty_sync md dom n s Hp Hg He ltac:(lia) I) as (s1 & E1 & I1 & W1).
    destruct (empty_process fuel cf md dom _ s1 He I1 W1) as (s2 & I2 & U2). exists s2. rewrite N.pred_succ. split; [exact I2|].
    intros r. split; intros H.
    + inversion H as [X|n0 s0 s3 r0 H0 E0 C0 X|n0 s0 H0 E0 X|n0 r0 H0 E0 X]; [exfalso; lia| | |]; apply N.succ_inj in X; subst n0.
      * apply U in H0. apply Ok_inj in H0. subst s0. rewrite E1 in E0. apply Ok_inj in E0. subst s3. apply U2. exact C0.
      * apply U in H0. apply Ok_inj in H0. subst s0. rewrite E1 in E0. discriminate E0.
      * apply U in H0. subst r0. destruct E0 as [E0|E0]; rewrite E0 in H0; discriminate H0.
    + eapply rs_succ; [apply U; reflexivity|exact E1|]. apply U2. exact H.
Qed.

Lemma empty_run fuel cf (md : mcdata K) dom : (ei_policy (mc_exec md) = Sequential \/ ei_policy (mc_exec md) = Rayon) ->
  sp_standard (mc_params md) = true \/ sp_n_groups (mc_params md) <> 0 -> sources_nobody md dom ->
  exists s, empty_after md dom (N.to_nat (sp_n_steps (mc_params md))) s /\ forall r, core_loop fuel cf md (initial_sim md dom) r <-> r = Ok s.
Proof.
  intros Hp Hg He. destruct (empty_steps fuel cf md dom Hp Hg He _ (N.le_refl _)) as (s & I & U).
  destruct (empty_sync md dom _ s Hp Hg He (N.le_refl _) I) as (s1 & E1 & I1 & _). exists s1. split; [exact I1|].
  intros r. split; intros H.
  - inversion H as [r0 _ H0 X|X]; subst.
    + apply U in H0. subst r0. exact E1.
    + destruct Hp as [Hp|Hp], X as [X|X]; rewrite Hp in X; discriminate X.
  - subst r. rewrite <- E1. change (cycle_sync md (sp_n_steps (mc_params md)) s) with (do s <- Ok s ; cycle_sync md (sp_n_steps (mc_params md)) s).
    apply cl_run; [exact Hp|]. apply U. reflexivity.
Qed.
End Any.
