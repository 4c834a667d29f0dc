(** No particles requested, in binary32: every cycle is empty. *)
From Coq Require Import String NArith ZArith QArith Reals Lia Lra List Bool.
From Flocq Require Import Core IEEE754.BinarySingleNaN.
From Verif Require Import Float RngModel RngIeee Ieee SingleModel ParticleModel NuclearModel MeshTypes Balance TrackModel CycleModel SilentSpec32 SilentFacts32 TrackAccount AssignLemmas SegmentFacts.
Import ListNotations.
Local Open Scope N_scope.

Section Lib.
Variable lm : libm32.
Notation K := (f32ops lm).

Lemma spawn_zero : fmul (src_fraction (K := K)) (fof_N 0) = (B754_zero false : F K).
Proof. apply (B2SF_inj 24 128). vm_compute. reflexivity. Qed.
Lemma weight_inf (w : F K) : flt f0 w = true -> fdiv (fadd f0 w) (B754_zero false : F K) = (B754_infinity false : F K).
Proof.
  intros H. change (fdiv32 (fadd32 (B754_zero false) w) (B754_zero false) = B754_infinity false). change (Bltb (B754_zero false) (w : f32) = true) in H.
  destruct (w : f32) as [[]|[]| |[] m e Hb]; try discriminate H; reflexivity.
Qed.
Lemma over_inf (x : F K) : is_finite (x : f32) = true -> unwrap (fto_usize (ffloor (fdiv x (B754_infinity false : F K)))) = Ok 0.
Proof. destruct (x : f32) as [[]| | |[] m e Hb]; try discriminate; intros _; vm_compute; reflexivity. Qed.

Lemma idle_cells (md : mcdata K) rates dom l : forall i,
  Forall (fun cs => exists rate, vec_get rates (cs_material cs) = Ok rate /\ is_finite (fmul (fmul (cs_volume cs) rate) (td_dt (mc_track md)) : F K) = true) l ->
  source_cells md (B754_infinity false : F K) rates dom i l = Ok (l, 0, []).
Proof.
  induction l as [|cs l IH]; intros i H; [reflexivity|]. inversion H as [|a b (rate & E & Hf) H2]; subst. cbn [source_cells]. unfold cell_n_particles. rewrite E. cbn [rbind].
  cbv zeta. rewrite (over_inf _ Hf). cbn [rbind]. change (N.to_nat 0) with 0%nat. cbn [source_seeds rmap rbind]. rewrite IH; [|exact H2]. cbn [rbind app].
  rewrite !N.add_0_r. destruct cs; reflexivity.
Qed.

Lemma idle_prepare (md : mcdata K) dom k s : has_source md dom -> sp_n_particles (mc_params md) = 0 -> idle md dom k s ->
  exists s1, prepare_cycle md s = Ok s1 /\ idle md dom k s1 /\ s_source_weight s1 = B754_infinity false /\ s_global_n s1 = 0.
Proof.
  intros (rates & w & Er & Ew & Hw & _) Hn (D & B & Fl & C & Rb & L & Rp). unfold prepare_cycle. rewrite D, Ew, C, B, Hn. cbn [rbind]. cbv zeta.
  rewrite spawn_zero. change (fto_usize (B754_zero false : F K)) with (Some 0). cbn [unwrap rbind].
  eexists. split; [reflexivity|]. split; [|split; [cbn [s_source_weight]; apply weight_inf; exact Hw|reflexivity]].
  unfold idle. cbn. repeat split; assumption || reflexivity.
Qed.

Lemma nan_factor : fdiv (fof_N 0) (fof_N 0) = (B754_nan : F K).
Proof. apply (B2SF_inj 24 128). vm_compute. reflexivity. Qed.
Lemma nan_lt : flt (B754_nan : F K) f1 = false. Proof. vm_compute. reflexivity. Qed.
Lemma nan_gt : flt f1 (B754_nan : F K) = false. Proof. vm_compute. reflexivity. Qed.
Lemma one_lt : flt (f1 : F K) f1 = false. Proof. vm_compute. reflexivity. Qed.

Lemma idle_phase (md : mcdata K) dom k s : has_source md dom -> sp_n_particles (mc_params md) = 0 -> idle md dom k s ->
  s_source_weight s = B754_infinity false -> s_global_n s = 0 ->
  exists u, population_phase md s = Ok (u, mkContainer [] [] []) /\ u_domain u = dom /\ u_balance u = balance_zero /\ u_mem u = u_mem (s_unit s).
Proof.
  intros (rates & w & Er & Ew & Hw & Hc) Hn (D & B & Fl & C & Rb & L & Rp) W G. unfold population_phase. cbv zeta. unfold source_now. rewrite Er, W, C, D. cbn [rbind].
  rewrite (idle_cells md rates dom _ 0 Hc). cbn [rbind processing app List.length]. unfold compute_split_factor. rewrite Hn, G.
  assert (Es : set_cells dom (d_cells dom) = dom) by (destruct dom; reflexivity). rewrite Es, B.
  destruct (sp_load_balance (mc_params md)).
  - cbn [N.of_nat N.eqb negb rbind]. rewrite one_lt. eexists. repeat split; reflexivity.
  - cbn [rbind]. rewrite nan_factor, nan_lt, nan_gt. eexists. repeat split; reflexivity.
Qed.

Lemma idle_process fuel cf (md : mcdata K) dom k s : has_source md dom -> sp_n_particles (mc_params md) = 0 -> idle md dom k s ->
  s_source_weight s = B754_infinity false -> s_global_n s = 0 ->
  exists s1, idle md dom k s1 /\ forall r, cycle_process fuel cf md s r <-> r = Ok s1.
Proof.
  intros He Hn I W G. destruct (idle_phase md dom k s He Hn I W G) as (u & E & Du & Bu & Mu). destruct I as (D & B & Fl & C & Rb & L & Rp).
  exists (mkSim u (mkContainer [] [] []) (s_results s) (s_source_weight s) (s_global_n s) (s_reports s)). split.
  - unfold idle. cbn. rewrite Mu. repeat split; assumption || reflexivity.
  - intros r. split; intros H.
    + inversion H as [u1 c1 r1 E1 H1|E1|E1]; subst; rewrite E in E1; [|discriminate E1|discriminate E1]. apply Ok_inj in E1. injection E1; intros; subst.
      inversion H1 as [? ? X|? ? ? ? ? X|? ? X|? ? X]; subst; try discriminate X. reflexivity.
    + subst r. apply (cp_run fuel cf md s u (mkContainer [] [] []) (Ok (u, mkContainer [] [] []))); [exact E|]. apply tr_done. reflexivity.
Qed.

Lemma zeros_sum (l : list (F K)) : Forall (fun x => x = f0) l -> fsum l = (f0 : F K).
Proof.
  unfold fsum. intros H. induction l as [|x l IH]; [reflexivity|]. inversion H; subst. cbn [fold_left]. change (fadd (f0 : F K) f0) with (f0 : F K). apply IH; assumption.
Qed.

Lemma idle_finish (md : mcdata K) dom k n s : (ei_policy (mc_exec md) = Sequential \/ ei_policy (mc_exec md) = Rayon) ->
  sp_standard (mc_params md) = true \/ sp_n_groups (mc_params md) <> 0 -> idle md dom k s ->
  exists s1, finish_cycle md n s = Ok s1 /\ idle md dom (S k) s1.
Proof.
  intros Hp Hg (D & B & Fl & C & Rb & L & Rp).
  assert (G : exists fl, (if sp_standard (mc_params md) then Ok (rs_fluence (s_results s))
            else fluence_compute (sp_n_groups (mc_params md)) (rs_fluence (s_results s)) (m_flux (u_mem (s_unit s)))) = Ok fl).
  { destruct (sp_standard (mc_params md)); [eexists; reflexivity|]. destruct Hg as [X|X]; [discriminate X|]. unfold fluence_compute.
    apply N.eqb_neq in X. rewrite X. cbn [negb rassert rbind]. eexists. reflexivity. }
  destruct G as (fl & G).
  assert (M : exists s1, (let u := s_unit s in
      let b := bset (u_balance u) EEnd (N.of_nat (List.length (processed (s_cont s)))) in
      let rep := mkReport (n - 1) b (fsum (m_flux (u_mem u))) in
      do (u, rs) <- update_stats md (mkUnit (u_domain u) b (u_mem u) (u_weight u)) (s_results s) ;
      do rs <- update_spectrum md (s_cont s) rs ;
      Ok (mkSim u (s_cont s) rs (s_source_weight s) (s_global_n s) (s_reports s ++ [rep]))) = Ok s1 /\ idle md dom (S k) s1).
  { cbv zeta. unfold update_stats. cbn [u_mem]. rewrite G, C, B. cbn [rbind processed List.length]. unfold update_spectrum. cbn [processing processed rfold rbind].
    assert (Z : forall sp fl', idle md dom (S k) (mkSim (cycle_finalize (mkUnit (u_domain (s_unit s)) (bset balance_zero EEnd (N.of_nat 0)) (u_mem (s_unit s)) (u_weight (s_unit s))))
        (mkContainer [] [] []) (mkResults (badd (rs_balance (s_results s)) (bset balance_zero EEnd (N.of_nat 0))) fl' sp) (s_source_weight s) (s_global_n s)
        (s_reports s ++ [mkReport (n - 1) (bset balance_zero EEnd (N.of_nat 0)) (fsum (m_flux (u_mem (s_unit s))))]))).
    { intros sp fl'. unfold idle, cycle_finalize. cbn [s_unit u_domain u_balance u_mem m_flux s_cont s_results rs_balance s_reports].
      split; [exact D|]. split; [reflexivity|]. split.
      { apply Forall_forall. intros x Hx. apply in_map_iff in Hx. destruct Hx as (y & <- & _). reflexivity. }
      split; [reflexivity|]. split; [rewrite Rb; reflexivity|]. split; [rewrite app_length; cbn [List.length]; lia|].
      apply Forall_app. split; [exact Rp|]. constructor; [|constructor]. split; [reflexivity|]. cbn [rp_flux]. apply zeros_sum. exact Fl. }
    destruct (sp_spectrum (mc_params md)); cbn [rbind]; eexists; (split; [reflexivity|apply Z]). }
  destruct M as (s1 & E1 & E2). exists s1. split; [|exact E2]. unfold finish_cycle. destruct Hp as [-> | ->]; exact E1.
Qed.

Lemma idle_sync (md : mcdata K) dom n s : (ei_policy (mc_exec md) = Sequential \/ ei_policy (mc_exec md) = Rayon) ->
  sp_standard (mc_params md) = true \/ sp_n_groups (mc_params md) <> 0 -> has_source md dom -> sp_n_particles (mc_params md) = 0 ->
  n <= sp_n_steps (mc_params md) -> idle md dom (N.to_nat (N.pred n)) s ->
  exists s1, cycle_sync md n s = Ok s1 /\ idle md dom (N.to_nat n) s1 /\ s_source_weight s1 = B754_infinity false /\ s_global_n s1 = 0.
Proof.
  intros Hp Hg He Hn Hle I. unfold cycle_sync. destruct (N.eqb_spec n 0) as [Z|Z].
  - subst n. destruct (idle_prepare md dom _ s He Hn I) as (s1 & E & X). exists s1. split; [exact E|exact X].
  - destruct (idle_finish md dom _ n s Hp Hg I) as (s2 & E2 & I2). rewrite E2. cbn [rbind].
    destruct (N.eqb_spec n (sp_n_steps (mc_params md) + 1)) as [X|_]; [lia|].
    replace (S (N.to_nat (N.pred n))) with (N.to_nat n) in I2 by lia.
    destruct (idle_prepare md dom _ s2 He Hn I2) as (s1 & E & X). exists s1. split; [exact E|exact X].
Qed.

Lemma idle_steps fuel cf (md : mcdata K) dom : (ei_policy (mc_exec md) = Sequential \/ ei_policy (mc_exec md) = Rayon) ->
  sp_standard (mc_params md) = true \/ sp_n_groups (mc_params md) <> 0 -> has_source md dom -> sp_n_particles (mc_params md) = 0 ->
  forall n, n <= sp_n_steps (mc_params md) -> exists s, idle md dom (N.to_nat (N.pred n)) s /\ forall r, run_steps fuel cf md (initial_sim md dom) n r <-> r = Ok s.
Proof.
  intros Hp Hg He Hn n. induction n as [|n IH] using N.peano_ind; intros Hle.
  - exists (initial_sim md dom). split.
    + unfold idle, initial_sim. cbn. split; [reflexivity|]. split; [reflexivity|]. split; [|repeat split; constructor].
      apply Forall_forall. intros x Hx. apply repeat_spec in Hx. exact Hx.
    + intros r. split; intros H; [|subst; constructor]. inversion H; [reflexivity|exfalso; lia|exfalso; lia|exfalso; lia].
  - destruct IH as (s & I & U); [lia|]. destruct (idle_sync md dom n s Hp Hg He Hn ltac:(lia) I) as (s1 & E1 & I1 & W1 & G1).
    destruct (idle_process fuel cf md dom _ s1 He Hn I1 W1 G1) as (s2 & I2 & U2). exists s2. rewrite N.pred_succ. split; [exact I2|].
    intros r. split; intros H.
    + inversion H as [X|n0 s0 s3 r0 H0 E0 C0 X|n0 s0 H0 E0 X|n0 r0 H0 E0 X]; [exfalso; lia| | |]; apply N.succ_inj in X; subst n0.
      * apply U in H0. apply Ok_inj in H0. subst s0. rewrite E1 in E0. apply Ok_inj in E0. subst s3. apply U2. exact C0.
      * apply U in H0. apply Ok_inj in H0. subst s0. rewrite E1 in E0. discriminate E0.
      * apply U in H0. subst r0. destruct E0 as [E0|E0]; rewrite E0 in H0; discriminate H0.
    + eapply rs_succ; [apply U; reflexivity|exact E1|]. apply U2. exact H.
Qed.

Lemma idle_run fuel cf (md : mcdata K) dom : (ei_policy (mc_exec md) = Sequential \/ ei_policy (mc_exec md) = Rayon) ->
  sp_standard (mc_params md) = true \/ sp_n_groups (mc_params md) <> 0 -> has_source md dom -> sp_n_particles (mc_params md) = 0 ->
  exists s, idle md dom (N.to_nat (sp_n_steps (mc_params md))) s /\ forall r, core_loop fuel cf md (initial_sim md dom) r <-> r = Ok s.
Proof.
  intros Hp Hg He Hn. destruct (idle_steps fuel cf md dom Hp Hg He Hn _ (N.le_refl _)) as (s & I & U).
  destruct (idle_sync md dom _ s Hp Hg He Hn (N.le_refl _) I) as (s1 & E1 & I1 & _). exists s1. split; [exact I1|].
  intros r. split; intros H.
  - inversion H as [r0 _ H0 X|X]; subst.
    + apply U in H0. subst r0. exact E1.
    + destruct Hp as [Hp|Hp], X as [X|X]; rewrite Hp in X; discriminate X.
  - subst r. rewrite <- E1. change (cycle_sync md (sp_n_steps (mc_params md)) s) with (do s <- Ok s ; cycle_sync md (sp_n_steps (mc_params md)) s).
    apply cl_run; [exact Hp|]. apply U. reflexivity.
Qed.
End Lib.
