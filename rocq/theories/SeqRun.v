(** A computable run: the functions below compute the run of the model under the sequential
    policy, and are shown to be runs of [CycleModel.core_loop].  They serve to exhibit concrete runs. *)
From Coq Require Import NArith QArith List Bool String.
From Verif Require Import Float RngModel ParticleModel NuclearModel MeshTypes Balance TrackModel CycleModel.
Import ListNotations.
Local Open Scope N_scope.

Section SeqRun.
Context {K : FloatOps}.

(** [process_particles] (particle_container.rs lines 91-165) under the sequential policy. *)
Definition seq_process (fuel cfuel : nat) (md : mcdata K) (u : unit_state K) (c : container K)
  : result (unit_state K * container K) :=
  do (s, m) <- run_seq (sp_n_groups (mc_params md))
                 (track_slice fuel cfuel (mc_track md) (u_domain u) (processing c) balance_zero (extra_particles c))
                 (u_mem u) ;
  let '(ps, b, extra) := s in
  Ok (mkUnit (u_domain u) (badd (u_balance u) b) m (u_weight u), finish_processing c ps extra).

(** main.rs lines 328-341; [rounds] bounds the number of rounds. *)
Fixpoint seq_rounds (rounds fuel cfuel : nat) (md : mcdata K) (u : unit_state K) (c : container K)
  : result (unit_state K * container K) :=
  if is_done_processing c then Ok (u, c) else
  match rounds with
  | O => NoFuel
  | S rounds =>
      do (u, c) <- seq_process fuel cfuel md u (sort_processing c) ;
      seq_rounds rounds fuel cfuel md u (clean_extra_vaults c)
  end.

(** main.rs lines 291-344. *)
Definition seq_cycle_process (rounds fuel cfuel : nat) (md : mcdata K) (s : sim K) : result (sim K) :=
  do (u, c) <- population_phase md s ;
  do (u, c) <- seq_rounds rounds fuel cfuel md u c ;
  Ok (mkSim u c (s_results s) (s_source_weight s) (s_global_n s) (s_reports s)).

(** main.rs lines 121-130. *)
Fixpoint seq_steps (rounds fuel cfuel : nat) (md : mcdata K) (s0 : sim K) (n : nat) : result (sim K) :=
  match n with
  | O => Ok s0
  | S n =>
      do s <- seq_steps rounds fuel cfuel md s0 n ;
      do s <- cycle_sync md (N.of_nat n) s ;
      seq_cycle_process rounds fuel cfuel md s
  end.

(** main.rs lines 116-143. *)
Definition seq_core_loop (rounds fuel cfuel : nat) (md : mcdata K) (s0 : sim K) : result (sim K) :=
  do s <- seq_steps rounds fuel cfuel md s0 (N.to_nat (sp_n_steps (mc_params md))) ;
  cycle_sync md (sp_n_steps (mc_params md)) s.

Lemma seq_rounds_sound : forall rounds fuel cfuel md u c r,
  ei_policy (mc_exec md) = Sequential ->
  seq_rounds rounds fuel cfuel md u c = Ok r -> tracking_rounds fuel cfuel md u c (Ok r).
Proof.
  induction rounds as [|rounds IH]; intros fuel cfuel md u c r Hs H; cbn [seq_rounds] in H;
    destruct (is_done_processing c) eqn:E; try discriminate;
    try (injection H as <-; apply tr_done; exact E).
  destruct (seq_process fuel cfuel md u (sort_processing c)) as [[u' c']| |] eqn:Ep; try discriminate.
  cbn [rbind] in H.
  apply tr_more with (u' := u') (c' := c'); [exact E| |exact (IH _ _ _ _ _ _ Hs H)].
  rewrite <- Ep. unfold seq_process. apply pp_seq; [left; exact Hs|reflexivity].
Qed.

Lemma seq_cycle_process_sound : forall rounds fuel cfuel md s r,
  ei_policy (mc_exec md) = Sequential ->
  seq_cycle_process rounds fuel cfuel md s = Ok r -> cycle_process fuel cfuel md s (Ok r).
Proof.
  intros rounds fuel cfuel md s r Hs H. unfold seq_cycle_process in H.
  destruct (population_phase md s) as [[u c]| |] eqn:E; try discriminate. cbn [rbind] in H.
  destruct (seq_rounds rounds fuel cfuel md u c) as [[u' c']| |] eqn:Er; try discriminate.
  rewrite <- H.
  exact (cp_run fuel cfuel md s u c (Ok (u', c')) E (seq_rounds_sound _ _ _ _ _ _ _ Hs Er)).
Qed.

Lemma seq_steps_sound : forall rounds fuel cfuel md s0 n r,
  ei_policy (mc_exec md) = Sequential ->
  seq_steps rounds fuel cfuel md s0 n = Ok r -> run_steps fuel cfuel md s0 (N.of_nat n) (Ok r).
Proof.
  intros rounds fuel cfuel md s0 n; induction n as [|n IH]; intros r Hs H; cbn [seq_steps] in H.
  - injection H as <-. apply rs_zero.
  - destruct (seq_steps rounds fuel cfuel md s0 n) as [s| |] eqn:E; try discriminate. cbn [rbind] in H.
    destruct (cycle_sync md (N.of_nat n) s) as [s1| |] eqn:Es; try discriminate. cbn [rbind] in H.
    rewrite Nat2N.inj_succ.
    exact (rs_succ fuel cfuel md s0 (N.of_nat n) s s1 (Ok r) (IH s Hs eq_refl) Es
             (seq_cycle_process_sound _ _ _ _ _ _ Hs H)).
Qed.

Theorem seq_core_loop_sound : forall rounds fuel cfuel md s0 r,
  ei_policy (mc_exec md) = Sequential ->
  seq_core_loop rounds fuel cfuel md s0 = Ok r -> core_loop fuel cfuel md s0 (Ok r).
Proof.
  intros rounds fuel cfuel md s0 r Hs H. unfold seq_core_loop in H.
  destruct (seq_steps rounds fuel cfuel md s0 (N.to_nat (sp_n_steps (mc_params md)))) as [s| |] eqn:E; try discriminate.
  cbn [rbind] in H. rewrite <- H.
  apply (cl_run fuel cfuel md s0 (Ok s)); [left; exact Hs|].
  rewrite <- (N2Nat.id (sp_n_steps (mc_params md))).
  exact (seq_steps_sound _ _ _ _ _ _ _ Hs E).
Qed.

End SeqRun.
