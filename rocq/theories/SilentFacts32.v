(** Problems without a source, in binary32: the first cycle panics. *)
From Coq Require Import String NArith ZArith QArith Reals Lia Lra List Bool.
From Flocq Require Import Core IEEE754.BinarySingleNaN.
From Verif Require Import Float RngModel RngIeee Ieee SingleModel ParticleModel NuclearModel MeshTypes Balance TrackModel CycleModel SilentSpec32 TrackAccount AssignLemmas SegmentFacts.
Import ListNotations.
Local Open Scope N_scope.

Section Lib.
Variable lm : libm32.
Notation K := (f32ops lm).

(** ** Zeros *)
Lemma zero_mul_l (x y : f32) : is_zero32 x = true -> is_finite y = true -> is_zero32 (fmul32 x y) = true.
Proof. destruct x; try discriminate. destruct y; try discriminate; reflexivity. Qed.
Lemma zero_mul_r (x y : f32) : is_finite x = true -> is_zero32 y = true -> is_zero32 (fmul32 x y) = true.
Proof. destruct y; try discriminate. destruct x; try discriminate; reflexivity. Qed.
Lemma zero_add (x y : f32) : is_zero32 x = true -> is_zero32 y = true -> is_zero32 (fadd32 x y) = true.
Proof. destruct x as [[]| | |]; try discriminate; destruct y as [[]| | |]; try discriminate; reflexivity. Qed.
Definition zero_or_nan (x : f32) : bool := match x with B754_zero _ | B754_nan => true | _ => false end.
Lemma zero_div (x y : f32) : is_zero32 x = true -> zero_or_nan (fdiv32 x y) = true.
Proof. destruct x; try discriminate. destruct y; reflexivity. Qed.
Lemma zero_div_nan (x y : f32) : is_zero32 x = true -> zero_or_nan y = true -> fdiv32 x y = B754_nan.
Proof. destruct x; try discriminate. destruct y; try discriminate; reflexivity. Qed.
Lemma zero_sum (l : list (F K)) : forall a : F K, is_zero32 a = true -> Forall (fun x : F K => is_zero32 x = true) l -> is_zero32 (fold_left fadd l a) = true.
Proof.
  induction l as [|x l IH]; intros a Ha H; [exact Ha|]. cbn [fold_left]. inversion H; subst. apply IH; [|assumption]. apply zero_add; assumption.
Qed.

(** ** Weights *)
Lemma rates_of (md : mcdata K) : materials_named md -> exists rates, source_rates md = Ok rates /\
  forall i mat mp, nth_error (td_mats (mc_track md)) i = Some mat -> map_index (mc_material_params md) (mat_name mat) = Ok mp ->
    nth_error rates i = Some (mp_source_rate mp).
Proof.
  unfold materials_named, source_rates. generalize (td_mats (mc_track md)). intros l. induction l as [|mat l IH]; intros H.
  - exists []. split; [reflexivity|]. intros [|i]; discriminate.
  - inversion H as [|a b (mp & E) H2]; subst. destruct (IH H2) as (rates & Er & Hr). exists (mp_source_rate mp :: rates). cbn [rmap]. rewrite E. cbn [rbind]. rewrite Er. cbn [rbind].
    split; [reflexivity|]. intros [|i] mat' mp' E1 E2; cbn [nth_error] in E1 |- * .
    + injection E1; intros; subst. rewrite E in E2. apply Ok_inj in E2. congruence.
    + exact (Hr i mat' mp' E1 E2).
Qed.

Lemma silent_cell (md : mcdata K) rates cs : source_rates md = Ok rates ->
  (forall i mat mp, nth_error (td_mats (mc_track md)) i = Some mat -> map_index (mc_material_params md) (mat_name mat) = Ok mp -> nth_error rates i = Some (mp_source_rate mp)) ->
  emits_nothing md cs -> exists rate, vec_get rates (cs_material cs) = Ok rate /\ is_zero32 (fmul (fmul (cs_volume cs) rate) (td_dt (mc_track md)) : F K) = true.
Proof.
  intros _ Hr (mat & mp & E1 & E2 & Fv & Fr & Fd & Fp & Z). exists (mp_source_rate mp). split.
  - unfold vec_get. rewrite (Hr _ _ _ E1 E2). reflexivity.
  - destruct Z as [Z|Z].
    + apply zero_mul_l; [|exact Fd]. apply zero_mul_r; assumption.
    + apply zero_mul_r; assumption.
Qed.

Lemma silent_weight (md : mcdata K) (dom : domain K) : materials_named md -> Forall (emits_nothing md) (d_cells dom) ->
  exists w, unit_weight md dom = Ok w /\ is_zero32 (w : F K) = true.
Proof.
  intros Hm H. destruct (rates_of md Hm) as (rates & Er & Hr). unfold unit_weight. rewrite Er. cbn [rbind].
  assert (G : exists ws, rmap (fun cs => do rate <- vec_get rates (cs_material cs) ; Ok (fmul (fmul (cs_volume cs) rate) (td_dt (mc_track md)))) (d_cells dom) = Ok ws /\
    Forall (fun x : F K => is_zero32 x = true) ws).
  { induction (d_cells dom) as [|cs l IH]; [exists []; split; [reflexivity|constructor]|]. inversion H; subst.
    destruct (silent_cell md rates cs Er Hr) as (rate & E & Z); [assumption|]. destruct IH as (ws & Ew & Hw); [assumption|].
    cbn [rmap]. rewrite E. cbn [rbind]. rewrite Ew. cbn [rbind]. eexists. split; [reflexivity|]. constructor; assumption. }
  destruct G as (ws & Ew & Hw). rewrite Ew. cbn [rbind]. eexists. split; [reflexivity|]. unfold fsum. apply zero_sum; [reflexivity|exact Hw].
Qed.

(** ** The source *)
Lemma silent_source (md : mcdata K) u c (w : F K) : materials_named md -> Forall (emits_nothing md) (d_cells (u_domain u)) -> d_cells (u_domain u) <> [] ->
  zero_or_nan w = true -> source_now md w u c = Panic.
Proof.
  intros Hm H Hne Hw. destruct (rates_of md Hm) as (rates & Er & Hr). unfold source_now. rewrite Er. cbn [rbind].
  destruct (d_cells (u_domain u)) as [|cs l]; [contradiction|]. inversion H; subst. cbn [source_cells].
  destruct (silent_cell md rates cs Er Hr) as (rate & E & Z); [assumption|]. unfold cell_n_particles. rewrite E. cbn [rbind].
  assert (En : fdiv (fmul (fmul (cs_volume cs) rate) (td_dt (mc_track md))) w = (B754_nan : F K)) by exact (zero_div_nan _ _ Z Hw).
  cbv zeta. rewrite En. reflexivity.
Qed.

Lemma silent_prepare (md : mcdata K) (s : sim K) : materials_named md -> Forall (emits_nothing md) (d_cells (u_domain (s_unit s))) ->
  prepare_cycle md s = Panic \/ exists s1, prepare_cycle md s = Ok s1 /\ u_domain (s_unit s1) = u_domain (s_unit s) /\ zero_or_nan (s_source_weight s1) = true.
Proof.
  intros Hm H. unfold prepare_cycle. destruct (silent_weight md _ Hm H) as (w & Ew & Zw). rewrite Ew. cbn [rbind]. cbv zeta.
  destruct (fto_usize _) as [n|]; cbn [unwrap rbind]; [|left; reflexivity]. right. eexists. split; [reflexivity|]. split; [reflexivity|].
  cbn [s_source_weight]. apply zero_div. apply zero_add; [reflexivity|exact Zw].
Qed.

(** ** Runs *)
Lemma silent_steps fuel cf (md : mcdata K) dom : materials_named md -> Forall (emits_nothing md) (d_cells dom) -> d_cells dom <> [] ->
  forall n r, run_steps fuel cf md (initial_sim md dom) n r -> n <> 0 -> r = Panic.
Proof.
  intros Hm He Hne n r H. induction H as [|n s s1 r H IH E C|n s H IH E|n r H IH E]; intros Hn.
  - contradiction.
  - destruct (N.eq_dec n 0) as [->|N0]; [|discriminate (IH N0)].
    assert (Es : s = initial_sim md dom) by (inversion H; [reflexivity|exfalso; lia|exfalso; lia]). subst s.
    change (cycle_sync md 0 (initial_sim md dom)) with (prepare_cycle md (initial_sim md dom)) in E.
    destruct (silent_prepare md (initial_sim md dom) Hm He) as [P|(s2 & P & D & W)]; [rewrite P in E; discriminate E|].
    rewrite P in E. apply Ok_inj in E. subst s2.
    assert (Pp : population_phase md s1 = Panic).
    { unfold population_phase. cbv zeta. rewrite silent_source; [reflexivity|exact Hm|rewrite D; exact He|rewrite D; exact Hne|exact W]. }
    inversion C; subst; congruence.
  - reflexivity.
  - destruct (N.eq_dec n 0) as [->|N0]; [|exact (IH N0)].
    inversion H; subst; destruct E as [E|E]; try discriminate E; exfalso; lia.
Qed.

Lemma silent_panic_run fuel cf (md : mcdata K) dom : materials_named md -> Forall (emits_nothing md) (d_cells dom) -> d_cells dom <> [] ->
  forall n, n <> 0 -> run_steps fuel cf md (initial_sim md dom) n Panic.
Proof.
  intros Hm He Hne n. induction n as [|n IH] using N.peano_ind; intros Hn; [contradiction|]. destruct (N.eq_dec n 0) as [Z|N0].
  - subst n. destruct (silent_prepare md (initial_sim md dom) Hm He) as [P|(s2 & P & D & W)].
    + eapply rs_sync_panic; [apply rs_zero|exact P].
    + eapply rs_succ; [apply rs_zero|exact P|]. apply cp_panic. unfold population_phase. cbv zeta.
      rewrite silent_source; [reflexivity|exact Hm|rewrite D; exact He|rewrite D; exact Hne|exact W].
  - apply rs_propagate; [apply IH; exact N0|left; reflexivity].
Qed.

Lemma silent_run fuel cf (md : mcdata K) dom r : materials_named md -> Forall (emits_nothing md) (d_cells dom) -> d_cells dom <> [] ->
  sp_n_steps (mc_params md) <> 0 -> (core_loop fuel cf md (initial_sim md dom) r <-> r = Panic).
Proof.
  intros Hm He Hne Hn. split; intros H.
  - inversion H as [r0 Hp Hs|Hp]; subst; [|reflexivity].
    rewrite (silent_steps fuel cf md dom Hm He Hne _ _ Hs Hn). reflexivity.
  - subst r. destruct (ei_policy (mc_exec md)) eqn:Ep; try (apply cl_todo; rewrite Ep; tauto).
    all: apply (cl_run fuel cf md (initial_sim md dom) Panic); [rewrite Ep; tauto|]; apply silent_panic_run; assumption.
Qed.
End Lib.
