(** Few particles, in exact arithmetic: when the share of every cell is below one, nothing is ever sourced. *)
From Coq Require Import String NArith ZArith QArith Reals Lia Lra List Bool.
From Flocq Require Import Core.
From Verif Require Import Float RngModel RealOps ParticleModel NuclearModel MeshTypes Balance TrackModel CycleModel PopSpec TrackAccount SourceCount AssignLemmas SegmentFacts PopLemmas PopDemo EmptySpec EmptyFacts.
Import ListNotations.
Local Open Scope N_scope.

Lemma rates_at (md : mcdata Rops) rates i mat mp : source_rates md = Ok rates -> nth_error (td_mats (mc_track md)) i = Some mat ->
  map_index (mc_material_params md) (mat_name mat) = Ok mp -> nth_error rates i = Some (mp_source_rate mp).
Proof.
  unfold source_rates. generalize (td_mats (mc_track md)). intros l. revert rates i. induction l as [|m l IH]; intros rates i H E1 E2; [destruct i; discriminate E1|].
  cbn [rmap] in H. destruct (map_index (mc_material_params md) (mat_name m)) as [mp'| |] eqn:Em; cbn [rbind] in H; [|discriminate H|discriminate H].
  match type of H with rbind ?x _ = _ => destruct x as [rs| |] eqn:Er end; cbn [rbind] in H; [|discriminate H|discriminate H]. apply Ok_inj in H. subst rates.
  destruct i as [|i]; cbn [nth_error] in E1 |- * .
  - injection E1; intros; subst. rewrite Em in E2. apply Ok_inj in E2. congruence.
  - exact (IH rs i eq_refl E1 E2).
Qed.

Lemma thin_source (md : mcdata Rops) dom (xs : list R) : materials_known md -> Forall2 (emits md) (d_cells dom) xs -> Forall (fun x => (0 <= x)%R) xs ->
  (0 < Rsum xs)%R -> 0 < sp_n_particles (mc_params md) < 2 ^ 64 ->
  Forall (fun x => (x * IZR (Z.of_N (sp_n_particles (mc_params md))) < 10 * Rsum xs)%R) xs -> sources_nobody md dom.
Proof.
  intros Hk Hx H0 Hs Hn Ht. destruct (rates_defined md Hk) as (rates & Er). destruct (unit_weight_defined md dom xs Hk Hx) as (w & Ew).
  assert (Ww : w = Rsum xs :> R) by (rewrite (unit_weight_is _ _ _ _ Ew Hx); apply fsum_Rsum).
  set (np := IZR (Z.of_N (sp_n_particles (mc_params md)))) in * .
  assert (P : (0 < np)%R) by (apply IZR_lt; lia). assert (Q : (np < IZR (2 ^ 64))%R) by (apply IZR_lt; lia).
  assert (B : exists n, fto_usize (fmul (src_fraction (K := Rops)) (fof_N (sp_n_particles (mc_params md)))) = Some n).
  { rewrite tenth. cbn [fto_usize Rops]. unfold Rto_usize. fold np.
    replace (Rltb _ _) with true; [|symmetry; apply Rltb_iff; lra].
    replace (Rltb _ (IZR (2 ^ 64))) with true; [|symmetry; apply Rltb_iff; lra]. eexists. reflexivity. }
  destruct B as (n & En). exists rates, w, n. split; [exact Er|]. split; [exact Ew|]. split; [exact En|].
  rewrite tenth. fold np.
  assert (G : forall cells ys, Forall2 (emits md) cells ys -> Forall (fun x => (0 <= x)%R) ys -> Forall (fun x => (x * np < 10 * Rsum xs)%R) ys ->
    Forall (fun cs => cell_n_particles md (fdiv (fadd (f0 : F Rops) w) ((np / 10)%R : F Rops)) rates cs = Ok 0) cells).
  { intros cells ys H; induction H as [|cs y cells ys (mat & mp & M1 & M2 & My) _ IH]; intros Y0 Y1; [constructor|].
    pose proof (Forall_inv Y0) as A0. pose proof (Forall_inv_tail Y0) as B0. pose proof (Forall_inv Y1) as A1. pose proof (Forall_inv_tail Y1) as B1. cbv beta in A0, A1. rewrite My in A0, A1. constructor; [|exact (IH B0 B1)].
    unfold cell_n_particles, vec_get. rewrite (rates_at md rates _ _ _ Er M1 M2). cbn [rbind unwrap]. cbv zeta.
    set (x := fmul (fmul (cs_volume cs) (mp_source_rate mp)) (td_dt (mc_track md)) : R) in * . change (0 <= x)%R in A0. change (x * np < 10 * Rsum xs)%R in A1.
    cbn [fto_usize ffloor fdiv fadd f0 Rops]. fold x.
    assert (Z0 : Zfloor (x / ((0 + w) / (np / 10))) = 0%Z).
    { rewrite Ww. replace (x / ((0 + Rsum xs) / (np / 10)))%R with (x * np / (10 * Rsum xs))%R by (field; lra).
      apply Zfloor_imp. split.
      - apply Rmult_le_pos; [apply Rmult_le_pos; lra|]. apply Rlt_le, Rinv_0_lt_compat. lra.
      - apply Rmult_lt_reg_r with (10 * Rsum xs)%R; [lra|]. unfold Rdiv. rewrite Rmult_assoc, Rinv_l by lra. change (IZR (0 + 1)) with 1%R. lra. }
    rewrite Z0. rewrite Rto_usize_Z by lia. reflexivity. }
  exact (G _ _ Hx H0 Ht).
Qed.

Lemma thin_run fuel cf (md : mcdata Rops) dom (xs : list R) : (ei_policy (mc_exec md) = Sequential \/ ei_policy (mc_exec md) = Rayon) ->
  sp_standard (mc_params md) = true \/ sp_n_groups (mc_params md) <> 0 -> materials_known md -> Forall2 (emits md) (d_cells dom) xs -> Forall (fun x => (0 <= x)%R) xs ->
  (0 < Rsum xs)%R -> 0 < sp_n_particles (mc_params md) < 2 ^ 64 ->
  Forall (fun x => (x * IZR (Z.of_N (sp_n_particles (mc_params md))) < 10 * Rsum xs)%R) xs ->
  exists s, empty_after md dom (N.to_nat (sp_n_steps (mc_params md))) s /\ forall r, core_loop fuel cf md (initial_sim md dom) r <-> r = Ok s.
Proof. intros Hp Hg Hk Hx H0 Hs Hn Ht. apply empty_run; [exact Hp|exact Hg|]. eapply thin_source; eassumption. Qed.

Lemma few_run fuel cf (md : mcdata Rops) dom (xs : list R) : (ei_policy (mc_exec md) = Sequential \/ ei_policy (mc_exec md) = Rayon) ->
  sp_standard (mc_params md) = true \/ sp_n_groups (mc_params md) <> 0 -> materials_known md -> Forall2 (emits md) (d_cells dom) xs -> Forall (fun x => (0 <= x)%R) xs ->
  (0 < Rsum xs)%R -> 0 < sp_n_particles (mc_params md) < 10 ->
  exists s, empty_after md dom (N.to_nat (sp_n_steps (mc_params md))) s /\ forall r, core_loop fuel cf md (initial_sim md dom) r <-> r = Ok s.
Proof.
  intros Hp Hg Hk Hx H0 Hs Hn. apply (thin_run fuel cf md dom xs); try assumption; [lia|]. apply Forall_forall. intros x Hin.
  pose proof (Rsum_ge xs x H0 Hin) as Hle. rewrite Forall_forall in H0. specialize (H0 x Hin).
  assert (A : (IZR (Z.of_N (sp_n_particles (mc_params md))) <= 9)%R) by (apply IZR_le; lia).
  assert (B : (0 < IZR (Z.of_N (sp_n_particles (mc_params md))))%R) by (apply IZR_lt; lia).
  apply Rle_lt_trans with (Rsum xs * 9)%R; [|lra]. apply Rmult_le_compat; lra.
Qed.

Lemma Rsum_repeat (x : R) n : Rsum (repeat x n) = (INR n * x)%R.
Proof. induction n as [|n IH]; [unfold Rsum; cbn [repeat fold_right INR]; lra|]. rewrite S_INR. unfold Rsum in * . cbn [repeat fold_right]. rewrite IH. lra. Qed.

Lemma equal_run fuel cf (md : mcdata Rops) dom (x : R) : (ei_policy (mc_exec md) = Sequential \/ ei_policy (mc_exec md) = Rayon) ->
  sp_standard (mc_params md) = true \/ sp_n_groups (mc_params md) <> 0 -> materials_known md -> Forall (fun cs => emits md cs x) (d_cells dom) -> (0 < x)%R ->
  0 < sp_n_particles (mc_params md) < 10 * N.of_nat (List.length (d_cells dom)) -> sp_n_particles (mc_params md) < 2 ^ 64 ->
  exists s, empty_after md dom (N.to_nat (sp_n_steps (mc_params md))) s /\ forall r, core_loop fuel cf md (initial_sim md dom) r <-> r = Ok s.
Proof.
  intros Hp Hg Hk Hx H0 Hn Hb. set (xs := repeat x (List.length (d_cells dom))).
  assert (A : forall y, In y xs -> y = x) by (intros y Hy; apply repeat_spec in Hy; exact Hy).
  assert (L : (1 <= INR (List.length (d_cells dom)))%R) by (change 1%R with (INR 1); apply le_INR; lia).
  assert (Sx : Rsum xs = (INR (List.length (d_cells dom)) * x)%R) by apply Rsum_repeat.
  apply (thin_run fuel cf md dom xs); try assumption.
  - unfold xs. clear - Hx. induction Hx as [|cs l H _ IH]; cbn [repeat List.length]; constructor; assumption.
  - apply Forall_forall. intros y Hy. rewrite (A y Hy). lra.
  - rewrite Sx. apply Rmult_lt_0_compat; lra.
  - lia.
  - apply Forall_forall. intros y Hy. rewrite (A y Hy), Sx.
    assert (B : (IZR (Z.of_N (sp_n_particles (mc_params md))) < 10 * INR (List.length (d_cells dom)))%R).
    { rewrite INR_IZR_INZ. change 10%R with (IZR 10). rewrite <- mult_IZR. apply IZR_lt. lia. }
    nra.
Qed.
