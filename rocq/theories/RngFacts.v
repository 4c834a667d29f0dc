(** Proofs of C01, C02, C03. *)
From Coq Require Import NArith ZArith Reals List Bool Lia Lra.
From Flocq Require Import Core IEEE754.BinarySingleNaN.
From Verif Require Import RngModel RngLemmas RngIeee RngSpec.
Import ListNotations.
Local Open Scope N_scope.

Lemma seed_after_iter n s : seed_after n s = rng_iter n s.
Proof. induction n as [|n IH]; [reflexivity|]. cbn [seed_after]. rewrite IH. reflexivity. Qed.

Lemma rng_full_period : forall seed, seed < 2 ^ 64 ->
  (forall n, seed_after n seed < 2 ^ 64) /\
  (forall n, seed_after n seed = seed <-> (2 ^ 64 | N.of_nat n)) /\
  (forall target, target < 2 ^ 64 -> exists n, N.of_nat n < 2 ^ 64 /\ seed_after n seed = target).
Proof.
  intros seed Hs. split; [|split].
  - intros n. rewrite seed_after_iter. apply rng_iter_lt. exact Hs.
  - intros n. rewrite seed_after_iter.
    rewrite (rng_iter_return n seed Hs). split.
    + intros [q Hq]. exists (Z.to_N q). unfold two64 in Hq.
      change (2 ^ 64) with 18446744073709551616. nia.
    + intros [q Hq]. exists (Z.of_N q). unfold two64.
      change (2 ^ 64) with 18446744073709551616 in Hq. lia.
  - intros t Ht. destruct (rng_iter_onto seed t Hs Ht) as [n [H1 H2]].
    exists n. rewrite seed_after_iter. split; assumption.
Qed.

Lemma spawned_by_in h : forall p x, In x (spawned_by h p) ->
  exists k, (k < length h)%nat /\ x = hash_state (rng_iter k p).
Proof.
  induction h as [|b h IH]; intros p x Hx; [destruct Hx|].
  assert (R : In x (spawned_by h (rng_next p)) ->
     exists k, (k < length (b :: h))%nat /\ x = hash_state (rng_iter k p)).
  { intros H. destruct (IH _ _ H) as [k [Hk E]]. exists (S k). split; [cbn; lia|].
    rewrite E. f_equal. replace (S k) with (k + 1)%nat by lia.
    rewrite rng_iter_add. reflexivity. }
  destruct b; cbn [spawned_by] in Hx; [|exact (R Hx)].
  destruct Hx as [E|Hx]; [|exact (R Hx)].
  exists O. split; [cbn; lia|]. symmetry. exact E.
Qed.

Lemma spawned_seeds_distinct : forall history parent, parent < 2 ^ 64 ->
  N.of_nat (length history) <= 2 ^ 64 ->
  NoDup (spawned_by history parent) /\ Forall (fun s => s < 2 ^ 64) (spawned_by history parent).
Proof.
  induction history as [|b h IH]; intros p Hp Hl; [split; constructor|].
  assert (L : N.of_nat (length h) <= 2 ^ 64) by (cbn [length] in Hl; lia).
  destruct (IH (rng_next p) (rng_next_lt p) L) as [ND FA].
  destruct b; cbn [spawned_by]; [|split; assumption].
  split; constructor; try assumption.
  - cbn [snd spawn_rn_seed]. intros Hin.
    destruct (spawned_by_in _ _ _ Hin) as [k [Hk E]].
    cbn [fst spawn_rn_seed] in E.
    apply hash_state_inj in E; [|exact Hp|apply rng_iter_lt; apply rng_next_lt].
    change (rng_next p) with (rng_iter 1 p) in E. rewrite <- rng_iter_add in E.
    assert (0%nat = (k + 1)%nat).
    { apply (rng_iter_distinct p); [exact Hp| |cbn [length] in Hl; unfold two64; change (2 ^ 64) with 18446744073709551616 in *; lia|exact E].
      reflexivity. }
    lia.
  - apply hash_state_lt. exact Hp.
Qed.

Lemma spawn_bijective :
  (forall s, s < 2 ^ 64 -> fst (spawn_rn_seed s) < 2 ^ 64) /\
  (forall s t, s < 2 ^ 64 -> t < 2 ^ 64 -> fst (spawn_rn_seed s) = fst (spawn_rn_seed t) -> s = t) /\
  (forall t, t < 2 ^ 64 -> exists s, s < 2 ^ 64 /\ fst (spawn_rn_seed s) = t).
Proof.
  split; [exact hash_state_lt|]. split; [exact hash_state_inj|].
  intros t Ht. exists (hash_state_inv t). split; [apply hash_state_inv_lt; exact Ht|apply hash_state_right; exact Ht].
Qed.

Local Open Scope R_scope.

Lemma sample_range : forall seed,
  let '(value, new_seed) := rng_sample_f64 seed in
  is_finite value = true /\ 0 <= B2R value <= 1 /\
  (B2R value = 0 <-> new_seed = 0%N) /\
  (B2R value = 1 <-> (2 ^ 64 - 1024 <= new_seed)%N).
Proof.
  intros seed. unfold rng_sample_f64 at 1.
  destruct (rng_sample_f64_value seed) as [V Fi]. unfold rng_sample_f64 in V, Fi. cbn [fst] in V, Fi.
  pose proof (rng_next_lt seed) as Hn. set (n := rng_next seed) in *.
  rewrite V. split; [exact Fi|].
  change (bpow radix2 (-64)) with (/ IZR (Z.of_N two64)).
  assert (P : 0 < IZR (Z.of_N two64)) by (apply IZR_lt; reflexivity).
  pose proof (round53_le n Hn) as L.
  split; [|split].
  - split.
    + apply Rmult_le_pos; [apply IZR_le; lia|]. apply Rlt_le, Rinv_0_lt_compat, P.
    + apply Rmult_le_reg_r with (IZR (Z.of_N two64)); [exact P|].
      rewrite Rmult_assoc, Rinv_l, Rmult_1_r, Rmult_1_l by lra. apply IZR_le. lia.
  - rewrite <- (round53_zero n Hn). split; intros H.
    + apply Rmult_integral in H. destruct H as [H|H].
      * apply eq_IZR in H. lia.
      * exfalso. pose proof (Rinv_0_lt_compat _ P). lra.
    + rewrite H. simpl. lra.
  - change (2 ^ 64 - 1024)%N with (two64 - 1024)%N. rewrite <- (round53_top n Hn). split; intros H.
    + assert (E : IZR (Z.of_N (round53 n)) = IZR (Z.of_N two64)).
      { apply Rmult_eq_reg_r with (/ IZR (Z.of_N two64)).
        - rewrite H. rewrite Rinv_r by lra. reflexivity.
        - apply Rinv_neq_0_compat. lra. }
      apply eq_IZR in E. lia.
    + rewrite H. apply Rinv_r. lra.
Qed.

Lemma literal_is_2_pow_minus_64 :
  round radix2 (FLT_exp (-1074) 53) ZnearestE
    (5421010862427522 / 100000000000000000000000000000000000) = bpow radix2 (-64).
Proof. rewrite <- magic_value. exact magic_is_nearest. Qed.

Lemma half_open_range_refuted : exists seed, (seed < 2 ^ 64)%N /\ B2R (fst (rng_sample_f64 seed)) = 1.
Proof.
  assert (W : exists seed, (seed < 2 ^ 64)%N /\ rng_next seed = (2 ^ 64 - 1)%N).
  { destruct (rng_iter_onto 0 (2 ^ 64 - 1)) as [n [Hn E]]; [reflexivity|reflexivity|].
    destruct n as [|n]; [discriminate E|].
    exists (rng_iter n 0). split; [apply rng_iter_lt; reflexivity|exact E]. }
  destruct W as [seed [Hs E]]. exists seed. split; [exact Hs|].
  pose proof (sample_range seed) as H. unfold rng_sample_f64 in *. cbn [fst].
  destruct H as [_ [_ [_ H]]]. apply H. rewrite E. vm_compute. discriminate.
Qed.
