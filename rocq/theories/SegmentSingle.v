(** The number of segments of the particles of a run, in single and double precision. *)
From Coq Require Import NArith ZArith Reals Lia Lra List Bool.
From Flocq Require Import Core IEEE754.BinarySingleNaN.
From Verif Require Import Float RngModel RngIeee Ieee IeeeEnergy ParticleModel MeshTypes Balance TrackModel CycleModel SingleModel SegmentCount SingleFacts.
Import ListNotations.
Local Open Scope N_scope.

Lemma run_segs32 lm fuel cf (md : mcdata (f32ops lm)) d n s : run_steps fuel cf md (initial_sim md d) n (Ok s) -> n <= sp_n_steps (mc_params md) ->
  Forall (fun p : particle (f32ops lm) => is_finite (p_num_segments p : f32) = true /\ exists k : Z, (1 <= k <= 2 ^ 24)%Z /\ B2R (p_num_segments p : f32) = IZR k) (processed (s_cont s)).
Proof.
  intros H Hn. eapply Forall_impl; [|exact (run_segs _ _ _ _ _ _ H Hn)]. cbv beta. intros p (k & Hk & E). rewrite E. destruct (count32 lm k) as (A & B).
  split; [exact A|]. exists (Z.min (Z.of_nat k) (2 ^ 24)). split; [lia|exact B].
Qed.

(** In double precision the counter stays at 2^53. *)
Section Lib.
Variable lm : libm.
Notation K := (f64ops lm).
Local Open Scope R_scope.
Lemma rnd64_int z : (0 <= z <= 2 ^ 53)%Z -> rnd (IZR z) = IZR z.
Proof.
  intros Hz. destruct (Z.eq_dec z (2 ^ 53)) as [E|E].
  - subst. change (IZR (2 ^ 53)) with (bpow radix2 53). apply round_generic; [apply valid_rnd_N|]. apply generic_format_bpow. unfold FLT_exp, emax1024, prec53. lia.
  - apply round_generic; [apply valid_rnd_N|]. apply generic_format_FLT. exists (Float radix2 z 0); [unfold F2R; cbn; lra|cbn [Fnum]; rewrite Z.abs_eq by lia; change (radix2 ^ prec53)%Z with (2 ^ 53)%Z; lia|cbn [Fexp]; unfold emax1024, prec53; lia].
Qed.
Lemma over64 : rnd (IZR (2 ^ 53 + 1)) = IZR (2 ^ 53).
Proof.
  pose proof (binary_normalize_correct prec53 emax1024 prec53_gt0 prec53_lt mode_NE (2 ^ 53 + 1) 0 false) as C. cbv zeta in C.
  rewrite SpecFloat_fexp_eq in C. change (round_mode mode_NE) with ZnearestE in C.
  assert (E : F2R (Float radix2 (2 ^ 53 + 1) 0) = IZR (2 ^ 53 + 1)) by (unfold F2R; cbn; lra). rewrite E in C.
  assert (L : Rabs (rnd (IZR (2 ^ 53 + 1))) < bpow radix2 emax1024).
  { apply Rle_lt_trans with (bpow radix2 54); [|apply bpow_lt; reflexivity].
    apply abs_round_le_generic; [apply FLT_exp_valid; reflexivity|apply valid_rnd_N|apply generic_format_bpow; unfold FLT_exp, emax1024, prec53; lia|].
    rewrite <- abs_IZR. change (bpow radix2 54) with (IZR (2 ^ 54)). apply IZR_le. lia. }
  rewrite Rlt_bool_true in C by exact L. destruct C as (C & _). rewrite <- C.
  destruct (finite_value (binary_normalize prec53 emax1024 prec53_gt0 prec53_lt mode_NE (2 ^ 53 + 1) 0 false) false 4503599627370496 1) as (_ & B); [vm_compute; reflexivity|].
  rewrite B. unfold F2R. cbn. lra.
Qed.
Lemma count64 : forall n, is_finite (count_segments K n : f64) = true /\ B2R (count_segments K n : f64) = IZR (Z.min (Z.of_nat n) (2 ^ 53)).
Proof.
  induction n as [|n (Fn & Vn)]; [split; reflexivity|].
  cbn [count_segments]. destruct one64 as (F1 & V1).
  pose proof (Bplus_correct prec53 emax1024 prec53_gt0 prec53_lt mode_NE (count_segments K n) (f64_of_Z 1) Fn F1) as C.
  rewrite SpecFloat_fexp_eq in C. change (round_mode mode_NE) with ZnearestE in C.
  rewrite Vn, V1, <- plus_IZR in C.
  assert (E : rnd (IZR (Z.min (Z.of_nat n) (2 ^ 53) + 1)) = IZR (Z.min (Z.of_nat (S n)) (2 ^ 53))).
  { destruct (Z.le_gt_cases (2 ^ 53) (Z.of_nat n)) as [G|G].
    - rewrite !Z.min_r by lia. apply over64.
    - rewrite (Z.min_l (Z.of_nat n)) by lia. rewrite Z.min_l by lia. rewrite rnd64_int by lia. f_equal. lia. }
  rewrite E in C. rewrite Rlt_bool_true in C; [split; apply C|].
  rewrite <- abs_IZR. change (bpow radix2 emax1024) with (IZR (2 ^ 1024)). apply IZR_lt.
  apply Z.le_lt_trans with (2 ^ 53)%Z; [rewrite Z.abs_eq; lia|reflexivity].
Qed.
End Lib.
