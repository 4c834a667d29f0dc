(** Samples and counters in single precision. *)
From Coq Require Import NArith ZArith QArith Reals Lia Lra List Bool.
From Flocq Require Import Core IEEE754.BinarySingleNaN.
From Verif Require Import Float RngModel RngLemmas RngIeee RngFacts Ieee IeeeEnergy LawSpec LawCount SingleModel.
Import ListNotations.
Local Open Scope R_scope.

Notation fexp32 := (FLT_exp (3 - emax128 - prec24) prec24).
Notation rnd32 := (round radix2 fexp32 ZnearestE).

Lemma rnd32_le x y : x <= y -> rnd32 x <= rnd32 y.
Proof. intros H. apply round_le; [apply FLT_exp_valid; reflexivity|apply valid_rnd_N|exact H]. Qed.
Lemma rnd32_bpow e : (-149 <= e)%Z -> rnd32 (bpow radix2 e) = bpow radix2 e.
Proof. intros H. apply round_generic; [apply valid_rnd_N|]. apply generic_format_bpow. unfold FLT_exp, emax128, prec24. lia. Qed.
Lemma rnd32_0 : rnd32 0 = 0. Proof. apply round_0. apply valid_rnd_N. Qed.

(** The conversion rounds. *)
Lemma f32_of_f64_value (x : f64) : is_finite x = true -> Rabs (B2R x) <= 1 -> is_finite (f32_of_f64 x) = true /\ B2R (f32_of_f64 x) = rnd32 (B2R x).
Proof.
  intros Fx Hx. destruct x as [s|s| |s m e Hb]; try discriminate Fx.
  - split; [reflexivity|]. cbn [B2R f32_of_f64]. symmetry. apply rnd32_0.
  - cbn [f32_of_f64]. pose proof (binary_normalize_correct prec24 emax128 prec24_gt0 prec24_lt mode_NE (cond_Zopp s (Zpos m)) e s) as C. cbv zeta in C.
    change (SpecFloat.fexp prec24 emax128) with fexp32 in C. change (round_mode mode_NE) with ZnearestE in C.
    change (F2R (Float radix2 (cond_Zopp s (Zpos m)) e)) with (B2R (B754_finite s m e Hb : f64)) in C.
    rewrite Rlt_bool_true in C; [split; apply C|].
    apply Rle_lt_trans with 1; [|change 1 with (bpow radix2 0); apply bpow_lt; reflexivity].
    apply Rabs_le. apply Rabs_le_inv in Hx. assert (E1 : rnd32 1 = 1) by (change 1 with (bpow radix2 0); apply rnd32_bpow; lia).
    split; [|rewrite <- E1; apply rnd32_le; apply Hx].
    apply Rle_trans with (rnd32 (- (1))); [rewrite round_NE_opp, E1; apply Rle_refl|apply rnd32_le; apply Hx].
Qed.

(** Two numbers just below one, by computation. *)
Definition near_one (k : Z) : f64 := binary_normalize prec53 emax1024 prec53_gt0 prec53_lt mode_NE k (-53) false.
Lemma near_value k : (0 < k < 2 ^ 53)%Z -> is_finite (near_one k) = true /\ B2R (near_one k) = IZR k / IZR (2 ^ 53).
Proof.
  intros Hk. unfold near_one. pose proof (binary_normalize_correct prec53 emax1024 prec53_gt0 prec53_lt mode_NE k (-53) false) as C. cbv zeta in C.
  rewrite SpecFloat_fexp_eq in C. change (round_mode mode_NE) with ZnearestE in C.
  assert (E : F2R (Float radix2 k (-53)) = IZR k / IZR (2 ^ 53)) by reflexivity. rewrite E in C.
  assert (G : rnd (IZR k / IZR (2 ^ 53)) = IZR k / IZR (2 ^ 53)).
  { apply round_generic; [apply valid_rnd_N|]. apply generic_format_FLT. exists (Float radix2 k (-53)); [symmetry; exact E|cbn [Fnum]; rewrite Z.abs_eq by lia; apply Hk|cbn [Fexp]; unfold emax1024, prec53; lia]. }
  rewrite G in C. rewrite Rlt_bool_true in C.
  - destruct C as (A & B & _). split; [exact B|exact A].
  - rewrite Rabs_pos_eq by (apply Rmult_le_pos; [apply IZR_le; lia|apply Rlt_le, Rinv_0_lt_compat, IZR_lt; reflexivity]).
    apply Rlt_trans with 1; [|change 1 with (bpow radix2 0); apply bpow_lt; reflexivity].
    apply Rmult_lt_reg_r with (IZR (2 ^ 53)); [apply IZR_lt; reflexivity|]. unfold Rdiv. rewrite Rmult_assoc, Rinv_l by (apply not_0_IZR; discriminate). rewrite Rmult_1_r, Rmult_1_l. apply IZR_lt, Hk.
Qed.

Lemma finite_value32 (x : f32) s m e : B2SF x = SpecFloat.S754_finite s m e -> is_finite x = true /\ B2R x = F2R (Float radix2 (cond_Zopp s (Zpos m)) e).
Proof. destruct x as [t|t| |t n f H]; cbn [B2SF]; try discriminate. intros E. injection E; intros; subst. split; reflexivity. Qed.

Definition tie : Z := (2 ^ 53 - 2 ^ 28)%Z.
Lemma near_bound k : (0 < k < 2 ^ 53)%Z -> Rabs (B2R (near_one k)) <= 1.
Proof.
  intros Hk. rewrite (proj2 (near_value k Hk)). rewrite Rabs_pos_eq by (apply Rmult_le_pos; [apply IZR_le; lia|apply Rlt_le, Rinv_0_lt_compat, IZR_lt; reflexivity]).
  apply Rmult_le_reg_r with (IZR (2 ^ 53)); [apply IZR_lt; reflexivity|]. unfold Rdiv. rewrite Rmult_assoc, Rinv_l by (apply not_0_IZR; discriminate). rewrite Rmult_1_r, Rmult_1_l. apply IZR_le. lia.
Qed.
Lemma tie_range : (0 < tie < 2 ^ 53)%Z. Proof. split; reflexivity. Qed.
Lemma below_range : (0 < tie - 1 < 2 ^ 53)%Z. Proof. split; reflexivity. Qed.
Lemma rnd32_tie : rnd32 (IZR tie / IZR (2 ^ 53)) = 1.
Proof.
  destruct (near_value tie tie_range) as (F1 & V1). rewrite <- V1. rewrite <- (proj2 (f32_of_f64_value _ F1 (near_bound _ tie_range))).
  destruct (finite_value32 (f32_of_f64 (near_one tie)) false 8388608 (-23)) as (_ & B); [vm_compute; reflexivity|]. rewrite B. unfold F2R. cbn. lra.
Qed.
Lemma rnd32_below : rnd32 (IZR (tie - 1) / IZR (2 ^ 53)) < 1.
Proof.
  destruct (near_value (tie - 1) below_range) as (F1 & V1). rewrite <- V1. rewrite <- (proj2 (f32_of_f64_value _ F1 (near_bound _ below_range))).
  destruct (finite_value32 (f32_of_f64 (near_one (tie - 1))) false 16777215 (-24)) as (_ & B); [vm_compute; reflexivity|]. rewrite B. unfold F2R. cbn. lra.
Qed.

Lemma sample32_value seed : let v := rnd32 (IZR (Z.of_N (round53 (rng_next seed))) / IZR (2 ^ 64)) in
  is_finite (fst (rng_sample_f32 seed)) = true /\ B2R (fst (rng_sample_f32 seed)) = v /\ snd (rng_sample_f32 seed) = rng_next seed.
Proof.
  cbv zeta. destruct (rng_sample_f64_value seed) as (V & Fi). pose proof (sample_range seed) as R.
  assert (S2 : snd (rng_sample_f64 seed) = rng_next seed) by reflexivity.
  unfold rng_sample_f32. destruct (rng_sample_f64 seed) as [v s] eqn:E. cbn [fst snd] in * .
  destruct R as (_ & R & _). destruct (f32_of_f64_value v Fi) as (A & B); [rewrite Rabs_pos_eq; apply R|].
  split; [exact A|]. split; [|exact S2]. rewrite B, V. reflexivity.
Qed.

Lemma sample_range32 : forall seed,
  let '(value, new_seed) := rng_sample_f32 seed in
  new_seed = rng_next seed /\ is_finite value = true /\ 0 <= B2R value <= 1 /\
  (B2R value = 0 <-> new_seed = 0%N) /\
  (B2R value = 1 <-> (2 ^ 64 - 2 ^ 39 - 1024 <= new_seed)%N).
Proof.
  intros seed. destruct (sample32_value seed) as (A & B & C). destruct (rng_sample_f32 seed) as [value s]. cbn [fst snd] in * .
  subst s. pose proof (rng_next_lt seed) as Hn. set (n := rng_next seed) in * . rewrite B. clear B.
  assert (P : 0 < IZR (2 ^ 64)) by (apply IZR_lt; reflexivity).
  assert (M : forall a b : Z, (a <= b)%Z -> IZR a / IZR (2 ^ 64) <= IZR b / IZR (2 ^ 64)).
  { intros a b H. apply Rmult_le_compat_r; [apply Rlt_le, Rinv_0_lt_compat, P|apply IZR_le, H]. }
  assert (One : rnd32 (IZR (2 ^ 64) / IZR (2 ^ 64)) = 1).
  { unfold Rdiv. rewrite Rinv_r by lra. change 1 with (bpow radix2 0). apply rnd32_bpow. lia. }
  assert (Zero : rnd32 (IZR 0 / IZR (2 ^ 64)) = 0).
  { unfold Rdiv. rewrite Rmult_0_l. apply rnd32_0. }
  pose proof (round53_le n Hn) as L. change two64 with (2 ^ 64)%N in * .
  assert (LZ : (0 <= Z.of_N (round53 n) <= 2 ^ 64)%Z) by lia.
  assert (Scale : forall k : Z, IZR (k * 2048) / IZR (2 ^ 64) = IZR k / IZR (2 ^ 53)).
  { intros k. rewrite mult_IZR. replace (IZR (2 ^ 64)) with (2048 * IZR (2 ^ 53)) by (rewrite <- mult_IZR; reflexivity).
    field. apply not_0_IZR. discriminate. }
  split; [reflexivity|]. split; [exact A|]. split; [|split].
  - split; [rewrite <- Zero; apply rnd32_le, M, LZ|rewrite <- One; apply rnd32_le, M, LZ].
  - rewrite <- (round53_zero n Hn). split; intros H.
    + destruct (N.eq_dec (round53 n) 0) as [E|E]; [exact E|exfalso].
      assert (Q : bpow radix2 (-64) <= rnd32 (IZR (Z.of_N (round53 n)) / IZR (2 ^ 64))).
      { rewrite <- (rnd32_bpow (-64)) by lia. apply rnd32_le. replace (bpow radix2 (-64)) with (IZR 1 / IZR (2 ^ 64)); [apply M; lia|].
        change (bpow radix2 (-64)) with (/ IZR (2 ^ 64)). unfold Rdiv. rewrite Rmult_1_l. reflexivity. }
      pose proof (bpow_gt_0 radix2 (-64)). lra.
    + rewrite H. exact Zero.
  - split; intros H.
    + destruct (N.le_gt_cases (2 ^ 64 - 2 ^ 39 - 1024) n) as [G|G]; [exact G|exfalso].
      assert (Q : (round53 n <= round53 (2 ^ 64 - 2 ^ 39 - 1025))%N) by (apply round53_mono; [lia|reflexivity]).
      replace (round53 (2 ^ 64 - 2 ^ 39 - 1025)) with (Z.to_N ((tie - 1) * 2048)) in Q by (vm_compute; reflexivity).
      pose proof rnd32_below as Bl. rewrite <- Scale in Bl.
      assert (W : rnd32 (IZR (Z.of_N (round53 n)) / IZR (2 ^ 64)) <= rnd32 (IZR ((tie - 1) * 2048) / IZR (2 ^ 64))).
      { apply rnd32_le, M. unfold tie in * . lia. }
      lra.
    + assert (Q : (round53 (2 ^ 64 - 2 ^ 39 - 1024) <= round53 n)%N) by (apply round53_mono; [exact H|exact Hn]).
      replace (round53 (2 ^ 64 - 2 ^ 39 - 1024)) with (Z.to_N (tie * 2048)) in Q by (vm_compute; reflexivity).
      pose proof rnd32_tie as Bl. rewrite <- Scale in Bl. apply Rle_antisym.
      * rewrite <- One. apply rnd32_le, M, LZ.
      * rewrite <- Bl. apply rnd32_le, M. unfold tie in * . lia.
Qed.

Lemma ones32 : counts (fun seed => B2R (fst (rng_sample_f32 seed)) = 1) (2 ^ 39 + 1024).
Proof.
  replace (2 ^ 39 + 1024)%N with (2 ^ 64 - (2 ^ 64 - 2 ^ 39 - 1024))%N by reflexivity.
  assert (LE : (2 ^ 64 - 2 ^ 39 - 1024 <= 2 ^ 64)%N) by lia.
  destruct (counts_minus (fun _ => True) (fun s => (rng_iter 1 s < 2 ^ 64 - 2 ^ 39 - 1024)%N) _ _ counts_all (counts_below 1 _ LE) ltac:(intros; exact I)) as (_ & C).
  revert C. apply counts_ext. intros s _. pose proof (sample_range32 s) as R.
  destruct (rng_sample_f32 s) as [v t]. destruct R as (E & _ & _ & _ & R). cbn [fst]. rewrite R, E. change (rng_iter 1 s) with (rng_next s). split; intros H; [destruct H as (_ & H)|split; [exact I|]]; lia.
Qed.

Lemma ones64 : counts (fun seed => B2R (fst (rng_sample_f64 seed)) = 1) 1024.
Proof.
  replace 1024%N with (2 ^ 64 - (2 ^ 64 - 1024))%N by reflexivity.
  assert (LE : (2 ^ 64 - 1024 <= 2 ^ 64)%N) by lia.
  destruct (counts_minus (fun _ => True) (fun s => (rng_iter 1 s < 2 ^ 64 - 1024)%N) _ _ counts_all (counts_below 1 _ LE) ltac:(intros; exact I)) as (_ & C).
  revert C. apply counts_ext. intros s _. pose proof (sample_range s) as R. assert (E : snd (rng_sample_f64 s) = rng_next s) by reflexivity.
  destruct (rng_sample_f64 s) as [v t]. destruct R as (_ & _ & _ & R). cbn [fst snd] in * . rewrite R, E. change (rng_iter 1 s) with (rng_next s). split; intros H; [destruct H as (_ & H)|split; [exact I|]]; lia.
Qed.

(** Counters. *)
Lemma f32_of_Z_value z : (Z.abs z <= 2 ^ 25)%Z -> is_finite (f32_of_Z z) = true /\ B2R (f32_of_Z z) = rnd32 (IZR z).
Proof.
  intros Hz. unfold f32_of_Z. pose proof (binary_normalize_correct prec24 emax128 prec24_gt0 prec24_lt mode_NE z 0 false) as C. cbv zeta in C.
  change (SpecFloat.fexp prec24 emax128) with fexp32 in C. change (round_mode mode_NE) with ZnearestE in C.
  assert (E : F2R (Float radix2 z 0) = IZR z) by (unfold F2R; cbn; lra). rewrite E in C.
  rewrite Rlt_bool_true in C; [split; apply C|].
  apply Rle_lt_trans with (bpow radix2 25); [|apply bpow_lt; reflexivity].
  apply abs_round_le_generic; [apply FLT_exp_valid; reflexivity|apply valid_rnd_N|apply generic_format_bpow; unfold FLT_exp, emax128, prec24; lia|].
  rewrite <- abs_IZR. change (bpow radix2 25) with (IZR (2 ^ 25)). apply IZR_le, Hz.
Qed.
Lemma rnd32_int z : (0 <= z <= 2 ^ 24)%Z -> rnd32 (IZR z) = IZR z.
Proof.
  intros Hz. destruct (Z.eq_dec z (2 ^ 24)) as [E|E]; [subst; change (IZR (2 ^ 24)) with (bpow radix2 24); apply rnd32_bpow; lia|].
  apply round_generic; [apply valid_rnd_N|]. apply generic_format_FLT. exists (Float radix2 z 0); [unfold F2R; cbn; lra|cbn [Fnum]; rewrite Z.abs_eq by lia; change (radix2 ^ prec24)%Z with (2 ^ 24)%Z; lia|cbn [Fexp]; unfold emax128, prec24; lia].
Qed.
Lemma rnd32_over : rnd32 (IZR (2 ^ 24 + 1)) = IZR (2 ^ 24).
Proof.
  rewrite <- (proj2 (f32_of_Z_value (2 ^ 24 + 1) ltac:(lia))).
  destruct (finite_value32 (f32_of_Z (2 ^ 24 + 1)) false 8388608 1) as (_ & B); [vm_compute; reflexivity|]. rewrite B. unfold F2R. cbn. lra.
Qed.

Section Lib.
Variable lm : libm32.
Notation K := (f32ops lm).

Lemma sample32_is seed : fsample (f := K) (rng_next seed) = fst (rng_sample_f32 seed).
Proof. reflexivity. Qed.

Lemma count32 : forall n, is_finite (count_segments K n : f32) = true /\ B2R (count_segments K n : f32) = IZR (Z.min (Z.of_nat n) (2 ^ 24)).
Proof.
  induction n as [|n (Fn & Vn)]; [split; reflexivity|].
  cbn [count_segments]. destruct (f32_of_Z_value 1 ltac:(lia)) as (F1 & V1). rewrite rnd32_int in V1 by lia.
  pose proof (Bplus_correct prec24 emax128 prec24_gt0 prec24_lt mode_NE (count_segments K n) (f32_of_Z 1) Fn F1) as C.
  change (SpecFloat.fexp prec24 emax128) with fexp32 in C. change (round_mode mode_NE) with ZnearestE in C.
  rewrite Vn, V1, <- plus_IZR in C.
  assert (E : rnd32 (IZR (Z.min (Z.of_nat n) (2 ^ 24) + 1)) = IZR (Z.min (Z.of_nat (S n)) (2 ^ 24))).
  { destruct (Z.le_gt_cases (2 ^ 24) (Z.of_nat n)) as [G|G].
    - rewrite !Z.min_r by lia. apply rnd32_over.
    - rewrite (Z.min_l (Z.of_nat n)) by lia. rewrite Z.min_l by lia. rewrite rnd32_int by lia. f_equal. lia. }
  rewrite E in C. rewrite Rlt_bool_true in C; [split; apply C|].
  rewrite <- abs_IZR. change (bpow radix2 emax128) with (IZR (2 ^ 128)). apply IZR_lt. lia.
Qed.

(** The counter passes the limit when the number of segments does. *)
Lemma count32_limit : forall n, flt (max_segments K) (count_segments K n) = true <-> (10000000 < N.of_nat n)%N.
Proof.
  intros n. destruct (count32 n) as (Fn & Vn). destruct (f32_of_Z_value 10000000 ltac:(lia)) as (Fl & Vl). rewrite rnd32_int in Vl by lia.
  change (flt (max_segments K) (count_segments K n)) with (Bltb (f32_of_Z 10000000) (count_segments K n : f32)).
  rewrite Bltb_correct by assumption. rewrite Vn, Vl. split; intros H.
  - destruct (Rlt_bool_spec (IZR 10000000) (IZR (Z.min (Z.of_nat n) (2 ^ 24)))) as [G|G]; [|discriminate]. apply lt_IZR in G. lia.
  - apply Rlt_bool_true, IZR_lt. lia.
Qed.
End Lib.
