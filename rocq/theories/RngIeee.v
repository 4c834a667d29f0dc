(** The sampled value in IEEE-754 binary64 arithmetic (Flocq), and its relation
    to the integer model [RngModel.round53]. *)
From Coq Require Import NArith ZArith Reals Lia Lra Bool.
From Flocq Require Import Core IEEE754.BinarySingleNaN.
From Verif Require Import RngModel RngLemmas.
Local Open Scope Z_scope.

Definition prec53 : Z := 53.
Definition emax1024 : Z := 1024.
Lemma prec53_gt0 : FLX.Prec_gt_0 prec53. Proof. reflexivity. Qed.
Lemma prec53_lt : Prec_lt_emax prec53 emax1024. Proof. reflexivity. Qed.
#[global] Existing Instance prec53_gt0.
#[global] Existing Instance prec53_lt.

(** the Rust type f64 *)
Definition f64 : Set := binary_float prec53 emax1024.

(** mc_rng_state.rs line 21, [*seed as f64]: round to nearest, ties to even. *)
Definition u64_as_f64 (n : N) : f64 :=
  binary_normalize prec53 emax1024 prec53_gt0 prec53_lt mode_NE (Z.of_N n) 0 false.

(** mc_rng_state.rs line 21, the literal 5.421010862427522e-20.  A Rust float
    literal denotes the binary64 number nearest to its decimal value;
    [magic_is_nearest] below shows that this is 2^-64. *)
Definition magic : f64 :=
  binary_normalize prec53 emax1024 prec53_gt0 prec53_lt mode_NE 1 (-64) false.

(** mc_rng_state.rs lines 11-23 for T = f64: (value, new seed). *)
Definition rng_sample_f64 (seed : N) : f64 * N :=
  let s := rng_next seed in (Bmult mode_NE magic (u64_as_f64 s), s).

Local Open Scope R_scope.
Notation fexp := (FLT_exp (3 - emax1024 - prec53) prec53).
Notation rnd := (round radix2 fexp ZnearestE).

Lemma SpecFloat_fexp_eq : SpecFloat.fexp prec53 emax1024 = fexp.
Proof. reflexivity. Qed.

Lemma magic_value : B2R magic = bpow radix2 (-64).
Proof.
  unfold magic.
  pose proof (binary_normalize_correct prec53 emax1024 prec53_gt0 prec53_lt mode_NE 1 (-64) false) as H.
  assert (E : F2R (Float radix2 1 (-64)) = bpow radix2 (-64)) by (unfold F2R; simpl; lra).
  cbv zeta in H. rewrite E in H.
  assert (G : round radix2 (SpecFloat.fexp prec53 emax1024) (round_mode mode_NE) (bpow radix2 (-64)) = bpow radix2 (-64)).
  { apply round_generic; [apply valid_rnd_round_mode|]. apply generic_format_bpow. vm_compute. discriminate. }
  rewrite G in H. rewrite Rlt_bool_true in H.
  - apply H.
  - rewrite Rabs_pos_eq by apply bpow_ge_0. apply bpow_lt. reflexivity.
Qed.

Lemma magic_finite : is_finite magic = true.
Proof. vm_compute. reflexivity. Qed.

(** The decimal literal is rounded to 2^-64. *)
Lemma magic_is_nearest :
  rnd (5421010862427522 / 100000000000000000000000000000000000) = B2R magic.
Proof.
  rewrite magic_value.
  set (x := 5421010862427522 / 100000000000000000000000000000000000).
  assert (M : mag radix2 x = (-64)%Z :> Z).
  { apply mag_unique. rewrite Rabs_pos_eq by (unfold x; lra).
    change (bpow radix2 (-64 - 1)) with (/ IZR (2 ^ 65)).
    change (bpow radix2 (-64)) with (/ IZR (2 ^ 64)).
    unfold x. split; simpl; lra. }
  unfold round, scaled_mantissa, cexp. rewrite M.
  change (fexp (-64)) with (-117)%Z.
  change (bpow radix2 (- -117)) with (IZR (2 ^ 117)).
  rewrite (Znearest_imp _ _ (2 ^ 53)%Z).
  - change (bpow radix2 53 * bpow radix2 (-117) = bpow radix2 (-64)). rewrite <- bpow_plus. reflexivity.
  - unfold x. apply Rabs_def1; simpl; lra.
Qed.

Lemma u64_exact_small n : (n < 9007199254740992)%N -> rnd (IZR (Z.of_N n)) = IZR (Z.of_N n).
Proof.
  intros H. apply round_generic; [apply valid_rnd_N|].
  apply generic_format_FLT. exists (Float radix2 (Z.of_N n) 0).
  - unfold F2R; simpl; lra.
  - simpl Fnum. change (Z.pow_pos 2 53) with 9007199254740992%Z. rewrite Z.abs_eq by lia. simpl. lia.
  - simpl. lia.
Qed.

Lemma round53_is_round n : (n < two64)%N -> rnd (IZR (Z.of_N n)) = IZR (Z.of_N (round53 n)).
Proof.
  intros Hn. destruct (N.lt_ge_cases n 9007199254740992) as [H1|H1].
  - rewrite round53_spec_small by exact H1. apply u64_exact_small. exact H1.
  - pose proof (log2_bounds n H1 Hn) as B.
    set (e := (N.log2 n - 52)%N).
    assert (M : mag radix2 (IZR (Z.of_N n)) = (Z.of_N (N.log2 n) + 1)%Z :> Z).
    { apply mag_unique. rewrite Rabs_pos_eq by (apply IZR_le; lia).
      destruct (N.log2_spec n) as [L1 L2]; [lia|].
      split.
      - rewrite Z.add_simpl_r, <- IZR_Zpower by lia. apply IZR_le.
        change (Zpower radix2 (Z.of_N (N.log2 n))) with (2 ^ Z.of_N (N.log2 n))%Z.
        change 2%Z with (Z.of_N 2). rewrite <- N2Z.inj_pow. lia.
      - rewrite <- IZR_Zpower by lia. apply IZR_lt.
        change (Zpower radix2 (Z.of_N (N.log2 n) + 1)) with (2 ^ (Z.of_N (N.log2 n) + 1))%Z.
        change 2%Z with (Z.of_N 2).
        replace (Z.of_N (N.log2 n) + 1)%Z with (Z.of_N (N.succ (N.log2 n))) by lia.
        rewrite <- N2Z.inj_pow. lia. }
    unfold round, scaled_mantissa, cexp. rewrite M.
    assert (EE : fexp (Z.of_N (N.log2 n) + 1) = Z.of_N e).
    { unfold FLT_exp, prec53, emax1024, e. lia. }
    rewrite EE.
    assert (P0 : (0 < 2 ^ e)%N) by (apply N.neq_0_lt_0, N.pow_nonzero; discriminate).
    pose (P := (2 ^ e)%N). fold P in P0.
    assert (BP : bpow radix2 (Z.of_N e) = IZR (Z.of_N P)).
    { rewrite <- IZR_Zpower by lia. f_equal. unfold P. rewrite N2Z.inj_pow. reflexivity. }
    assert (BM : bpow radix2 (- Z.of_N e) = / IZR (Z.of_N P)).
    { rewrite bpow_opp, BP. reflexivity. }
    rewrite BM. unfold F2R. simpl Fnum. simpl Fexp. rewrite BP.
    unfold round53. apply N.ltb_ge in H1 as H1'. rewrite H1'. fold e. cbv zeta. fold P.
    assert (He : (1 <= e)%N) by (unfold e; lia).
    assert (PH : (P = 2 * 2 ^ (e - 1))%N).
    { unfold P. replace e with (N.succ (e - 1)) at 1 by lia. rewrite N.pow_succ_r'. reflexivity. }
    set (h := (2 ^ (e - 1))%N) in *.
    pose proof (N.div_mod n P) as DM. assert (NZ : P <> 0%N) by lia. specialize (DM NZ).
    assert (ML : (n mod P < P)%N) by (apply N.mod_lt; exact NZ).
    set (q := (n / P)%N) in *. set (r := (n mod P)%N) in *.
    assert (RP : 0 < IZR (Z.of_N P)) by (apply IZR_lt; lia).
    assert (XE : IZR (Z.of_N n) * / IZR (Z.of_N P) = IZR (Z.of_N q) + IZR (Z.of_N r) / IZR (Z.of_N P)).
    { rewrite DM at 1. rewrite N2Z.inj_add, N2Z.inj_mul, plus_IZR, mult_IZR. field. lra. }
    assert (RR : 0 <= IZR (Z.of_N r) / IZR (Z.of_N P) < 1).
    { split.
      - apply Rmult_le_pos; [apply IZR_le; lia|]. apply Rlt_le, Rinv_0_lt_compat, RP.
      - apply Rmult_lt_reg_r with (IZR (Z.of_N P)); [exact RP|].
        unfold Rdiv. rewrite Rmult_assoc, Rinv_l, Rmult_1_r, Rmult_1_l by lra. apply IZR_lt. lia. }
    assert (FL : Zfloor (IZR (Z.of_N n) * / IZR (Z.of_N P)) = Z.of_N q).
    { apply Zfloor_imp. rewrite XE, plus_IZR. lra. }
    assert (CE : (0 < r)%N -> Zceil (IZR (Z.of_N n) * / IZR (Z.of_N P)) = (Z.of_N q + 1)%Z).
    { intros Hr. apply Zceil_imp. rewrite XE. rewrite Z.add_simpl_r, plus_IZR.
      assert (0 < IZR (Z.of_N r) / IZR (Z.of_N P)).
      { apply Rmult_lt_0_compat; [apply IZR_lt; lia|]. apply Rinv_0_lt_compat, RP. }
      lra. }
    assert (CMP : Rcompare (IZR (Z.of_N n) * / IZR (Z.of_N P) - IZR (Zfloor (IZR (Z.of_N n) * / IZR (Z.of_N P)))) (/ 2)
                = Z.compare (Z.of_N r) (Z.of_N h)).
    { rewrite FL, XE.
      replace (IZR (Z.of_N q) + IZR (Z.of_N r) / IZR (Z.of_N P) - IZR (Z.of_N q))
        with (IZR (Z.of_N r) / IZR (Z.of_N P)) by ring.
      rewrite <- Rcompare_IZR.
      rewrite <- (Rcompare_mult_r (IZR (Z.of_N P)) _ (/2)) by exact RP.
      f_equal.
      - field. lra.
      - rewrite PH, N2Z.inj_mul, mult_IZR. simpl (IZR (Z.of_N 2)). field. }
    unfold Znearest. rewrite CMP, FL.
    assert (HP : (0 < h)%N) by lia.
    destruct (Z.compare_spec (Z.of_N r) (Z.of_N h)) as [C|C|C].
    + assert (r = h) as C' by lia.
      assert (L : ((h <? r) = false)%N) by (apply N.ltb_ge; lia).
      assert (L' : ((h =? r) = true)%N) by (apply N.eqb_eq; lia).
      rewrite L, L', orb_false_l, andb_true_l.
      rewrite CE by lia.
      rewrite <- Z.negb_odd, negb_involutive.
      assert (OD : Z.odd (Z.of_N q) = N.odd q) by (destruct q as [|[|[]|]]; reflexivity).
      rewrite OD. destruct (N.odd q).
      * rewrite <- mult_IZR. f_equal. lia.
      * rewrite <- mult_IZR. f_equal. lia.
    + assert (L : ((h <? r) = false)%N) by (apply N.ltb_ge; lia).
      assert (L' : ((h =? r) = false)%N) by (apply N.eqb_neq; lia).
      rewrite L, L'. simpl. rewrite <- mult_IZR. f_equal. lia.
    + assert (L : ((h <? r) = true)%N) by (apply N.ltb_lt; lia).
      rewrite L. simpl. rewrite CE by lia. rewrite <- mult_IZR. f_equal. lia.
Qed.

Lemma u64_as_f64_value n : (n < two64)%N ->
  B2R (u64_as_f64 n) = IZR (Z.of_N (round53 n)) /\ is_finite (u64_as_f64 n) = true.
Proof.
  intros Hn. unfold u64_as_f64.
  pose proof (binary_normalize_correct prec53 emax1024 prec53_gt0 prec53_lt mode_NE (Z.of_N n) 0 false) as H.
  assert (E : F2R (Float radix2 (Z.of_N n) 0) = IZR (Z.of_N n)) by (unfold F2R; simpl; lra).
  cbv zeta in H. rewrite E in H. rewrite SpecFloat_fexp_eq in H.
  change (round_mode mode_NE) with ZnearestE in H.
  rewrite round53_is_round in H by exact Hn.
  rewrite Rlt_bool_true in H.
  - tauto.
  - rewrite Rabs_pos_eq by (apply IZR_le; lia).
    apply Rle_lt_trans with (bpow radix2 64).
    + change (bpow radix2 64) with (IZR (Z.of_N two64)). apply IZR_le.
      pose proof (round53_le n Hn). lia.
    + apply bpow_lt. reflexivity.
Qed.

(** The exact value of the sample. *)
Lemma rng_sample_f64_value seed :
  B2R (fst (rng_sample_f64 seed)) = IZR (Z.of_N (round53 (rng_next seed))) * bpow radix2 (-64)
  /\ is_finite (fst (rng_sample_f64 seed)) = true.
Proof.
  unfold rng_sample_f64. cbn [fst].
  pose proof (rng_next_lt seed) as Hn. set (n := rng_next seed) in *.
  destruct (u64_as_f64_value n Hn) as [V Fi].
  pose proof (Bmult_correct prec53 emax1024 prec53_gt0 prec53_lt mode_NE magic (u64_as_f64 n)) as H.
  rewrite SpecFloat_fexp_eq in H. rewrite V, magic_value in H.
  assert (RL : 0 <= IZR (Z.of_N (round53 n)) <= bpow radix2 64).
  { change (bpow radix2 64) with (IZR (Z.of_N two64)).
    pose proof (round53_le n Hn). split; apply IZR_le; lia. }
  assert (G : round radix2 fexp (round_mode mode_NE) (bpow radix2 (-64) * IZR (Z.of_N (round53 n)))
              = IZR (Z.of_N (round53 n)) * bpow radix2 (-64)).
  { rewrite Rmult_comm. apply round_generic; [apply valid_rnd_round_mode|].
    destruct (N.lt_ge_cases n 9007199254740992) as [H1|H1].
    - rewrite round53_spec_small by exact H1.
      apply generic_format_FLT. exists (Float radix2 (Z.of_N n) (-64)).
      + reflexivity.
      + simpl Fnum. rewrite Z.abs_eq by lia. change (radix2 ^ prec53)%Z with 9007199254740992%Z. lia.
      + simpl. unfold emax1024, prec53. lia.
    - destruct (round53_close n H1 Hn) as [He [_ [_ [q [Eq Hq]]]]].
      set (e := (N.log2 n - 52)%N) in *.
      assert (EQ : IZR (Z.of_N (round53 n)) * bpow radix2 (-64) = IZR (Z.of_N q) * bpow radix2 (Z.of_N e - 64)).
      { rewrite Eq, N2Z.inj_mul, mult_IZR, N2Z.inj_pow, Rmult_assoc. f_equal.
        change (2%N) with 2%N. change (Z.of_N 2) with (radix_val radix2).
        rewrite IZR_Zpower by lia. rewrite <- bpow_plus. reflexivity. }
      rewrite EQ.
      destruct (N.eq_dec q 9007199254740992) as [Q|Q].
      + rewrite Q. change (IZR (Z.of_N 9007199254740992)) with (bpow radix2 53).
        rewrite <- bpow_plus. apply generic_format_bpow. unfold FLT_exp, emax1024, prec53. lia.
      + apply generic_format_FLT. exists (Float radix2 (Z.of_N q) (Z.of_N e - 64)).
        * reflexivity.
        * simpl Fnum. rewrite Z.abs_eq by lia. change (radix2 ^ prec53)%Z with 9007199254740992%Z. lia.
        * simpl. unfold emax1024, prec53. lia. }
  rewrite G in H.
  rewrite Rlt_bool_true in H.
  - rewrite magic_finite, Fi in H. tauto.
  - rewrite Rabs_pos_eq.
    + apply Rle_lt_trans with (bpow radix2 64 * bpow radix2 (-64)).
      * apply Rmult_le_compat_r; [apply bpow_ge_0|]. apply RL.
      * rewrite <- bpow_plus. apply bpow_lt. reflexivity.
    + apply Rmult_le_pos; [apply RL|apply bpow_ge_0].
Qed.
