(** Binary64 arithmetic and the conditions under which a run does not panic (C49). *)
From Coq Require Import NArith ZArith QArith Reals Lia Lra List Bool Psatz.
From Flocq Require Import Core IEEE754.BinarySingleNaN.
From Verif Require Import Float RngModel RngLemmas RngIeee Ieee ParticleModel NuclearModel MeshTypes Balance TrackModel CycleModel ScheduleSpec RangeSpec
  IeeeEnergy PopSpec SegmentSpec SafeSpec.
Import ListNotations.
Local Open Scope R_scope.

Notation zero64 := (B754_zero false : f64).

(** ** Signs *)
Definition negative (x : f64) : bool := match x with B754_infinity true | B754_finite true _ _ _ => true | _ => false end.
Lemma ltb_zero (x : f64) : Bltb x zero64 = negative x.
Proof. destruct x as [b|b| |b m e H]; try destruct b; reflexivity. Qed.
Lemma gtb_zero (x : f64) : Bltb zero64 x = match x with B754_infinity false | B754_finite false _ _ _ => true | _ => false end.
Proof. destruct x as [b|b| |b m e H]; try destruct b; reflexivity. Qed.
Lemma leb_zero (x : f64) : Bleb zero64 x = match x with B754_nan => false | _ => negb (negative x) end.
Proof. destruct x as [b|b| |b m e H]; try destruct b; reflexivity. Qed.

Lemma finite_sign (x : f64) : is_finite x = true -> (negative x = false <-> 0 <= B2R x).
Proof.
  destruct x as [b|b| |b m e H]; cbn; intros Fx; try discriminate; [split; auto; lra|].
  destruct b; split; intros A; try discriminate; auto.
  - exfalso. assert (F2R (Float radix2 (Zneg m) e) < 0) by (apply F2R_lt_0; reflexivity). cbn in * . lra.
  - apply F2R_ge_0. cbn. lia.
Qed.

Definition good64 (x : f64) : Prop := is_finite x = true /\ 0 <= B2R x.
Lemma good_sign x : good64 x -> negative x = false.
Proof. intros (A & B). apply finite_sign; assumption. Qed.
Lemma between_good x a b : 0 <= a -> between x a b -> good64 x.
Proof. intros H (A & B). split; [exact A|lra]. Qed.

Lemma overflow_sign (z : f64) s : B2SF z = binary_overflow prec53 emax1024 mode_NE s -> s = false -> negative z = false.
Proof. intros H ->. unfold binary_overflow in H. cbn [overflow_to_inf] in H. destruct z as [b|b| |b m e Hb]; cbn in H; try discriminate; try injection H as ->; try reflexivity. Qed.

Lemma mult_sign (x y : f64) : is_finite x = true -> is_finite y = true -> 0 <= B2R x * B2R y ->
  (B2R x * B2R y <> 0 -> xorb (Bsign x) (Bsign y) = false) -> negative (fmul64 x y) = false.
Proof.
  intros Fx Fy Hp Hs. unfold fmul64. pose proof (Bmult_correct prec53 emax1024 _ _ mode_NE x y) as C. cbv zeta in C.
  rewrite SpecFloat_fexp_eq in C. change (round_mode mode_NE) with ZnearestE in C. revert C. case Rlt_bool_spec; intros L C.
  - destruct C as (E & Fi & _). rewrite Fx, Fy in Fi. apply finite_sign; [exact Fi|]. rewrite E.
    replace 0 with (rnd 0) by (apply round_0; apply valid_rnd_N). apply round_le; [apply FLT_exp_valid; reflexivity|apply valid_rnd_N|exact Hp].
  - eapply overflow_sign; [exact C|]. apply Hs. intros Z. rewrite Z, round_0, Rabs_R0 in L by apply valid_rnd_N. pose proof (bpow_gt_0 radix2 emax1024). lra.
Qed.

Lemma finite_positive (x : f64) : is_finite x = true -> 0 <= B2R x -> B2R x <> 0 -> Bsign x = false.
Proof. intros Fx Hx Hn. destruct x as [b|b| |b m e H]; cbn in * ; try discriminate; [lra|]. destruct b; [|reflexivity]. exfalso.
  assert (F2R (Float radix2 (Zneg m) e) < 0) by (apply F2R_lt_0; reflexivity). cbn in * . lra. Qed.
Lemma finite_negative (x : f64) : is_finite x = true -> B2R x <= 0 -> B2R x <> 0 -> Bsign x = true.
Proof. intros Fx Hx Hn. destruct x as [b|b| |b m e H]; cbn in * ; try discriminate; [lra|]. destruct b; [reflexivity|]. exfalso.
  assert (0 < F2R (Float radix2 (Zpos m) e)) by (apply F2R_gt_0; reflexivity). cbn in * . lra. Qed.

Lemma mul_sign (x y : f64) : negative x = false -> negative y = false -> negative (fmul64 x y) = false.
Proof.
  intros Hx Hy. destruct (is_finite x) eqn:Fx, (is_finite y) eqn:Fy.
  - pose proof (proj1 (finite_sign x Fx) Hx) as Rx. pose proof (proj1 (finite_sign y Fy) Hy) as Ry.
    apply mult_sign; auto; [apply Rmult_le_pos; assumption|]. intros Hn.
    rewrite (finite_positive x Fx Rx), (finite_positive y Fy Ry); [reflexivity| |]; intros Z; apply Hn; rewrite Z; ring.
  - destruct y as [b|b| |b m e H]; try discriminate; destruct x as [c|c| |c m' e' H']; try discriminate; try destruct b; try destruct c; try discriminate; reflexivity.
  - destruct x as [b|b| |b m e H]; try discriminate; destruct y as [c|c| |c m' e' H']; try discriminate; try destruct b; try destruct c; try discriminate; reflexivity.
  - destruct x as [b|b| |b m e H]; try discriminate; destruct y as [c|c| |c m' e' H']; try discriminate; try destruct b; try destruct c; try discriminate; reflexivity.
Qed.

Lemma add_sign (x y : f64) : negative x = false -> negative y = false -> negative (fadd64 x y) = false.
Proof.
  intros Hx Hy. destruct (is_finite x) eqn:Fx, (is_finite y) eqn:Fy.
  - pose proof (proj1 (finite_sign x Fx) Hx) as Rx. pose proof (proj1 (finite_sign y Fy) Hy) as Ry.
    unfold fadd64. pose proof (Bplus_correct prec53 emax1024 _ _ mode_NE x y Fx Fy) as C. rewrite SpecFloat_fexp_eq in C. change (round_mode mode_NE) with ZnearestE in C.
    revert C. case Rlt_bool_spec; intros L C.
    + destruct C as (E & Fi & _). apply finite_sign; [exact Fi|]. rewrite E.
      replace 0 with (rnd 0) by (apply round_0; apply valid_rnd_N). apply round_le; [apply FLT_exp_valid; reflexivity|apply valid_rnd_N|lra].
    + destruct C as (E & Es). eapply overflow_sign; [exact E|].
      destruct (Req_dec (B2R x) 0) as [Zx|Zx]; [|apply finite_positive; assumption]. rewrite Es. apply finite_positive; auto. intros Zy.
      rewrite Zx, Zy, Rplus_0_r, round_0, Rabs_R0 in L by apply valid_rnd_N. pose proof (bpow_gt_0 radix2 emax1024). lra.
  - destruct y as [b|b| |b m e H]; try discriminate; destruct x as [c|c| |c m' e' H']; try discriminate; try destruct b; try destruct c; try discriminate; reflexivity.
  - destruct x as [b|b| |b m e H]; try discriminate; destruct y as [c|c| |c m' e' H']; try discriminate; try destruct b; try destruct c; try discriminate; reflexivity.
  - destruct x as [b|b| |b m e H]; try discriminate; destruct y as [c|c| |c m' e' H']; try discriminate; try destruct b; try destruct c; try discriminate; reflexivity.
Qed.

Lemma sqrt_sign (x : f64) : negative (Bsqrt mode_NE x : f64) = false.
Proof.
  pose proof (Bsqrt_correct prec53 emax1024 _ _ mode_NE x) as (E & Fi & _). rewrite SpecFloat_fexp_eq in E. change (round_mode mode_NE) with ZnearestE in E.
  destruct (is_finite (Bsqrt mode_NE x)) eqn:Fs.
  - apply finite_sign; [exact Fs|]. rewrite E. replace 0 with (rnd 0) by (apply round_0; apply valid_rnd_N).
    apply round_le; [apply FLT_exp_valid; reflexivity|apply valid_rnd_N|apply sqrt_pos].
  - destruct x as [b|b| |b m e H]; try destruct b; try reflexivity; try discriminate.
Qed.

Lemma inverse_sign (x : f64) : good64 x -> Beqb x zero64 = false -> negative (fdiv64 (f64_of_Z 1) x) = false.
Proof.
  intros (Fx & Hx) Hz. destruct one64 as (F1 & V1).
  assert (Rx : B2R x <> 0).
  { intros Z. rewrite Beqb_correct in Hz by auto. rewrite Z in Hz. cbn in Hz. revert Hz. case Req_bool_spec; [discriminate|]. intros C. exfalso. apply C. reflexivity. }
  unfold fdiv64. pose proof (Bdiv_correct prec53 emax1024 _ _ mode_NE (f64_of_Z 1) x Rx) as C. rewrite SpecFloat_fexp_eq in C. change (round_mode mode_NE) with ZnearestE in C.
  revert C. case Rlt_bool_spec; intros L C.
  - destruct C as (E & Fi & _). rewrite F1 in Fi. apply finite_sign; [exact Fi|]. rewrite E, V1.
    replace 0 with (rnd 0) by (apply round_0; apply valid_rnd_N). apply round_le; [apply FLT_exp_valid; reflexivity|apply valid_rnd_N|].
    apply Rle_mult_inv_pos; lra.
  - eapply overflow_sign; [exact C|]. rewrite (finite_positive x Fx Hx Rx). rewrite (finite_positive (f64_of_Z 1) F1); [reflexivity| |]; rewrite V1; lra.
Qed.

Lemma leb_trans (x y z : f64) : Bleb x y = true -> Bleb y z = true -> Bleb x z = true.
Proof.
  intros H1 H2. destruct (is_finite x) eqn:Fx, (is_finite y) eqn:Fy, (is_finite z) eqn:Fz.
  1:{ rewrite Bleb_correct in * by assumption. apply Rle_bool_true. revert H1 H2. case Rle_bool_spec; [|discriminate]. case Rle_bool_spec; [|discriminate]. intros; lra. }
  all: destruct x as [bx|bx| |bx mx ex Hx]; try discriminate; destruct y as [b|b| |b m e H]; try discriminate; destruct z as [bz|bz| |bz mz ez Hz]; try discriminate;
    try destruct bx; try destruct b; try destruct bz; try discriminate; try reflexivity.
Qed.

Section Laws.
Variable lm : libm.
Local Notation K := (f64ops lm).

(** The logarithm of a number between 0 and 1 is not positive. *)
Definition ln_sign : Prop := forall x : f64, between x 0 1 -> Bltb zero64 (lm_ln lm x) = false.
Hypothesis Hln : ln_sign.

Lemma minus_one_mul (y : f64) : Bltb zero64 y = false -> negative (fmul64 (Bopp (f64_of_Z 1)) y) = false.
Proof.
  rewrite gtb_zero. intros H. destruct one64 as (F1 & V1).
  destruct (is_finite y) eqn:Fy.
  - assert (Ry : B2R y <= 0).
    { destruct y as [b|b| |b m e Hb]; try discriminate; [cbn; lra|]. destruct b; [|discriminate]. cbn. apply F2R_le_0. cbn. lia. }
    apply mult_sign; auto.
    + rewrite B2R_Bopp, V1. lra.
    + intros Hn. assert (Zy : B2R y <> 0) by (intros Z; apply Hn; rewrite Z; ring).
      rewrite (finite_negative y Fy Ry Zy). rewrite (finite_negative (Bopp (f64_of_Z 1))); [reflexivity| | |]; rewrite ?is_finite_Bopp, ?B2R_Bopp, ?V1; auto; lra.
  - destruct y as [b|b| |b m e Hb]; try discriminate; try destruct b; try discriminate; reflexivity.
Qed.

Lemma constant64 (x : f64) s m e : B2SF x = SpecFloat.S754_finite s m e -> s = false -> good64 x.
Proof. intros H ->. destruct (finite_value x _ _ _ H) as (A & B). split; [exact A|]. rewrite B. apply F2R_ge_0. cbn. lia. Qed.

Lemma sign_laws64 : sign_laws (K := K) good64.
Proof.
  constructor; unfold not_negative; cbn [f0 f1 fadd fsub fmul fdiv fneg fmax fmin flt fle feq fsqrt fhuge ftiny fsmall flit fof_N fln fsample f64ops]; intros; rewrite ?ltb_zero in * .
  - reflexivity.
  - vm_compute. reflexivity.
  - vm_compute. reflexivity.
  - vm_compute. reflexivity.
  - vm_compute. reflexivity.
  - vm_compute. reflexivity.
  - vm_compute. reflexivity.
  - vm_compute. reflexivity.
  - eapply leb_trans; eassumption.
  - rewrite leb_zero in H. destruct x as [b|b| |b m e Hb]; try destruct b; try discriminate; reflexivity.
  - rewrite leb_zero, H0. destruct x; try reflexivity. discriminate.
  - unfold fmax64. cbn [is_nan]. destruct (is_nan x); [reflexivity|]. rewrite ltb_zero. destruct (negative x) eqn:E; [reflexivity|exact E].
  - unfold fmax64. cbn [is_nan]. destruct (is_nan x); [vm_compute; reflexivity|]. destruct (Bltb x zero64); [vm_compute; reflexivity|exact H].
  - unfold fmin64. cbn [is_nan]. destruct (is_nan x); [reflexivity|]. rewrite ltb_zero, H. reflexivity.
  - apply mul_sign; assumption.
  - apply add_sign; assumption.
  - apply sqrt_sign.
  - apply inverse_sign; assumption.
  - apply good_sign. eapply between_good; [|apply fsample64_between; assumption]. lra.
  - apply minus_one_mul. apply Hln. apply fsample64_between. assumption.
  - rewrite leb_zero, (good_sign _ H). destruct H as (A & _). destruct x; try discriminate; reflexivity.
  - eapply constant64; [vm_compute; reflexivity|reflexivity].
  - destruct H as (Fx & Hx). destruct (fsample64_between s H0) as (Fs & Rs). eapply between_good; [apply Rle_refl|].
    apply (mul_between x (fsample64 s) 0 (B2R x)); auto using is_f64_0, is_f64_self. nra.
  - destruct H as (Fx & Hx), H0 as (Fy & Hy). assert (B : between (fsub64 x y) (- B2R y) (B2R x)).
    { apply sub_between; auto using is_f64_self; [|lra]. exists (Bopp y). rewrite is_finite_Bopp, B2R_Bopp. auto. }
    destruct B as (A & _). split; [exact A|]. apply finite_sign; assumption.
Qed.
End Laws.

(** ** Numbers of particles *)
Lemma of_N_between (n : N) a b : is_f64 a -> is_f64 b -> a <= IZR (Z.of_N n) <= b -> between (f64_of_Z (Z.of_N n)) a b.
Proof.
  intros Ha Hb H. destruct (rnd_between _ _ _ Ha Hb H) as (G & L). unfold f64_of_Z.
  pose proof (binary_normalize_correct prec53 emax1024 prec53_gt0 prec53_lt mode_NE (Z.of_N n) 0 false) as C. cbv zeta in C.
  rewrite SpecFloat_fexp_eq in C. change (round_mode mode_NE) with ZnearestE in C.
  assert (E0 : F2R (Float radix2 (Z.of_N n) 0) = IZR (Z.of_N n)) by (unfold F2R; cbn; ring). rewrite E0 in C.
  rewrite Rlt_bool_true in C by exact L. destruct C as (E & Fi & _). split; [exact Fi|]. rewrite E. exact G.
Qed.

Lemma power_f64 (k : Z) : (-1000 <= k < 1024)%Z -> is_f64 (bpow radix2 k).
Proof.
  intros Hk. exists (Bldexp mode_NE (f64_of_Z 1) k : f64). destruct one64 as (F1 & V1).
  pose proof (Bldexp_correct prec53 emax1024 _ _ mode_NE (f64_of_Z 1) k) as C. rewrite SpecFloat_fexp_eq in C. change (round_mode mode_NE) with ZnearestE in C.
  rewrite V1, Rmult_1_l in C.
  assert (G : rnd (bpow radix2 k) = bpow radix2 k).
  { apply round_generic; [apply valid_rnd_N|]. apply generic_format_bpow. unfold FLT_exp, prec53, emax1024. cbn. lia. }
  rewrite G in C. rewrite Rlt_bool_true in C.
  - destruct C as (E & Fi & _). split; [rewrite Fi; exact F1|exact E].
  - rewrite Rabs_pos_eq by apply bpow_ge_0. apply bpow_lt. unfold emax1024. lia.
Qed.

Definition top : R := bpow radix2 63.
Lemma top_is : top = IZR (2 ^ 63). Proof. unfold top. rewrite <- IZR_Zpower by lia. reflexivity. Qed.
Lemma is_f64_top : is_f64 top. Proof. apply power_f64. lia. Qed.

Lemma of_Z_minus1 : is_finite (f64_of_Z (-1)) = true /\ B2R (f64_of_Z (-1)) = -1.
Proof. destruct (finite_value (f64_of_Z (-1)) true 4503599627370496 (-52)) as (A & B); [vm_compute; reflexivity|]. split; [exact A|]. rewrite B. unfold F2R. cbn. lra. Qed.
Lemma of_Z_two64 : is_finite (f64_of_Z (2 ^ 64)) = true /\ B2R (f64_of_Z (2 ^ 64)) = IZR (2 ^ 64).
Proof.
  destruct (finite_value (f64_of_Z (2 ^ 64)) false 4503599627370496 12) as (A & B); [vm_compute; reflexivity|]. split; [exact A|]. rewrite B. unfold F2R. cbn [Fnum Fexp cond_Zopp bpow].
  rewrite <- mult_IZR. reflexivity.
Qed.

(** A number between 0 and 2^63 converts, to its integer part. *)
Lemma to_usize64 (x : f64) : between x 0 top -> fto_usize64 x = Some (Z.to_N (Ztrunc (B2R x))).
Proof.
  intros (Fx & Hx). rewrite top_is in Hx. unfold fto_usize64. destruct of_Z_minus1 as (F1 & V1). destruct of_Z_two64 as (F2 & V2).
  rewrite !Bltb_correct by assumption. rewrite V1, V2. rewrite Rlt_bool_true by lra. rewrite Rlt_bool_true.
  2:{ eapply Rle_lt_trans; [apply Hx|]. apply IZR_lt. reflexivity. }
  cbn [andb]. f_equal. f_equal. apply eq_IZR. rewrite Btrunc_correct by reflexivity. unfold round, F2R, scaled_mantissa, cexp, FIX_exp. cbn. rewrite !Rmult_1_r. reflexivity.
Qed.

Lemma floor64 (x : f64) : is_finite x = true -> is_finite (Bnearbyint mode_DN x : f64) = true /\ B2R (Bnearbyint mode_DN x : f64) = IZR (Zfloor (B2R x)).
Proof.
  intros Fx. destruct (Bnearbyint_correct prec53 emax1024 _ mode_DN x) as (E & Fi & _). split; [rewrite Fi; exact Fx|]. rewrite E.
  unfold round, F2R, scaled_mantissa, cexp, FIX_exp. cbn. rewrite !Rmult_1_r. reflexivity.
Qed.
Lemma ceil64 (x : f64) : is_finite x = true -> is_finite (Bnearbyint mode_UP x : f64) = true /\ B2R (Bnearbyint mode_UP x : f64) = IZR (Zceil (B2R x)).
Proof.
  intros Fx. destruct (Bnearbyint_correct prec53 emax1024 _ mode_UP x) as (E & Fi & _). split; [rewrite Fi; exact Fx|]. rewrite E.
  unfold round, F2R, scaled_mantissa, cexp, FIX_exp. cbn. rewrite !Rmult_1_r. reflexivity.
Qed.

Lemma quotient64 (a b : N) : (a <= 2 ^ 63)%N -> (0 < b)%N -> between (fdiv64 (f64_of_Z (Z.of_N a)) (f64_of_Z (Z.of_N b))) 0 top.
Proof.
  intros Ha Hb. assert (A : between (f64_of_Z (Z.of_N a)) 0 top).
  { apply of_N_between; auto using is_f64_0, is_f64_top. rewrite top_is. split; apply IZR_le; lia. }
  destruct A as (Fa & Ra).
  pose proof (binary_normalize_correct prec53 emax1024 prec53_gt0 prec53_lt mode_NE (Z.of_N b) 0 false) as C. cbv zeta in C.
  rewrite SpecFloat_fexp_eq in C. change (round_mode mode_NE) with ZnearestE in C.
  assert (E0 : F2R (Float radix2 (Z.of_N b) 0) = IZR (Z.of_N b)) by (unfold F2R; cbn; ring). rewrite E0 in C.
  destruct (Rlt_bool _ _).
  - destruct C as (E & _). fold (f64_of_Z (Z.of_N b)) in E. destruct is_f64_1 as (o & Fo & Eo).
    assert (G : rnd 1 = 1) by (rewrite <- Eo; apply round_generic; [apply valid_rnd_N|apply generic_format_B2R]).
    assert (Rb : 1 <= B2R (f64_of_Z (Z.of_N b))).
    { rewrite E, <- G. apply round_le; [apply FLT_exp_valid; reflexivity|apply valid_rnd_N|]. apply (IZR_le 1). lia. }
    apply div_between; auto using is_f64_0, is_f64_top; [lra|]. set (x := B2R (f64_of_Z (Z.of_N a))) in * . set (y := B2R (f64_of_Z (Z.of_N b))) in * . clearbody x y.
    split; [apply Rle_mult_inv_pos; lra|]. apply Rle_trans with x; [|tauto]. apply Rmult_le_reg_r with y; [lra|]. unfold Rdiv. rewrite Rmult_assoc, Rinv_l by lra. nra.
  - fold (f64_of_Z (Z.of_N b)) in C. unfold binary_overflow in C. cbn [overflow_to_inf] in C. rewrite top_is.
    destruct (f64_of_Z (Z.of_N b)) as [c|c| |c m e H]; try discriminate. destruct (f64_of_Z (Z.of_N a)) as [d|d| |d m e H]; try discriminate;
      (split; [reflexivity|]; cbn; split; [lra|]; apply IZR_le; lia).
Qed.

(** ** The checks of a run *)
Section Values.
Variable lm : libm.
Local Notation K := (f64ops lm).

(** Conditions on the numbers of a problem, each of them about finitely many numbers: the time step is not negative, the
    cross-sections of cells and reactions are finite and not negative, the average number of neutrons of a fission plus one
    is below five, one unit has from ten to 2^63 particles to follow, and each cell can count the particles it creates. *)
Record fine_numbers (md : mcdata K) (dom : domain K) : Prop := {
  fn_dt : flt (td_dt (mc_track md)) (f0 : F K) = false;
  fn_total : forall c g xs, in_range dom (sp_n_groups (mc_params md)) c g -> cell_cross_section (mc_track md) dom c g = Ok xs -> good64 xs;
  fn_shares : forall cs mat iso rs r g x, In cs (d_cells dom) ->
    nth_error (td_mats (mc_track md)) (N.to_nat (cs_material cs)) = Some mat -> In iso (mat_iso mat) ->
    nth_error (nd_isotopes (td_nuclear (mc_track md))) (N.to_nat (iso_gid iso)) = Some rs -> In r rs ->
    nth_error (r_cross_section r) g = Some x -> good64 (fmul (fmul (iso_atom_fraction iso) (cs_number_density cs)) x);
  fn_nu : forall rs r, In rs (nd_isotopes (td_nuclear (mc_track md))) -> In r rs -> r_type r = Fission ->
    good64 (r_nu_bar r) /\ is_finite (fadd (r_nu_bar r) (f1 : F K) : f64) = true /\ flt (fadd (r_nu_bar r) f1) (flit (5 # 1) : F K) = true;
  fn_particles : (10 <= sp_n_particles (mc_params md) <= 2 ^ 63)%N;
  fn_units : ei_n_units (mc_exec md) = 1%N;
  fn_source : forall w cs x, unit_weight md dom = Ok w -> In cs (d_cells dom) -> emits md cs x ->
    exists n, fto_usize (ffloor (fdiv x (fdiv (fadd f0 w) (fmul src_fraction (fof_N (sp_n_particles (mc_params md))))))) = Some n
}.

Lemma copies64 (f : f64) s : between f 0 top -> Bltb (f64_of_Z 1) f = true -> (s < two64)%N -> exists n, fto_usize64 (copies (K := K) f (fsample64 s)) = Some n.
Proof.
  intros (Ff & Rf) Hf Hs. destruct one64 as (F1 & V1). rewrite Bltb_correct in Hf by assumption. rewrite V1 in Hf. revert Hf. case Rlt_bool_spec; [|discriminate]. intros H1 _.
  destruct (floor64 f Ff) as (Fl & Vl). unfold copies. cbn [fsub ffloor f1 flt f64ops].
  assert (Hz : (1 <= Zfloor (B2R f))%Z) by (apply Zfloor_lub; lra). apply IZR_le in Hz. pose proof (Zfloor_lb (B2R f)) as Hb.
  destruct (Bltb _ _).
  - assert (B : between (fsub64 (Bnearbyint mode_DN f) (f64_of_Z 1)) 0 top) by (apply sub_between; auto using is_f64_0, is_f64_top; rewrite Vl, V1; lra).
    rewrite (to_usize64 _ B). eexists; reflexivity.
  - rewrite to_usize64; [eexists; reflexivity|]. split; [exact Fl|]. rewrite Vl. lra.
Qed.

Lemma five64 : is_finite (f64_lit (5 # 1)) = true /\ B2R (f64_lit (5 # 1)) = 5.
Proof.
  destruct (finite_value (f64_lit (5 # 1)) false 5629499534213120 (-50)) as (A & B); [vm_compute; reflexivity|].
  split; [exact A|]. rewrite B. unfold F2R. simpl. lra.
Qed.
Lemma tenth64 : is_finite (f64_lit (1 # 10)) = true /\ 1 / 10 <= B2R (f64_lit (1 # 10)) <= 1.
Proof.
  destruct (finite_value (f64_lit (1 # 10)) false 7205759403792794 (-56)) as (A & B); [vm_compute; reflexivity|].
  split; [exact A|]. rewrite B. unfold F2R. simpl. lra.
Qed.

Lemma safe_values64 (md : mcdata K) dom : fine_numbers md dom -> safe_values (K := K) good64 md dom.
Proof.
  intros [Hdt Ht Hs Hnu (Hn1 & Hn2) Hu Hsrc]. constructor.
  - exact Hdt.
  - exact Ht.
  - exact Hs.
  - intros rs r s Hrs Hr Hf Hss. destruct (Hnu rs r Hrs Hr Hf) as ((Fn & Rn) & Ff & Hlt). set (nu := r_nu_bar r : f64) in * .
    destruct (fsample64_between s Hss) as (Fs & Rs). destruct one64 as (F1 & V1). destruct five64 as (F5 & V5).
    change (Bltb (fadd64 nu (f64_of_Z 1)) (f64_lit (5 # 1)) = true) in Hlt. change (is_finite (fadd64 nu (f64_of_Z 1)) = true) in Ff.
    rewrite Bltb_correct in Hlt by assumption. rewrite V5 in Hlt. revert Hlt. case Rlt_bool_spec; [|discriminate]. intros H5 _.
    assert (E1 : B2R (fadd64 nu (f64_of_Z 1)) = rnd (B2R nu + 1)).
    { pose proof (Bplus_correct prec53 emax1024 _ _ mode_NE nu (f64_of_Z 1) Fn F1) as C. rewrite SpecFloat_fexp_eq in C. change (round_mode mode_NE) with ZnearestE in C.
      rewrite V1 in C. destruct (Rlt_bool _ _); [exact (proj1 C)|]. exfalso. destruct C as (E & _). unfold fadd64 in Ff. unfold binary_overflow in E. cbn [overflow_to_inf] in E.
      destruct (Bplus mode_NE nu (f64_of_Z 1)); discriminate. }
    assert (B : between (fadd64 nu (fsample64 s)) 0 (B2R (fadd64 nu (f64_of_Z 1)))).
    { pose proof (Bplus_correct prec53 emax1024 _ _ mode_NE nu (fsample64 s) Fn Fs) as C. rewrite SpecFloat_fexp_eq in C. change (round_mode mode_NE) with ZnearestE in C.
      assert (L : 0 <= rnd (B2R nu + B2R (fsample64 s)) <= B2R (fadd64 nu (f64_of_Z 1))).
      { split; [replace 0 with (rnd 0) by (apply round_0; apply valid_rnd_N)|rewrite E1]; (apply round_le; [apply FLT_exp_valid; reflexivity|apply valid_rnd_N|lra]). }
      rewrite Rlt_bool_true in C.
      - destruct C as (E & Fi & _). split; [exact Fi|]. unfold fadd64 at 1 2. rewrite E. exact L.
      - pose proof (abs_B2R_lt_emax prec53 emax1024 (fadd64 nu (f64_of_Z 1))) as A. apply Rabs_def2 in A. apply Rabs_def1; lra. }
    destruct B as (Fb & Rb). assert (T5 : 5 <= top) by (rewrite top_is; apply (IZR_le 5); lia).
    cbn [fto_usize fadd fsample f64ops]. fold nu. rewrite to_usize64 by (split; [exact Fb|lra]). eexists. split; [reflexivity|].
    rewrite Ztrunc_floor by lra. assert (Zfloor (B2R (fadd64 nu (fsample64 s))) < 5)%Z; [|lia]. apply lt_IZR. eapply Rle_lt_trans; [apply Zfloor_lb|]. lra.
  - destruct tenth64 as (Ft & Rt). set (np := sp_n_particles (mc_params md)) in * . clearbody np.
    assert (Hn : between (f64_of_Z (Z.of_N np)) 10 top).
    { apply of_N_between; [|apply is_f64_top|].
      - exists (f64_of_Z 10). destruct (finite_value (f64_of_Z 10) false 5629499534213120 (-49)) as (A & B); [vm_compute; reflexivity|]. split; [exact A|]. rewrite B. unfold F2R. simpl. lra.
      - rewrite top_is. split; [apply (IZR_le 10)|apply IZR_le]; lia. }
    destruct Hn as (Fn & Rn). assert (B : between (fmul64 (f64_lit (1 # 10)) (f64_of_Z (Z.of_N np))) 1 top) by (apply mul_between; auto using is_f64_1, is_f64_top; nra).
    change (exists n, fto_usize64 (fmul64 (f64_lit (1 # 10)) (f64_of_Z (Z.of_N np))) = Some n /\ (0 < n)%N). destruct B as (Fb & Rb).
    rewrite to_usize64 by (split; [exact Fb|lra]). eexists. split; [reflexivity|]. rewrite Ztrunc_floor by lra.
    assert (1 <= Zfloor (B2R (fmul64 (f64_lit (1 # 10)) (f64_of_Z (Z.of_N np)))))%Z by (apply Zfloor_lub; lra). lia.
  - exact Hsrc.
  - intros global local Hg Hl. rewrite Hu. unfold compute_split_factor. set (np := sp_n_particles (mc_params md)) in * . clearbody np. destruct (sp_load_balance _).
    + destruct (N.eqb_spec local 0); [lia|]. cbn [negb].
      assert (Q : between (fdiv64 (f64_of_Z (Z.of_N np)) (f64_of_Z (Z.of_N 1))) 0 top) by (apply quotient64; lia).
      destruct Q as (Fq & Rq). cbn [fto_usize fceil fdiv fof_N f64ops]. destruct (ceil64 _ Fq) as (Fc & Vc).
      set (q := fdiv64 (f64_of_Z (Z.of_N np)) (f64_of_Z (Z.of_N 1))) in * . clearbody q.
      assert (C : (0 <= Zceil (B2R q) <= 2 ^ 63)%Z).
      { split; [apply le_IZR; eapply Rle_trans; [apply Rq|apply Zceil_ub]|]. apply Zceil_glb. rewrite <- top_is. apply Rq. }
      rewrite to_usize64.
      2:{ split; [exact Fc|]. rewrite Vc, top_is. split; apply IZR_le; lia. }
      cbn [unwrap rbind]. rewrite Vc, Ztrunc_IZR. eexists. split; [reflexivity|]. intros Hf s Hs'. apply copies64; auto. apply quotient64; [|exact Hl]. lia.
    + eexists. split; [reflexivity|]. intros Hf s Hs'. apply copies64; auto. apply quotient64; assumption.
Qed.
End Values.
