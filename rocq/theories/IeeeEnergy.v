(** Energies in binary64 arithmetic: the energies a particle can get stay below the maximum. *)
From Coq Require Import NArith ZArith QArith Reals Lia Lra List Bool.
From Flocq Require Import Core IEEE754.BinarySingleNaN.
From Verif Require Import Float RngModel RngLemmas RngIeee Ieee ParticleModel NuclearModel MeshTypes Balance TrackModel
  CycleModel ScheduleSpec RangeSpec.
Import ListNotations.
Local Open Scope R_scope.

(** A finite number between two reals. *)
Definition between (x : f64) (a b : R) : Prop := is_finite x = true /\ a <= B2R x <= b.
(** A real that is a finite binary64 number. *)
Definition is_f64 (c : R) : Prop := exists z : f64, is_finite z = true /\ B2R z = c.

Lemma is_f64_self (x : f64) : is_finite x = true -> is_f64 (B2R x).
Proof. intros H. exists x. auto. Qed.
Lemma is_f64_0 : is_f64 0.
Proof. exists (B754_zero false). split; reflexivity. Qed.

Lemma rnd_between a b x : is_f64 a -> is_f64 b -> a <= x <= b ->
  a <= rnd x <= b /\ Rabs (rnd x) < bpow radix2 emax1024.
Proof.
  intros (za & Fa & Ea) (zb & Fb & Eb) (H1 & H2).
  assert (Ga : rnd a = a) by (rewrite <- Ea; apply round_generic; [apply valid_rnd_N|apply generic_format_B2R]).
  assert (Gb : rnd b = b) by (rewrite <- Eb; apply round_generic; [apply valid_rnd_N|apply generic_format_B2R]).
  assert (L1 : a <= rnd x) by (rewrite <- Ga; apply round_le; auto; [apply FLT_exp_valid; reflexivity|apply valid_rnd_N]).
  assert (L2 : rnd x <= b) by (rewrite <- Gb; apply round_le; auto; [apply FLT_exp_valid; reflexivity|apply valid_rnd_N]).
  split; [split; assumption|].
  pose proof (abs_B2R_lt_emax prec53 emax1024 za) as A. pose proof (abs_B2R_lt_emax prec53 emax1024 zb) as B.
  rewrite Ea in A. rewrite Eb in B. apply Rabs_def2 in A. apply Rabs_def2 in B. apply Rabs_def1; lra.
Qed.

Lemma add_between x y a b : is_finite x = true -> is_finite y = true -> is_f64 a -> is_f64 b ->
  a <= B2R x + B2R y <= b -> between (fadd64 x y) a b.
Proof.
  intros Fx Fy Ha Hb H. destruct (rnd_between _ _ _ Ha Hb H) as (G & L).
  pose proof (Bplus_correct prec53 emax1024 _ _ mode_NE x y Fx Fy) as C.
  rewrite SpecFloat_fexp_eq in C. change (round_mode mode_NE) with ZnearestE in C.
  rewrite Rlt_bool_true in C by exact L. destruct C as (E & Fi & _).
  split; [exact Fi|]. unfold fadd64. rewrite E. exact G.
Qed.
Lemma sub_between x y a b : is_finite x = true -> is_finite y = true -> is_f64 a -> is_f64 b ->
  a <= B2R x - B2R y <= b -> between (fsub64 x y) a b.
Proof.
  intros Fx Fy Ha Hb H. destruct (rnd_between _ _ _ Ha Hb H) as (G & L).
  pose proof (Bminus_correct prec53 emax1024 _ _ mode_NE x y Fx Fy) as C.
  rewrite SpecFloat_fexp_eq in C. change (round_mode mode_NE) with ZnearestE in C.
  rewrite Rlt_bool_true in C by exact L. destruct C as (E & Fi & _).
  split; [exact Fi|]. unfold fsub64. rewrite E. exact G.
Qed.
Lemma mul_between x y a b : is_finite x = true -> is_finite y = true -> is_f64 a -> is_f64 b ->
  a <= B2R x * B2R y <= b -> between (fmul64 x y) a b.
Proof.
  intros Fx Fy Ha Hb H. destruct (rnd_between _ _ _ Ha Hb H) as (G & L).
  pose proof (Bmult_correct prec53 emax1024 _ _ mode_NE x y) as C.
  rewrite SpecFloat_fexp_eq in C. change (round_mode mode_NE) with ZnearestE in C.
  rewrite Rlt_bool_true in C by exact L. destruct C as (E & Fi & _).
  split; [unfold fmul64; rewrite Fi, Fx, Fy; reflexivity|]. unfold fmul64. rewrite E. exact G.
Qed.
Lemma div_between x y a b : is_finite x = true -> B2R y <> 0 -> is_f64 a -> is_f64 b ->
  a <= B2R x / B2R y <= b -> between (fdiv64 x y) a b.
Proof.
  intros Fx Hy Ha Hb H. destruct (rnd_between _ _ _ Ha Hb H) as (G & L).
  pose proof (Bdiv_correct prec53 emax1024 _ _ mode_NE x y Hy) as C.
  rewrite SpecFloat_fexp_eq in C. change (round_mode mode_NE) with ZnearestE in C.
  rewrite Rlt_bool_true in C by exact L. destruct C as (E & Fi & _).
  split; [unfold fdiv64; rewrite Fi; exact Fx|]. unfold fdiv64. rewrite E. exact G.
Qed.

(** ** Constants *)

Lemma finite_value (x : f64) s m e : B2SF x = SpecFloat.S754_finite s m e ->
  is_finite x = true /\ B2R x = F2R (Float radix2 (cond_Zopp s (Zpos m)) e).
Proof. destruct x; cbn; intros H; try discriminate. injection H; intros; subst. split; reflexivity. Qed.

Lemma one64 : is_finite (f64_of_Z 1) = true /\ B2R (f64_of_Z 1) = 1.
Proof.
  destruct (finite_value (f64_of_Z 1) false 4503599627370496 (-52)) as (A & B); [vm_compute; reflexivity|].
  split; [exact A|]. rewrite B. unfold F2R. simpl. lra.
Qed.
Lemma two64_lit : is_finite (f64_lit (2 # 1)) = true /\ B2R (f64_lit (2 # 1)) = 2.
Proof.
  destruct (finite_value (f64_lit (2 # 1)) false 4503599627370496 (-51)) as (A & B); [vm_compute; reflexivity|].
  split; [exact A|]. rewrite B. unfold F2R. simpl. lra.
Qed.
Lemma twenty64 : is_finite (f64_lit (20 # 1)) = true /\ B2R (f64_lit (20 # 1)) = 20.
Proof.
  destruct (finite_value (f64_lit (20 # 1)) false 5629499534213120 (-48)) as (A & B); [vm_compute; reflexivity|].
  split; [exact A|]. rewrite B. unfold F2R. simpl. lra.
Qed.
Lemma is_f64_1 : is_f64 1. Proof. exists (f64_of_Z 1). apply one64. Qed.
Lemma is_f64_2 : is_f64 2. Proof. exists (f64_lit (2 # 1)). apply two64_lit. Qed.
Lemma is_f64_20 : is_f64 20. Proof. exists (f64_lit (20 # 1)). apply twenty64. Qed.

(** The sample lies between 0 and 1 (1 included, see C03). *)
Lemma fsample64_between s : (s < two64)%N -> between (fsample64 s) 0 1.
Proof.
  intros Hs. destruct (u64_as_f64_value s Hs) as (V & Fi). unfold fsample64.
  apply (mul_between magic (u64_as_f64 s) 0 1); auto using magic_finite, is_f64_0, is_f64_1.
  rewrite V, magic_value. pose proof (round53_le s Hs) as HL.
  assert (H : 0 <= IZR (Z.of_N (round53 s)) <= bpow radix2 64).
  { change (bpow radix2 64) with (IZR (Z.of_N two64)). split; apply IZR_le; lia. }
  pose proof (bpow_ge_0 radix2 (-64)) as P. split; [apply Rmult_le_pos; tauto|].
  apply Rle_trans with (bpow radix2 (-64) * bpow radix2 64); [apply Rmult_le_compat_l; tauto|].
  rewrite <- bpow_plus. simpl. lra.
Qed.

(** ** Comparisons *)
Lemma leb64 (x y : f64) : is_finite x = true -> is_finite y = true -> Bleb x y = true -> B2R x <= B2R y.
Proof. intros Fx Fy H. rewrite Bleb_correct in H by assumption. revert H. case Rle_bool_spec; [auto|discriminate]. Qed.

Section Bounded.
Variable lm : libm.
Local Notation K := (f64ops lm).

(** Conditions on the parameters, as comparisons of binary64 numbers: the maximum is finite and at
    least 20, the minimum lies between 0 and the maximum, the width of the range added to the
    minimum does not round above the maximum, the masses are at least 1, the last boundary is not
    below the maximum. *)
Record bounded_params (md : mcdata K) : Prop := {
  bp_max_finite : is_finite (sp_e_max (mc_params md) : f64) = true;
  bp_min_finite : is_finite (sp_e_min (mc_params md) : f64) = true;
  bp_min : fle (f0 : F K) (sp_e_min (mc_params md)) = true;
  bp_order : fle (sp_e_min (mc_params md)) (sp_e_max (mc_params md)) = true;
  bp_20 : fle (flit (20 # 1) : F K) (sp_e_max (mc_params md)) = true;
  bp_width_finite : is_finite (fadd (fsub (sp_e_max (mc_params md)) (sp_e_min (mc_params md))) (sp_e_min (mc_params md)) : f64) = true;
  bp_width : fle (fadd (fsub (sp_e_max (mc_params md)) (sp_e_min (mc_params md))) (sp_e_min (mc_params md)))
                 (sp_e_max (mc_params md)) = true;
  bp_mass : Forall (fun mat : material K => is_finite (mat_mass mat : f64) = true /\ fle (f1 : F K) (mat_mass mat) = true)
              (td_mats (mc_track md));
  bp_last : forall el, last_energy md = Some el ->
    is_finite (el : f64) = true /\ fle (sp_e_max (mc_params md)) el = true
}.

Definition below (md : mcdata K) (e : F K) : Prop := between e 0 (B2R (sp_e_max (mc_params md) : f64)).

Lemma bounded_safe (md : mcdata K) : bounded_params md -> safe_energies md (below md).
Proof.
  intros [Fm Fn Hn Ho H20 Fw Hw Hm Hl]. set (em := sp_e_max (mc_params md) : f64) in * . set (en := sp_e_min (mc_params md) : f64) in * .
  assert (Rn : 0 <= B2R en) by (exact (leb64 (B754_zero false) en eq_refl Fn Hn)).
  assert (Ro : B2R en <= B2R em) by (exact (leb64 en em Fn Fm Ho)).
  destruct twenty64 as (F20 & V20).
  assert (R20 : 20 <= B2R em) by (rewrite <- V20; exact (leb64 _ em F20 Fm H20)).
  destruct one64 as (F1 & V1). destruct two64_lit as (F2 & V2).
  pose proof (is_f64_self em Fm) as Im. pose proof is_f64_0 as I0. pose proof is_f64_1 as I1.
  constructor.
  - intros s Hs. destruct (fsample64_between s Hs) as (Fs & Rs).
    assert (Hr : between (fsub64 em en) 0 (B2R em)) by (apply sub_between; auto; lra).
    destruct Hr as (Fr & Rr).
    assert (Hp : between (fmul64 (fsample64 s) (fsub64 em en)) 0 (B2R (fsub64 em en))).
    { apply mul_between; auto using is_f64_self. split; [apply Rmult_le_pos; lra|].
      rewrite <- (Rmult_1_l (B2R (fsub64 em en))) at 2. apply Rmult_le_compat_r; lra. }
    destruct Hp as (Fp & Rp).
    (* the sum is at most the rounding of width + minimum, which is at most the maximum *)
    assert (Hfull : is_finite (fadd64 (fsub64 em en) en) = true /\ B2R (fadd64 (fsub64 em en) en) = rnd (B2R (fsub64 em en) + B2R en)
                    /\ B2R (fadd64 (fsub64 em en) en) <= B2R em).
    { pose proof (Bplus_correct prec53 emax1024 _ _ mode_NE (fsub64 em en) en Fr Fn) as C.
      rewrite SpecFloat_fexp_eq in C. change (round_mode mode_NE) with ZnearestE in C.
      destruct (Rlt_bool (Rabs (rnd (B2R (fsub64 em en) + B2R en))) (bpow radix2 emax1024)).
      - destruct C as (E & Fi & _). split; [exact Fi|]. split; [exact E|]. exact (leb64 _ em Fi Fm Hw).
      - exfalso. destruct C as (E & _). change (is_finite (Bplus mode_NE (fsub64 em en) en) = true) in Fw.
        unfold binary_overflow in E. cbn [overflow_to_inf] in E.
        destruct (Bplus mode_NE (fsub64 em en) en); discriminate. }
    destruct Hfull as (Ff & Ef & Lf).
    assert (Hs1 : is_f64 (B2R (fadd64 (fsub64 em en) en))) by (apply is_f64_self; exact Ff).
    (* rounding is monotone *)
    change (between (fadd64 (fmul64 (fsample64 s) (fsub64 em en)) en) 0 (B2R em)).
    set (p := fmul64 (fsample64 s) (fsub64 em en)) in * .
    assert (Lp : 0 <= rnd (B2R p + B2R en) <= B2R (fadd64 (fsub64 em en) en)).
    { split.
      - replace 0 with (rnd 0) by (apply round_0; apply valid_rnd_N).
        apply round_le; [apply FLT_exp_valid; reflexivity|apply valid_rnd_N|lra].
      - rewrite Ef. apply round_le; [apply FLT_exp_valid; reflexivity|apply valid_rnd_N|lra]. }
    pose proof (Bplus_correct prec53 emax1024 _ _ mode_NE p en Fp Fn) as C.
    rewrite SpecFloat_fexp_eq in C. change (round_mode mode_NE) with ZnearestE in C.
    rewrite Rlt_bool_true in C.
    + destruct C as (E & Fi & _). split; [exact Fi|]. unfold fadd64 at 1 2. rewrite E. lra.
    + pose proof (abs_B2R_lt_emax prec53 emax1024 (fadd64 (fsub64 em en) en)) as A. apply Rabs_def2 in A.
      apply Rabs_def1; lra.
  - intros e s mat (Fe & Re) Hs Hin. destruct (fsample64_between s Hs) as (Fs & Rs).
    rewrite Forall_forall in Hm. destruct (Hm _ Hin) as (Fma & Hma).
    set (ma := mat_mass mat : f64) in * .
    assert (Rma : 1 <= B2R ma) by (rewrite <- V1; exact (leb64 _ ma F1 Fma Hma)).
    change (between (fmul64 e (fsub64 (f64_of_Z 1) (fmul64 (fsample64 s) (fdiv64 (f64_of_Z 1) ma)))) 0 (B2R em)).
    assert (Hq : between (fdiv64 (f64_of_Z 1) ma) 0 1).
    { apply div_between; auto; [lra|]. rewrite V1. unfold Rdiv. rewrite Rmult_1_l. split.
      - apply Rlt_le, Rinv_0_lt_compat. lra.
      - rewrite <- Rinv_1. apply Rinv_le_contravar; lra. }
    destruct Hq as (Fq & Rq).
    assert (Hp : between (fmul64 (fsample64 s) (fdiv64 (f64_of_Z 1) ma)) 0 1) by (apply mul_between; auto; nra).
    destruct Hp as (Fp & Rp).
    assert (Hd : between (fsub64 (f64_of_Z 1) (fmul64 (fsample64 s) (fdiv64 (f64_of_Z 1) ma))) 0 1)
      by (apply sub_between; auto; lra).
    destruct Hd as (Fd & Rd).
    assert (He : between (fmul64 e (fsub64 (f64_of_Z 1) (fmul64 (fsample64 s) (fdiv64 (f64_of_Z 1) ma)))) 0 (B2R e)).
    { apply mul_between; auto using is_f64_self. fold em in Re. nra. }
    destruct He as (He1 & He2). split; [exact He1|]. fold em in Re. lra.
  - intros s Hs. destruct (fsample64_between s Hs) as (Fs & Rs).
    change (between (fmul64 (fmul64 (f64_lit (20 # 1)) (fdiv64 (fadd64 (fsample64 s) (f64_of_Z 1)) (f64_lit (2 # 1))))
                            (fdiv64 (fadd64 (fsample64 s) (f64_of_Z 1)) (f64_lit (2 # 1)))) 0 (B2R em)).
    pose proof is_f64_2 as I2. pose proof is_f64_20 as I20.
    assert (Ha : between (fadd64 (fsample64 s) (f64_of_Z 1)) 0 2) by (apply add_between; auto; lra).
    destruct Ha as (Fa & Ra).
    assert (Hr : between (fdiv64 (fadd64 (fsample64 s) (f64_of_Z 1)) (f64_lit (2 # 1))) 0 1)
      by (apply div_between; auto; rewrite V2; lra).
    destruct Hr as (Fr & Rr).
    assert (Hp : between (fmul64 (f64_lit (20 # 1)) (fdiv64 (fadd64 (fsample64 s) (f64_of_Z 1)) (f64_lit (2 # 1)))) 0 20)
      by (apply mul_between; auto; rewrite V20; nra).
    destruct Hp as (Fp & Rp).
    assert (He : between (fmul64 (fmul64 (f64_lit (20 # 1)) (fdiv64 (fadd64 (fsample64 s) (f64_of_Z 1)) (f64_lit (2 # 1))))
                            (fdiv64 (fadd64 (fsample64 s) (f64_of_Z 1)) (f64_lit (2 # 1)))) 0 20)
      by (apply mul_between; auto; nra).
    destruct He as (He1 & He2). split; [exact He1|]. lra.
  - intros e el (Fe & Re) Hel. destruct (Hl _ Hel) as (Fl & Hle).
    assert (Rl : B2R em <= B2R (el : f64)) by (exact (leb64 em el Fm Fl Hle)).
    change (Bltb (el : f64) e = false). rewrite Bltb_correct by assumption. apply Rlt_bool_false. fold em in Re. lra.
Qed.
End Bounded.
