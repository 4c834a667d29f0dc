(** The type f32: its numbers, the conversion from f64 and the samples of the generator. *)
From Coq Require Import NArith ZArith QArith List Bool.
From Flocq Require Import Core IEEE754.BinarySingleNaN.
From Verif Require Import Float RngModel RngIeee Ieee.
Import ListNotations.
Local Open Scope Z_scope.

Definition prec24 : Z := 24.
Definition emax128 : Z := 128.
Lemma prec24_gt0 : FLX.Prec_gt_0 prec24. Proof. reflexivity. Qed.
Lemma prec24_lt : Prec_lt_emax prec24 emax128. Proof. reflexivity. Qed.
#[global] Existing Instance prec24_gt0.
#[global] Existing Instance prec24_lt.

(** The Rust type f32 (main.rs lines 35-38). *)
Definition f32 : Set := binary_float prec24 emax128.

(** [n as f32] for an f64, which is [FromPrimitive::from_f64] for f32: rounded to nearest even. *)
Definition f32_of_f64 (x : f64) : f32 :=
  match x with
  | B754_zero s => B754_zero s
  | B754_infinity s => B754_infinity s
  | B754_nan => B754_nan
  | B754_finite s m e _ => binary_normalize prec24 emax128 prec24_gt0 prec24_lt mode_NE (cond_Zopp s (Zpos m)) e s
  end.

(** mc_rng_state.rs lines 11-23 for T = f32: computed in f64, then converted; (value, new seed). *)
Definition rng_sample_f32 (seed : N) : f32 * N :=
  let (v, s) := rng_sample_f64 seed in (f32_of_f64 v, s).

(** An integer converted to f32, rounded to nearest even ([FromPrimitive::from_usize] and friends). *)
Definition f32_of_Z (z : Z) : f32 := binary_normalize prec24 emax128 prec24_gt0 prec24_lt mode_NE z 0 false.

(** A decimal literal of the code: an f64 (correctly rounded, see [f64_lit]) converted by [FromPrimitive::from_f64]. *)
Definition f32_lit (q : Q) : f32 := f32_of_f64 (f64_lit q).

Definition fadd32 : f32 -> f32 -> f32 := Bplus mode_NE.
Definition fsub32 : f32 -> f32 -> f32 := Bminus mode_NE.
Definition fmul32 : f32 -> f32 -> f32 := Bmult mode_NE.
Definition fdiv32 : f32 -> f32 -> f32 := Bdiv mode_NE.

(** [f32::max] and [f32::min] (std): a NaN is ignored. *)
Definition fmax32 (x y : f32) : f32 := if is_nan x then y else if is_nan y then x else if Bltb x y then y else x.
Definition fmin32 (x y : f32) : f32 := if is_nan x then y else if is_nan y then x else if Bltb y x then y else x.

(** num_traits [ToPrimitive::to_usize] for f32: truncation towards zero, [None] unless the value is strictly between -1 and 2^64. *)
Definition fto_usize32 (x : f32) : option N :=
  if Bltb (f32_of_Z (-1)) x && Bltb x (f32_of_Z (2 ^ 64)) then Some (Z.to_N (Btrunc x)) else None.

(** The functions f32 takes from the mathematical library (std); IEEE does not fix their results. *)
Record libm32 : Type := mkLibm32 {
  lm32_cbrt : f32 -> f32; lm32_sin : f32 -> f32; lm32_cos : f32 -> f32; lm32_ln : f32 -> f32;
  lm32_exp : f32 -> f32; lm32_log10 : f32 -> f32; lm32_pow10 : f32 -> f32
}.

(** constants.rs lines 112-124: the instance T = f32.  The thresholds written in f32 in the code are rounded twice here, which gives the same numbers. *)
Definition f32ops (lm : libm32) : FloatOps := {|
  F := f32;
  f0 := B754_zero false;
  f1 := f32_of_Z 1;
  fadd := fadd32; fsub := fsub32; fmul := fmul32; fdiv := fdiv32;
  fneg := Bopp; fabs := Babs; fsqrt := Bsqrt mode_NE;
  fcbrt := lm32_cbrt lm; fsin := lm32_sin lm; fcos := lm32_cos lm; fln := lm32_ln lm; Float.fexp := lm32_exp lm;
  flog10 := lm32_log10 lm; fpow10 := lm32_pow10 lm;
  ffloor := Bnearbyint mode_DN; fceil := Bnearbyint mode_UP;
  fmax := fmax32; fmin := fmin32;
  flt := Bltb; fle := Bleb; feq := Beqb;
  fto_usize := fto_usize32;
  fof_N := fun n => f32_of_Z (Z.of_N n);
  flit := f32_lit;
  fsample := fun s => f32_of_f64 (fsample64 s);
  fhuge := f32_of_Z (10 ^ 36);
  fsmall := f32_lit (1 # 10000000000);
  ftiny := f32_lit (1 # 10000000000000);
  fpi := f32_lit (13176795 # 4194304)
|}.

(** A mathematical library for the examples: the one of f64, converted (std). *)
Definition f64_of_f32 (x : f32) : f64 :=
  match x with
  | B754_zero s => B754_zero s
  | B754_infinity s => B754_infinity s
  | B754_nan => B754_nan
  | B754_finite s m e _ => binary_normalize prec53 emax1024 prec53_gt0 prec53_lt mode_NE (cond_Zopp s (Zpos m)) e s
  end.
Definition approx_libm32 : libm32 :=
  let via (g : f64 -> f64) x := f32_of_f64 (g (f64_of_f32 x)) in
  mkLibm32 (via (lm_cbrt approx_libm)) (via (lm_sin approx_libm)) (via (lm_cos approx_libm)) (via (lm_ln approx_libm)) (via (lm_exp approx_libm))
    (via (lm_log10 approx_libm)) (via (lm_pow10 approx_libm)).
Definition K32 : FloatOps := f32ops approx_libm32.

(** The field num_segments of a particle (mc_particle.rs line 65) after [n] segments: [num_segments += one()] of cycle_tracking.rs line 65, [n] times from zero. *)
Fixpoint count_segments (K : FloatOps) (n : nat) : F K :=
  match n with O => f0 | S n => fadd (count_segments K n) f1 end.
(** The limit of mct.rs lines 250-252. *)
Definition max_segments (K : FloatOps) : F K := fof_N 10000000.
