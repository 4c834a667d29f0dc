(** The instance T = f64 of the float operations, on the IEEE-754 binary64 numbers of Flocq.

    Everything is exact IEEE arithmetic, rounding to nearest even, except the functions of the
    mathematical library (sin, cos, ln, exp, log10, powf, cbrt), whose results IEEE does not fix:
    they are a parameter. *)
From Coq Require Import NArith ZArith QArith List Bool.
From Flocq Require Import Core IEEE754.BinarySingleNaN.
From Verif Require Import Float RngModel RngIeee.
Import ListNotations.
Local Open Scope Z_scope.

(** The functions f64 takes from the mathematical library. *)
Record libm : Type := mkLibm {
  lm_cbrt : f64 -> f64; lm_sin : f64 -> f64; lm_cos : f64 -> f64; lm_ln : f64 -> f64;
  lm_exp : f64 -> f64; lm_log10 : f64 -> f64; lm_pow10 : f64 -> f64
}.

(** An integer converted to f64, rounded to nearest even. *)
Definition f64_of_Z (z : Z) : f64 :=
  binary_normalize prec53 emax1024 prec53_gt0 prec53_lt mode_NE z 0 false.
(** A decimal literal: quotient of two integers.  Correctly rounded when both integers are exact
    in binary64, which is the case of all the literals of the code. *)
Definition f64_lit (q : Q) : f64 :=
  Bdiv mode_NE (f64_of_Z (Qnum q)) (f64_of_Z (Zpos (Qden q))).

Definition fadd64 : f64 -> f64 -> f64 := Bplus mode_NE.
Definition fsub64 : f64 -> f64 -> f64 := Bminus mode_NE.
Definition fmul64 : f64 -> f64 -> f64 := Bmult mode_NE.
Definition fdiv64 : f64 -> f64 -> f64 := Bdiv mode_NE.

(** [f64::max] and [f64::min]: a NaN is ignored. *)
Definition fmax64 (x y : f64) : f64 := if is_nan x then y else if is_nan y then x else if Bltb x y then y else x.
Definition fmin64 (x y : f64) : f64 := if is_nan x then y else if is_nan y then x else if Bltb y x then y else x.

(** num_traits [ToPrimitive::to_usize] for f64: truncation towards zero, [None] unless the value
    is strictly between -1 and 2^64. *)
Definition fto_usize64 (x : f64) : option N :=
  if Bltb (f64_of_Z (-1)) x && Bltb x (f64_of_Z (2 ^ 64)) then Some (Z.to_N (Btrunc x)) else None.

(** mc_rng_state.rs line 21. *)
Definition fsample64 (s : N) : f64 := Bmult mode_NE magic (u64_as_f64 s).

(** constants.rs lines 127-138. *)
Definition f64ops (lm : libm) : FloatOps := {|
  F := f64;
  f0 := B754_zero false;
  f1 := f64_of_Z 1;
  fadd := fadd64; fsub := fsub64; fmul := fmul64; fdiv := fdiv64;
  fneg := Bopp; fabs := Babs; fsqrt := Bsqrt mode_NE;
  fcbrt := lm_cbrt lm; fsin := lm_sin lm; fcos := lm_cos lm; fln := lm_ln lm; Float.fexp := lm_exp lm;
  flog10 := lm_log10 lm; fpow10 := lm_pow10 lm;
  ffloor := Bnearbyint mode_DN; fceil := Bnearbyint mode_UP;
  fmax := fmax64; fmin := fmin64;
  flt := Bltb; fle := Bleb; feq := Beqb;
  fto_usize := fto_usize64;
  fof_N := fun n => f64_of_Z (Z.of_N n);
  flit := f64_lit;
  fsample := fsample64;
  fhuge := f64_of_Z (10 ^ 76);
  fsmall := f64_lit (1 # 10000000000);
  ftiny := f64_lit (1 # 10000000000000);
  fpi := f64_lit (884279719003555 # 281474976710656)
|}.

(** ** A computable mathematical library

    For the examples: truncated series, good to about 1e-13 on the arguments that occur. *)
Section Approx.
Let k (z : Z) : f64 := f64_of_Z z.
Let ln2 : f64 := f64_lit (6243314768165359 # 9007199254740992).
Let ln10 : f64 := f64_lit (5184960683398422 # 2251799813685248).

(** [1 + x/1! + x^2/2! + ...] by Horner, from degree [n]. *)
Fixpoint exp_series (n : nat) (i : Z) (x : f64) : f64 :=
  match n with O => k 1 | S n => fadd64 (k 1) (fmul64 (fdiv64 x (k i)) (exp_series n (i + 1) x)) end.
Definition approx_exp (x : f64) : f64 :=
  let n := Btrunc (fdiv64 x ln2) in
  Bldexp mode_NE (exp_series 20 1 (fsub64 x (fmul64 (k n) ln2))) n.
(** [1/i + y2/(i+2) + ...]. *)
Fixpoint atanh_series (n : nat) (i : Z) (y2 : f64) : f64 :=
  match n with O => k 0 | S n => fadd64 (fdiv64 (k 1) (k i)) (fmul64 y2 (atanh_series n (i + 2) y2)) end.
Definition approx_ln (x : f64) : f64 :=
  let (m, e) := Bfrexp x in
  let y := fdiv64 (fsub64 m (k 1)) (fadd64 m (k 1)) in
  fadd64 (fmul64 (k 2) (fmul64 y (atanh_series 16 1 (fmul64 y y)))) (fmul64 (k e) ln2).
(** [1 - x2/(i(i+1)) (1 - x2/((i+2)(i+3)) ...)]. *)
Fixpoint alt_series (n : nat) (i : Z) (x2 : f64) : f64 :=
  match n with
  | O => k 1
  | S n => fsub64 (k 1) (fmul64 (fdiv64 x2 (k (i * (i + 1)))) (alt_series n (i + 2) x2))
  end.
Definition approx_sin (x : f64) : f64 := fmul64 x (alt_series 16 2 (fmul64 x x)).
Definition approx_cos (x : f64) : f64 := alt_series 16 1 (fmul64 x x).
Definition approx_libm : libm := {|
  lm_cbrt := fun x => approx_exp (fdiv64 (approx_ln x) (k 3));
  lm_sin := approx_sin; lm_cos := approx_cos; lm_ln := approx_ln; lm_exp := approx_exp;
  lm_log10 := fun x => fdiv64 (approx_ln x) ln10;
  lm_pow10 := fun x => approx_exp (fmul64 x ln10)
|}.
End Approx.

(** The instance used in the examples. *)
Definition K64 : FloatOps := f64ops approx_libm.
