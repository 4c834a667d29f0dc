(** The instance of the float operations on the real numbers: the arithmetic the formulas of the
    program are written for.  Used for the claims that are about geometry and probabilities rather
    than about rounding. *)
From Coq Require Import NArith ZArith QArith Qreals Reals Lra.
From Flocq Require Import Core.
From Verif Require Import Float RngModel.
Local Open Scope R_scope.

Definition Rltb (x y : R) : bool := if Rlt_dec x y then true else false.
Definition Rleb (x y : R) : bool := if Rle_dec x y then true else false.
Definition Reqb (x y : R) : bool := if Req_EM_T x y then true else false.

(** num_traits [to_usize]: truncation, [None] out of range. *)
Definition Rto_usize (x : R) : option N :=
  if Rltb (-1) x && Rltb x (IZR (2 ^ 64)) then Some (Z.to_N (Ztrunc x)) else None.
Definition Rcbrt (x : R) : R :=
  if Rlt_dec 0 x then exp (ln x / 3) else if Rlt_dec x 0 then - exp (ln (- x) / 3) else 0.

(** constants.rs lines 112-138 for the constants; mc_rng_state.rs lines 19-22 for the sample, with
    the conversion of the seed to f64 rounded as in [RngModel.round53]. *)
Definition Rops : FloatOps := {|
  F := R;
  f0 := 0; f1 := 1;
  fadd := Rplus; fsub := Rminus; fmul := Rmult; fdiv := Rdiv;
  fneg := Ropp; fabs := Rabs; Float.fsqrt := sqrt;
  fcbrt := Rcbrt; fsin := sin; fcos := cos; fln := ln; Float.fexp := exp;
  flog10 := fun x => ln x / ln 10; fpow10 := fun x => exp (x * ln 10);
  ffloor := fun x => IZR (Zfloor x); fceil := fun x => IZR (Zceil x);
  fmax := Rmax; fmin := Rmin;
  flt := Rltb; fle := Rleb; feq := Reqb;
  fto_usize := Rto_usize;
  fof_N := fun n => IZR (Z.of_N n);
  flit := Q2R;
  fsample := fun s => IZR (Z.of_N (round53 s)) / IZR (Z.of_N two64);
  fhuge := IZR (10 ^ 76); fsmall := Q2R (1 # 10000000000); ftiny := Q2R (1 # 10000000000000);
  fpi := PI
|}.

Lemma Rltb_iff x y : Rltb x y = true <-> x < y.
Proof. unfold Rltb. destruct (Rlt_dec x y); split; auto; discriminate. Qed.
Lemma Rltb_false x y : Rltb x y = false <-> y <= x.
Proof. unfold Rltb. destruct (Rlt_dec x y); split; auto; try discriminate; intros; lra. Qed.
Lemma Rleb_iff x y : Rleb x y = true <-> x <= y.
Proof. unfold Rleb. destruct (Rle_dec x y); split; auto; discriminate. Qed.
Lemma Rleb_false x y : Rleb x y = false <-> y < x.
Proof. unfold Rleb. destruct (Rle_dec x y); split; auto; try discriminate; intros; lra. Qed.
Lemma Reqb_iff x y : Reqb x y = true <-> x = y.
Proof. unfold Reqb. destruct (Req_EM_T x y); split; auto; discriminate. Qed.
Lemma Reqb_false x y : Reqb x y = false <-> x <> y.
Proof. unfold Reqb. destruct (Req_EM_T x y); split; auto; try discriminate; contradiction. Qed.
