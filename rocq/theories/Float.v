(** Floating point operations used by fastiron, as a record without laws.

    The program is generic in its float type: [T: CustomFloat], see
    /repo/fastiron/src/constants.rs lines 64-110 (trait [CustomFloat]) and
    112-138 (the reference constants of f32 and f64).  [FloatOps] collects the
    operations of that trait which the modelled functions call.  It carries no
    law: what is proved for every [FloatOps] holds for f32 and f64, NaN and
    rounding included.  The transcendental functions and conversions are kept
    as opaque fields. *)

From Coq Require Import NArith QArith List.
Import ListNotations.

Record FloatOps : Type := mkFloatOps {
  F : Type;                      (* the carrier: f32 or f64 *)
  f0 : F;                        (* num::zero() *)
  f1 : F;                        (* num::one() *)
  fadd : F -> F -> F;            (* + *)
  fsub : F -> F -> F;            (* - *)
  fmul : F -> F -> F;            (* * *)
  fdiv : F -> F -> F;            (* / *)
  fneg : F -> F;                 (* unary - *)
  fabs : F -> F;                 (* Float::abs *)
  fsqrt : F -> F;                (* Float::sqrt *)
  fcbrt : F -> F;                (* Float::cbrt *)
  fsin : F -> F;                 (* Float::sin *)
  fcos : F -> F;                 (* Float::cos *)
  fln : F -> F;                  (* Float::ln *)
  fexp : F -> F;                 (* Float::exp *)
  flog10 : F -> F;               (* Float::log10 *)
  fpow10 : F -> F;               (* 10.0_f64.powf(x), nuclear_data.rs line 86 *)
  ffloor : F -> F;               (* Float::floor *)
  fceil : F -> F;                (* Float::ceil *)
  fmax : F -> F -> F;            (* Float::max *)
  fmin : F -> F -> F;            (* Float::min *)
  flt : F -> F -> bool;          (* a < b, and b > a *)
  fle : F -> F -> bool;          (* a <= b, and b >= a *)
  feq : F -> F -> bool;          (* a == b *)
  fto_usize : F -> option N;     (* ToPrimitive::to_usize *)
  fof_N : N -> F;                (* FromPrimitive::from_usize / from_u64, unwrapped *)
  flit : Q -> F;                 (* FromPrimitive::from_f64 of a decimal literal, unwrapped *)
  fsample : N -> F;              (* the value returned by rng_sample for the new seed,
                                    mc_rng_state.rs lines 19-22 *)
  fhuge : F;                     (* T::huge_float() *)
  fsmall : F;                    (* T::small_float() *)
  ftiny : F;                     (* T::tiny_float() *)
  fpi : F                        (* T::pi() *)
}.

Arguments f0 {_}. Arguments f1 {_}. Arguments fadd {_}. Arguments fsub {_}. Arguments fmul {_}.
Arguments fdiv {_}. Arguments fneg {_}. Arguments fabs {_}. Arguments fsqrt {_}. Arguments fcbrt {_}.
Arguments fsin {_}. Arguments fcos {_}. Arguments fln {_}. Arguments fexp {_}. Arguments flog10 {_}.
Arguments fpow10 {_}. Arguments ffloor {_}. Arguments fceil {_}. Arguments fmax {_}. Arguments fmin {_}.
Arguments flt {_}. Arguments fle {_}. Arguments feq {_}. Arguments fto_usize {_}. Arguments fof_N {_}.
Arguments flit {_}. Arguments fsample {_}. Arguments fhuge {_}. Arguments fsmall {_}. Arguments ftiny {_}.
Arguments fpi {_}.

Declare Scope float_scope.
Delimit Scope float_scope with fl.
Bind Scope float_scope with F.
Notation "a +. b" := (fadd a b) (at level 50, left associativity) : float_scope.
Notation "a -. b" := (fsub a b) (at level 50, left associativity) : float_scope.
Notation "a *. b" := (fmul a b) (at level 40, left associativity) : float_scope.
Notation "a /. b" := (fdiv a b) (at level 40, left associativity) : float_scope.
Notation "-. a" := (fneg a) (at level 35, right associativity) : float_scope.
Notation "a <. b" := (flt a b) (at level 70, no associativity) : float_scope.
Notation "a <=. b" := (fle a b) (at level 70, no associativity) : float_scope.
(** [a > b] and [a >= b] are the swapped comparisons; for IEEE floats this is
    exact, NaN included. *)
Notation "a >. b" := (flt b a) (at level 70, no associativity, only parsing) : float_scope.
Notation "a >=. b" := (fle b a) (at level 70, no associativity, only parsing) : float_scope.
Notation "a ==. b" := (feq a b) (at level 70, no associativity) : float_scope.

(** [Iterator::sum] of floats (std): left fold from zero.  In recent Rust
    versions the fold for f32/f64 starts at -0.0; the start value only matters
    for the sign of an empty or all-negative-zero sum, which no modelled code
    observes. *)
Definition fsum {K : FloatOps} (l : list (F K)) : F K :=
  fold_left fadd l f0.

(** Literals of the code converted with [FromPrimitive::from_f64(..).unwrap()]. *)
Definition ftwo {K : FloatOps} : F K := flit (2 # 1).
(** constants.rs line 99: rest mass energy of the neutron. *)
Definition neutron_mass_energy {K : FloatOps} : F K := flit (939565 # 1000).
(** constants.rs line 107: speed of light. *)
Definition light_speed {K : FloatOps} : F K := flit (29979200000 # 1).
(** constants.rs line 173: fraction of the target number of particles sourced per cycle. *)
Definition src_fraction {K : FloatOps} : F K := flit (1 # 10).

(** Results of code that may panic.  [Panic] stands for any Rust panic
    (unwrap on None, index out of range, assert, unreachable, todo) and
    [NoFuel] for "the fuel given to an unbounded loop was too small", which is
    not an outcome of the program. *)
Inductive result (A : Type) : Type :=
| Ok : A -> result A
| Panic : result A
| NoFuel : result A.
Arguments Ok {A} _.
Arguments Panic {A}.
Arguments NoFuel {A}.

Definition rbind {A B} (r : result A) (k : A -> result B) : result B :=
  match r with Ok a => k a | Panic => Panic | NoFuel => NoFuel end.
Notation "'do' x <- r ; k" := (rbind r (fun x => k))
  (at level 200, x pattern, r at level 100, k at level 200, right associativity).

(** [Option::unwrap] and slice indexing: [None] is a panic. *)
Definition unwrap {A} (o : option A) : result A :=
  match o with Some a => Ok a | None => Panic end.
(** [assert!]. *)
Definition rassert (b : bool) : result unit := if b then Ok tt else Panic.
(** [a - b] on usize or u64: a panic when negative (debug build; a release build would wrap). *)
Definition usub (a b : N) : result N := if (b <=? a)%N then Ok (a - b)%N else Panic.
(** [v[i]] on a Vec or array: bounds-checked. *)
Definition vec_get {A} (l : list A) (i : N) : result A := unwrap (nth_error l (N.to_nat i)).

(** [iter().map(f)] where [f] may panic. *)
Fixpoint rmap {A B} (f : A -> result B) (l : list A) : result (list B) :=
  match l with
  | [] => Ok []
  | x :: xs => do y <- f x ; do ys <- rmap f xs ; Ok (y :: ys)
  end.
(** [for_each] with state where the body may panic. *)
Fixpoint rfold {A S} (f : S -> A -> result S) (l : list A) (s : S) : result S :=
  match l with
  | [] => Ok s
  | x :: xs => do s' <- f s x ; rfold f xs s'
  end.
