(** Model of the end-of-run checks, /repo/fastiron/src/utils/coral_benchmark_correctness.rs.
    Each check is the boolean it prints: [true] for PASS. *)
From Coq Require Import NArith QArith List Bool.
From Verif Require Import Float Balance.
Import ListNotations.
Local Open Scope N_scope.
Local Open Scope float_scope.

(** parameters.rs, [BenchType]. *)
Inductive bench_type : Set := Standard | Coral1 | Coral2.

Section Report.
Context {K : FloatOps}.

(** coral_benchmark_correctness.rs lines 33-88, [balance_ratio_test]. *)
Definition balance_ratio_test (bench : bench_type) (b : balance) : bool :=
  let absorb : F K := fof_N (bget b EAbsorb) in
  let fission : F K := fof_N (bget b EFission) in
  let scatter : F K := fof_N (bget b EScatter) in
  let '(fission_ratio, scatter_ratio, absorb_ratio, percent_tolerance) :=
    match bench with
    | Coral1 => (flit (5 # 100), flit (1 # 1), flit (4 # 100), f1)
    | _ => (flit (75 # 1000), flit (830 # 1000), flit (94 # 1000), flit (11 # 10))
    end in
  let tolerance := percent_tolerance /. flit (100 # 1) in
  let rel x xr y yr := fabs ((x /. xr) *. (yr /. y) -. f1) in
  negb ((rel absorb absorb_ratio scatter scatter_ratio >. tolerance)
        || (rel absorb absorb_ratio fission fission_ratio >. tolerance)
        || (rel scatter scatter_ratio absorb absorb_ratio >. tolerance)
        || (rel scatter scatter_ratio fission fission_ratio >. tolerance)
        || (rel fission fission_ratio absorb absorb_ratio >. tolerance)
        || (rel fission fission_ratio scatter scatter_ratio >. tolerance)).

(** lines 97-101: the number of facet crossings used by [balance_event_test]. *)
Definition reported_crossings (b : balance) : result N :=
  do x <- usub (bget b ENumSegments) (bget b ECollision) ; usub x (bget b ECensus).

(** lines 92-114, [balance_event_test]. *)
Definition balance_event_test (b : balance) : result bool :=
  do crossings <- reported_crossings b ;
  let facet_crossing : F K := fof_N crossings in
  let collision : F K := fof_N (bget b ECollision) in
  let ratio := fabs (facet_crossing /. collision -. f1) in
  Ok (ratio <=. (f1 /. flit (100 # 1))).

(** lines 121-141, [missing_particle_test]. *)
Definition missing_particle_test (b : balance) : bool :=
  let gains := bget b EStart + bget b ESource + bget b EProduce + bget b ESplit in
  let losses := bget b EAbsorb + bget b ECensus + bget b EEscape + bget b EOverRr
                + bget b EWeightRr + bget b EFission in
  gains =? losses.

(** lines 147-173, [fluence_test]. *)
Definition fluence_test (cells : list (F K)) : bool :=
  let local_sum := fold_left fadd cells f0 in
  let average := local_sum /. fof_N (N.of_nat (List.length cells)) in
  let diff v := fabs (v -. average) /. ((v +. average) /. ftwo) *. flit (100 # 1) in
  let max_diff := fold_left (fun m v => fmax m (diff v)) cells f0 in
  max_diff <=. flit (6 # 1).

End Report.
