(** C01, C02, C03: the random number generator. *)
From Coq Require Import NArith ZArith Reals List Bool Lia Lra.
From Flocq Require Import Core IEEE754.BinarySingleNaN.
From Verif Require Import RngModel RngLemmas RngIeee RngSpec RngFacts.
Import ListNotations.
Local Open Scope N_scope.

(** ** C01: full period *)

(** Any seed comes back to itself exactly after the multiples of 2^64 draws,
    and between a seed and any other seed there are fewer than 2^64 draws. *)
Theorem c01_rng_full_period : forall seed, seed < 2 ^ 64 ->
  (forall n, seed_after n seed < 2 ^ 64) /\
  (forall n, seed_after n seed = seed <-> (2 ^ 64 | N.of_nat n)) /\
  (forall target, target < 2 ^ 64 -> exists n, N.of_nat n < 2 ^ 64 /\ seed_after n seed = target).
Proof. exact rng_full_period. Qed.
Print Assumptions c01_rng_full_period.

(** Two different seeds never give the same next seed. *)
Theorem c01_rng_step_injective : forall s t, s < 2 ^ 64 -> t < 2 ^ 64 ->
  rng_next s = rng_next t -> s = t.
Proof. exact rng_next_inj. Qed.
Print Assumptions c01_rng_step_injective.

Example c01_example : 1029384756 < 2 ^ 64 /\ seed_after 3 1029384756 <> 1029384756
  /\ seed_after 3 1029384756 <> seed_after 2 1029384756.
Proof. vm_compute. repeat split; discriminate. Qed.

(** ** C02: spawned seeds *)

Theorem c02_spawned_seeds_distinct : forall history parent, parent < 2 ^ 64 ->
  N.of_nat (length history) <= 2 ^ 64 ->
  NoDup (spawned_by history parent) /\ Forall (fun s => s < 2 ^ 64) (spawned_by history parent).
Proof. exact spawned_seeds_distinct. Qed.
Print Assumptions c02_spawned_seeds_distinct.

(** The seed given to a spawned particle is a one-to-one function of the parent seed, onto all u64. *)
Theorem c02_spawn_bijective :
  (forall s, s < 2 ^ 64 -> fst (spawn_rn_seed s) < 2 ^ 64) /\
  (forall s t, s < 2 ^ 64 -> t < 2 ^ 64 -> fst (spawn_rn_seed s) = fst (spawn_rn_seed t) -> s = t) /\
  (forall t, t < 2 ^ 64 -> exists s, s < 2 ^ 64 /\ fst (spawn_rn_seed s) = t).
Proof. exact spawn_bijective. Qed.
Print Assumptions c02_spawn_bijective.

Example c02_example : 90374384094798327 < 2 ^ 64 /\
  spawned_by [true; false; true; true] 90374384094798327 = [3246986314100353546; 12830227827583208266; 9010047787272260210].
Proof. split; reflexivity. Qed.

(** The unit tests of mc_rng_state.rs lines 90-107 hold of the model. *)
Example rng_unit_test_1 : fst (spawn_rn_seed 90374384094798327) = 3246986314100353546.
Proof. reflexivity. Qed.
Example rng_unit_test_2 : pseudo_des (123214124, 968374242) = (702007026, 3221367323).
Proof. reflexivity. Qed.

(** ** C03: range of a sample, binary64 *)

Local Open Scope R_scope.

(** The sample is finite, in [0,1]; it is 0 exactly for the new seed 0 and it
    is 1 exactly when the new seed is at least 2^64 - 1024. *)
Theorem c03_sample_range : forall seed,
  let '(value, new_seed) := rng_sample_f64 seed in
  is_finite value = true /\ 0 <= B2R value <= 1 /\
  (B2R value = 0 <-> new_seed = 0%N) /\
  (B2R value = 1 <-> (2 ^ 64 - 1024 <= new_seed)%N).
Proof. exact sample_range. Qed.
Print Assumptions c03_sample_range.

(** The decimal literal of the code denotes the constant used by the model. *)
Theorem c03_literal_is_2_pow_minus_64 :
  round radix2 (FLT_exp (-1074) 53) ZnearestE
    (5421010862427522 / 100000000000000000000000000000000000) = bpow radix2 (-64).
Proof. exact literal_is_2_pow_minus_64. Qed.
Print Assumptions c03_literal_is_2_pow_minus_64.

(** The documented range [0;1[ (mc_rng_state.rs lines 9-10) does not hold: some seed samples exactly 1. *)
Theorem c03_half_open_range_refuted : exists seed, (seed < 2 ^ 64)%N /\ B2R (fst (rng_sample_f64 seed)) = 1.
Proof. exact half_open_range_refuted. Qed.
Print Assumptions c03_half_open_range_refuted.

(** A concrete ordinary seed: its sample is strictly between 0 and 1. *)
Example c03_example : 0 < B2R (fst (rng_sample_f64 1029384756)) < 1.
Proof.
  pose proof (c03_sample_range 1029384756) as H. unfold rng_sample_f64 in *. cbn [fst].
  destruct H as [_ [[H0 H1] [HZ HO]]]. split.
  - destruct H0 as [H0|H0]; [exact H0|exfalso]. symmetry in H0. apply HZ in H0. vm_compute in H0. discriminate.
  - destruct H1 as [H1|H1]; [exact H1|exfalso]. apply HO in H1. vm_compute in H1. apply H1. reflexivity.
Qed.
