(** Random states after a collision: vocabulary of claims C02 and C22. *)
From Coq Require Import NArith List.
From Verif Require Import Float RngModel RngSpec ParticleModel.
Import ListNotations.
Local Open Scope N_scope.

(** Numbers drawn by the colliding particle: one for the number of particles out of a fission, two for the energy and the angle of each
    particle out, one per spawned seed, two for its own new trajectory. *)
Definition draws_used (kind : reaction_type) (n : N) : nat :=
  match kind with Absorption => 0 | Scatter => 4 | Fission => match N.to_nat n with O => 1 | S k => 1 + 2 * S k + k + 2 end end.

(** The colliding particle keeps its identifier; the other ones have identifiers spawned one after the other by the colliding particle, which
    are pairwise different, and random states derived from their own identifiers, which are pairwise different. *)
Definition own_random_states {K : FloatOps} (p : particle K) (kind : reaction_type) (n : N) (q : particle K) (sec : list (particle K)) : Prop :=
  p_identifier q = p_identifier p /\ p_random_number_seed q = seed_after (draws_used kind n) (p_random_number_seed p) /\
  length sec = (N.to_nat n - 1)%nat /\
  map p_identifier sec = spawned_by (repeat false (1 + 2 * N.to_nat n) ++ repeat true (length sec)) (p_random_number_seed p) /\
  Forall (fun y => p_random_number_seed y = seed_after 2 (p_identifier y)) sec /\
  (p_random_number_seed p < 2 ^ 64 -> NoDup (map p_identifier sec) /\ NoDup (map p_random_number_seed sec)).
