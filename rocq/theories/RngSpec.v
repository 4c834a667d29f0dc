(** Specification vocabulary for C01 and C02. *)
From Coq Require Import NArith List.
From Verif Require Import RngModel.
Import ListNotations.
Local Open Scope N_scope.

(** The seeds seen after 0, 1, 2, ... draws. *)
Fixpoint seed_after (n : nat) (seed : N) : N :=
  match n with O => seed | S n => rng_next (seed_after n seed) end.

(** A parent draws and spawns in any order; [true] is a spawn, [false] a plain
    draw.  The list of spawned seeds: *)
Fixpoint spawned_by (history : list bool) (parent : N) : list N :=
  match history with
  | [] => []
  | true :: h => fst (spawn_rn_seed parent) :: spawned_by h (snd (spawn_rn_seed parent))
  | false :: h => spawned_by h (rng_next parent)
  end.
