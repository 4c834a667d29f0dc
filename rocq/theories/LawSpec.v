(** Vocabulary for the laws of the samples (C62): how many of the 2^64 seeds have a property. *)
From Coq Require Import NArith ZArith List Reals.
From Verif Require Import Float RealOps RngModel ParticleModel GeomSpec.
Import ListNotations.
Local Open Scope R_scope.

(** Exactly [n] of the 2^64 seeds have the property [P]. *)
Definition counts (P : N -> Prop) (n : N) : Prop :=
  exists l, NoDup l /\ (forall s, In s l <-> (s < 2 ^ 64)%N /\ P s) /\ N.of_nat (length l) = n.

(** The share of the seeds that have the property [P] is [x], up to [e]. *)
Definition share_is (P : N -> Prop) (x e : R) : Prop :=
  exists n, counts P n /\ Rabs (IZR (Z.of_N n) / IZR (2 ^ 64) - x) <= e.

(** The precision of a share: a unit in the last place of a binary64 number below one, and twice that. *)
Definition ulp53 : R := / IZR (2 ^ 53).
Definition ulp52 : R := / IZR (2 ^ 52).

(** The particle [p] with the seed [s]. *)
Definition seeded {K : FloatOps} (p : particle K) (s : N) : particle K := set_random_number_seed p s.

(** Four units in the last place. *)
Definition ulp51 : R := / IZR (2 ^ 51).

(** [(a, b)] is a point of the plane other than the origin, at an angle above [lo] and up to [hi]. *)
Definition in_sector (lo hi a b : R) : Prop :=
  exists rho phi, 0 < rho /\ lo < phi <= hi /\ a = rho * cos phi /\ b = rho * sin phi.

(** Two directions orthogonal to the direction [u]: one horizontal, the other completing the frame. *)
Definition sideways (u : vec Rops) : vec Rops := mkVec (K := Rops) (- vy u / off_axis u) (vx u / off_axis u) 0.
Definition upright (u : vec Rops) : vec Rops :=
  mkVec (K := Rops) (vz u * vx u / off_axis u) (vz u * vy u / off_axis u) (- off_axis u).
