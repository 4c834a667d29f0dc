(** Vocabulary for the claims about lifetimes (C64), in exact arithmetic. *)
From Coq Require Import NArith List Bool Reals Permutation.
From Verif Require Import Float RealOps RngModel ParticleModel NuclearModel MeshTypes TrackModel CycleModel TrackSpec PopSpec SegmentSpec GeomSpec StaySpec SpeedSpec.
Import ListNotations.
Local Open Scope R_scope.

(** The history of the first [n] cycles of a run: the log, and the particles created by the source, each with the number of its cycle. *)
Inductive run_history (fuel cfuel : nat) (md : mcdata Rops) (d : domain Rops) : N -> sim Rops -> list (N * particle Rops) -> list happening -> Prop :=
| hi_start : run_history fuel cfuel md d 0 (initial_sim md d) [] []
| hi_cycle : forall n s bs hs s1 u0 c0 born u c hs' s2, run_history fuel cfuel md d n s bs hs ->
    cycle_sync md n s = Ok s1 ->
    source_now md (s_source_weight s1) (s_unit s1) (s_cont s1) = Ok (u0, c0) ->
    processing c0 = processing (s_cont s1) ++ born ->
    population_phase md s1 = Ok (u, c) ->
    cycle_process fuel cfuel md s1 (Ok s2) ->
    rounds_log (mc_track md) (u_domain u) (processing c) hs' (processed (s_cont s2)) ->
    run_history fuel cfuel md d (N.succ n) s2 (bs ++ map (pair n) born) (hs ++ map Born born ++ hs').

(** The time that a particle has left in the cycle.  One that has no time left gets that of a whole cycle. *)
Definition span (dt t : R) : R := if Rle_dec t 0 then dt else t.
(** The moment, counted from the start of the run, at which the source created the particle in cycle [c]. *)
Definition moment (dt : R) (c : N) (b : particle Rops) : R := (real_of c + 1) * dt - span dt (p_time_to_census b).
(** No collision happens at the very end of the cycle. *)
Definition in_time (h : happening) : Prop :=
  match h with Flew _ (SegCollision _ _) p' => 0 < p_time_to_census p' | _ => True end.

(** At the end of the first [n] cycles the particle is as old as the time since the creation of one of the particles of the source, its ancestor. *)
Definition as_old_as (dt : R) (n : N) (bs : list (N * particle Rops)) (p : particle Rops) : Prop :=
  exists c b, In (c, b) bs /\ (c < n)%N /\ real_of c * dt <= moment dt c b <= (real_of c + 1) * dt /\ p_age p = real_of n * dt - moment dt c b.
(** And it is not further from the place of that creation than light gets in that time. *)
Definition comes_from (dt : R) (n : N) (bs : list (N * particle Rops)) (p : particle Rops) : Prop :=
  exists c b, In (c, b) bs /\ (c < n)%N /\ p_age p = real_of n * dt - moment dt c b /\
    apart (p_coordinate b) (p_coordinate p) <= light_speed (K := Rops) * (real_of n * dt - moment dt c b).
