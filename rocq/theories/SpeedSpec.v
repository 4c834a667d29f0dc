(** Vocabulary for the claims about speeds and distances (C63), in exact arithmetic. *)
From Coq Require Import NArith List Bool Reals.
From Verif Require Import Float RealOps RngModel ParticleModel NuclearModel MeshTypes TrackModel CycleModel TrackSpec PopSpec SegmentSpec StaySpec.
Import ListNotations.
Local Open Scope R_scope.

(** The distance between two points. *)
Definition apart (x y : vec Rops) : R :=
  sqrt ((vx x - vx y) * (vx x - vx y) + (vy x - vy y) * (vy x - vy y) + (vz x - vz y) * (vz x - vz y)).

(** From [p] to [q] the particle flew straight ahead at its speed, for the time by which it aged. *)
Definition flew_to (p q : particle Rops) : Prop := apart (p_coordinate p) (p_coordinate q) = get_speed p * (p_age q - p_age p).
(** [q] can be reached from [p] at the speed of light. *)
Definition within_light (p q : particle Rops) : Prop :=
  p_age p <= p_age q /\ apart (p_coordinate p) (p_coordinate q) <= light_speed (K := Rops) * (p_age q - p_age p).

(** The energy is positive and not above [top]. *)
Definition lively (top : R) (p : particle Rops) : Prop := 0 < p_kinetic_energy p <= top.
(** What happens, happens to particles with such energies. *)
Definition happens_lively (top : R) (h : happening) : Prop :=
  match h with Born p => lively top p | Flew p _ p' => lively top p /\ lively top p' end.
(** A segment is flown at a speed below that of light. *)
Definition happens_swiftly (h : happening) : Prop :=
  match h with Born p => True | Flew p _ p' => 0 < get_speed p < light_speed (K := Rops) /\ flew_to p p' end.
(** The particle can be reached, at its age and at the speed of light, from the place where a particle of the log was created. *)
Definition reached_from (hs : list happening) (p : particle Rops) : Prop :=
  exists b, In (Born b) hs /\ apart (p_coordinate b) (p_coordinate p) <= light_speed (K := Rops) * p_age p.
