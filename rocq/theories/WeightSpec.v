(** Vocabulary for the claims about weights and about the scalar flux (C65), in exact arithmetic. *)
From Coq Require Import NArith List Bool Reals.
From Verif Require Import Float RealOps RngModel ParticleModel NuclearModel MeshTypes Balance TrackModel CycleModel TrackSpec PopSpec SegmentSpec GeomSpec StaySpec SpeedSpec.
Import ListNotations.
Local Open Scope R_scope.

(** The total weight of a list of particles. *)
Definition weights (ps : list (particle Rops)) : R := Rsum (map (@p_weight Rops) ps).

(** What a segment adds to the counter [k], with the weight of the particle that flies it. *)
Definition worth (k : tallied_event) (h : happening) : R :=
  match h with Born _ => 0 | Flew p e _ => real_of (counts k e) * p_weight p end.
(** The same for a log. *)
Definition worths (k : tallied_event) (hs : list happening) : R := Rsum (map (worth k) hs).

(** The length of a segment, as it was chosen, times the weight of the particle. *)
Definition weighted_length (h : happening) : R :=
  match h with Born _ => 0 | Flew p _ q => p_segment_path_length q * p_weight p end.
(** The distance between the ends of a segment, times the weight of the particle. *)
Definition weighted_distance (h : happening) : R :=
  match h with Born _ => 0 | Flew p _ q => apart (p_coordinate p) (p_coordinate q) * p_weight p end.
(** The segment starts in that cell with an energy of that group. *)
Definition flies_in (c g : N) (h : happening) : bool :=
  match h with Born _ => false | Flew p _ _ => ((p_cell p =? c) && (p_energy_group p =? g))%N end.

(** The weights are positive. *)
Definition happens_weighty (h : happening) : Prop :=
  match h with Born p => 0 < p_weight p | Flew p _ q => 0 < p_weight p /\ p_weight q = p_weight p end.
(** The length of a segment is not negative. *)
Definition forward (h : happening) : Prop := match h with Born _ => True | Flew _ _ q => 0 <= p_segment_path_length q end.
(** The length of a segment is the distance between its ends. *)
Definition measured (h : happening) : Prop :=
  match h with Born _ => True | Flew p _ q => p_segment_path_length q = apart (p_coordinate p) (p_coordinate q) end.
