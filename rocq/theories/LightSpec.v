(** Materials lighter than a neutron: the energies they lead to, in binary64. *)
From Coq Require Import NArith ZArith Reals List Bool.
From Flocq Require Import Core IEEE754.BinarySingleNaN.
From Verif Require Import Float RngIeee Ieee ParticleModel NuclearModel MeshTypes TrackModel TrackSpec.
Import ListNotations.
Local Open Scope R_scope.

(** A negative number, neither as large as the rest energy of a neutron (939 MeV) nor so small
    that the speed is rounded to zero. *)
Definition below_zero (e : f64) : Prop := is_finite e = true /\ -256 <= B2R e <= - bpow radix2 (-900).

(** Some collision happened along a track. *)
Definition collided (evs : list seg_event) : Prop := exists t n, In (SegCollision t n) evs.
Definition is_nonzero_fission (t : reaction_type) (n : N) : Prop := t = Fission /\ (n <> 0)%N.
