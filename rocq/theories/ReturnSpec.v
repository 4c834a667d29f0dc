(** Vocabulary for the claims about runs that come to their end (C68), in exact arithmetic. *)
From Coq Require Import NArith List Bool Reals.
From Verif Require Import Float RealOps ParticleModel NuclearModel NuclearSpec MeshTypes TrackModel CycleModel GridModel StaySpec HaltSpec.
Import ListNotations.
Local Open Scope R_scope.

(** The particles [processing c] are about to be tracked in the cycle [n] of a run (main.rs lines 121-130 and 291-326). *)
Definition about_to_track (fuel cfuel : nat) (md : mcdata Rops) (dom : domain Rops) (n : N) (u : unit_state Rops) (c : container Rops) : Prop :=
  (n < sp_n_steps (mc_params md))%N /\ exists s s1, run_steps fuel cfuel md (initial_sim md dom) n (Ok s) /\ cycle_sync md n s = Ok s1 /\
    population_phase md s1 = Ok (u, c).

(** No particle starts a cycle on a face between cells, and neither the particle nor its descendants have something happen to them on an edge, or a
    collision at the very end of the cycle. *)
Definition starts_regular (g : grid Rops) (td : track_data Rops) (dom : domain Rops) (p : particle Rops) : Prop :=
  forall p', prepare_particle td p = Ok p' ->
  off_faces g (p_coordinate p') /\ forall hs q, line td dom p' hs q -> Forall (regular g) hs.

(** The material is heavier than a neutron, has isotopes, and reactions that happen: a positive total cross-section at 1 MeV, of the kinds of reactions that occur. *)
Definition reacts (mp : material_params Rops) : Prop := 1 < mp_mass mp /\ (0 < mp_n_isotopes mp)%N /\ 0 < normal_total mp.
