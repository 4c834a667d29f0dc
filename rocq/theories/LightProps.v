(** C69: materials lighter than a neutron.  In binary64, scattering on one can give a negative energy; such a particle has no speed and is never at the end of the cycle. *)
From Coq Require Import String NArith ZArith QArith Reals List Bool.
From Flocq Require Import Core IEEE754.BinarySingleNaN.
From Verif Require Import Float RngModel RngIeee Ieee ParticleModel NuclearModel MeshTypes Balance TrackModel CycleModel TrackSpec LightSpec LightFacts SafeDemo LightDemo.
Import ListNotations.
Local Open Scope R_scope.

(** A scattering on a material of mass between 1/8 and 1/2 gives a negative energy whenever the first number drawn is above 3/4. *)
Theorem c69_light_scatter : forall lm (p : particle (f64ops lm)) (r : reaction (f64ops lm)) (m : f64),
  r_type r = Scatter -> is_finite m = true -> 1 / 8 <= B2R m <= 1 / 2 ->
  is_finite (p_kinetic_energy p : f64) = true -> bpow radix2 (-800) <= B2R (p_kinetic_energy p : f64) <= 20 ->
  3 / 4 <= B2R (fsample64 (rng_next (p_random_number_seed p))) ->
  exists q, sample_collision p r m = Ok (1%N, q, []) /\ below_zero (p_kinetic_energy q).
Proof. exact light_scatter. Qed.
Example c69_light_scatter_case : is_finite (f64_lit (1 # 2)) = true /\ 1 / 8 <= B2R (f64_lit (1 # 2)) <= 1 / 2 /\
  is_finite (p_kinetic_energy scattered : f64) = true /\ bpow radix2 (-800) <= B2R (p_kinetic_energy scattered : f64) <= 20 /\
  3 / 4 <= B2R (fsample64 (rng_next (p_random_number_seed scattered))).
Proof. exact scatter_case. Qed.
Print Assumptions c69_light_scatter.

(** The speed of a particle of negative energy is not a number. *)
Theorem c69_no_speed : forall lm (p : particle (f64ops lm)), below_zero (p_kinetic_energy p) -> get_speed p = (B754_nan : F (f64ops lm)).
Proof. exact no_speed. Qed.
Example c69_no_speed_case : below_zero (p_kinetic_energy (bouncer (f64_of_Z (-1)))).
Proof. exact minus_one_below. Qed.
Print Assumptions c69_no_speed.

(** No segment of such a particle ends at census; its track ends on that segment only if it is absorbed, lost to a fission that gives no particle, or escapes. *)
Theorem c69_no_census : forall lm (td : track_data (f64ops lm)) dom (p : particle (f64ops lm)) e keep p' nx,
  below_zero (p_kinetic_energy p) -> seg_step td dom p e keep p' nx ->
  e <> SegCensus /\ (keep = false -> e = SegFacet BoundaryEscape \/ exists t, e = SegCollision t 0).
Proof. exact segment_without_clock. Qed.
Print Assumptions c69_no_census.

(** A track of such a particle has a collision in it or ends at an open boundary. *)
Theorem c69_no_census_track : forall lm (td : track_data (f64ops lm)) dom (p : particle (f64ops lm)) evs p' nx,
  track_path td dom p evs p' nx -> below_zero (p_kinetic_energy p) ->
  collided evs \/ last evs SegCensus = SegFacet BoundaryEscape.
Proof. exact track_without_clock. Qed.
Example c69_no_census_case : exists (td : track_data K1) dom p evs p' nx, track_path td dom p evs p' nx /\ below_zero (p_kinetic_energy p).
Proof. exact open_path. Qed.
Print Assumptions c69_no_census_track.

(** So the claim that every track ends is false of problems with light materials: in a closed box of a thin light gas, built by the code, no amount of fuel is enough
    for a particle of negative energy that flies across. *)
Theorem c69_tracks_end_refuted : exists nd mats dom, gas_nuclear = Ok (nd, mats) /\ gas_domain_of mats = Ok dom /\
  forall (p : particle K1), starts_at_wall p -> forall fuel cfuel b extra,
  run_seq 1 (cycle_tracking_guts fuel cfuel (mkTrackData gas_dt nd mats) dom p b extra) (mkMem [f0] [f0]) = NoFuel.
Proof. exact gas_endless. Qed.
Example c69_tracks_end_case : starts_at_wall (bouncer (f64_of_Z (-1))).
Proof. exact bouncer_starts. Qed.
(** With a positive energy that particle is at census after a few segments. *)
Example c69_positive_case : positive_check = true.
Proof. exact positive_ends. Qed.
Print Assumptions c69_tracks_end_refuted.
