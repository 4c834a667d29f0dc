(** Model of /repo/fastiron/src/data/mc_vector.rs and /repo/fastiron/src/particles/mc_particle.rs. *)
From Coq Require Import NArith QArith List Bool String.
From Verif Require Import Float RngModel.
Import ListNotations.
Local Open Scope N_scope.
Local Open Scope float_scope.

Section Particle.
Context {K : FloatOps}.

(** ** mc_vector.rs *)

(** mc_vector.rs lines 27-34, [MCVector]. *)
Record vec : Type := mkVec { vx : F K; vy : F K; vz : F K }.
(** derived [Default], line 26. *)
Definition vzero : vec := mkVec f0 f0 f0.
(** lines 95-104. *)
Definition vadd (u v : vec) : vec := mkVec (vx u +. vx v) (vy u +. vy v) (vz u +. vz v).
(** lines 106-115. *)
Definition vsub (u v : vec) : vec := mkVec (vx u -. vx v) (vy u -. vy v) (vz u -. vz v).
(** lines 117-126. *)
Definition vscale (u : vec) (f : F K) : vec := mkVec (vx u *. f) (vy u *. f) (vz u *. f).
(** lines 154-162: asserts that the divisor is not zero. *)
Definition vdiv (u : vec) (f : F K) : result vec :=
  do _ <- rassert (negb (f ==. f0)) ; Ok (mkVec (vx u /. f) (vy u /. f) (vz u /. f)).
(** lines 67-69. *)
Definition vdot (u v : vec) : F K := vx u *. vx v +. vy u *. vy v +. vz u *. vz v.
(** lines 72-78. *)
Definition vcross (u v : vec) : vec :=
  mkVec (vy u *. vz v -. vz u *. vy v) (vz u *. vx v -. vx u *. vz v) (vx u *. vy v -. vy u *. vx v).
(** lines 53-56. *)
Definition vlength (u : vec) : F K := fsqrt (vx u *. vx u +. vy u *. vy u +. vz u *. vz u).
(** lines 60-64. *)
Definition vdistance (u v : vec) : F K := vlength (vsub u v).
(** lines 81-91, [Sum]. *)
Definition vsum (l : list vec) : vec := fold_left vadd l vzero.

(** ** mc_particle.rs *)

(** mc_particle.rs lines 25-31, [Species]. *)
Inductive species_t : Set := Unknown | Known.

(** tallies.rs lines 28-43, [MCTallyEvent]. *)
Inductive tally_event : Set :=
| EvCollision | EvTransitExit | EvCensus | EvEscape | EvReflection | EvCommunication.

(** nuclear_data.rs lines 12-19, [ReactionType]. *)
Inductive reaction_type : Set := Scatter | Absorption | Fission.

(** nuclear_data.rs lines 52-64, [NuclearDataReaction]. *)
Record reaction : Type := mkReaction {
  r_cross_section : list (F K);
  r_type : reaction_type;
  r_nu_bar : F K
}.

(** mc_particle.rs lines 37-82, [MCParticle]. *)
Record particle : Type := mkParticle {
  p_coordinate : vec;
  p_direction : vec;
  p_kinetic_energy : F K;
  p_energy_group : N;
  p_weight : F K;
  p_species : species_t;
  p_time_to_census : F K;
  p_age : F K;
  p_total_cross_section : F K;
  p_mean_free_path : F K;
  p_segment_path_length : F K;
  p_num_mean_free_paths : F K;
  p_num_segments : F K;
  p_random_number_seed : N;
  p_identifier : N;
  p_last_event : tally_event;
  p_domain : N;
  p_cell : N;
  p_facet : N;
  p_normal_dot : F K
}.

(** assignment to the field [coordinate], mc_particle.rs line 39 *)
Definition set_coordinate (p : particle) (x : vec) : particle :=
  mkParticle x (p_direction p) (p_kinetic_energy p) (p_energy_group p) (p_weight p) (p_species p) (p_time_to_census p) (p_age p) (p_total_cross_section p) (p_mean_free_path p) (p_segment_path_length p) (p_num_mean_free_paths p) (p_num_segments p) (p_random_number_seed p) (p_identifier p) (p_last_event p) (p_domain p) (p_cell p) (p_facet p) (p_normal_dot p).
(** assignment to the field [direction], mc_particle.rs line 41 *)
Definition set_direction (p : particle) (x : vec) : particle :=
  mkParticle (p_coordinate p) x (p_kinetic_energy p) (p_energy_group p) (p_weight p) (p_species p) (p_time_to_census p) (p_age p) (p_total_cross_section p) (p_mean_free_path p) (p_segment_path_length p) (p_num_mean_free_paths p) (p_num_segments p) (p_random_number_seed p) (p_identifier p) (p_last_event p) (p_domain p) (p_cell p) (p_facet p) (p_normal_dot p).
(** assignment to the field [kinetic_energy], mc_particle.rs line 43 *)
Definition set_kinetic_energy (p : particle) (x : F K) : particle :=
  mkParticle (p_coordinate p) (p_direction p) x (p_energy_group p) (p_weight p) (p_species p) (p_time_to_census p) (p_age p) (p_total_cross_section p) (p_mean_free_path p) (p_segment_path_length p) (p_num_mean_free_paths p) (p_num_segments p) (p_random_number_seed p) (p_identifier p) (p_last_event p) (p_domain p) (p_cell p) (p_facet p) (p_normal_dot p).
(** assignment to the field [energy_group], mc_particle.rs line 45 *)
Definition set_energy_group (p : particle) (x : N) : particle :=
  mkParticle (p_coordinate p) (p_direction p) (p_kinetic_energy p) x (p_weight p) (p_species p) (p_time_to_census p) (p_age p) (p_total_cross_section p) (p_mean_free_path p) (p_segment_path_length p) (p_num_mean_free_paths p) (p_num_segments p) (p_random_number_seed p) (p_identifier p) (p_last_event p) (p_domain p) (p_cell p) (p_facet p) (p_normal_dot p).
(** assignment to the field [weight], mc_particle.rs line 47 *)
Definition set_weight (p : particle) (x : F K) : particle :=
  mkParticle (p_coordinate p) (p_direction p) (p_kinetic_energy p) (p_energy_group p) x (p_species p) (p_time_to_census p) (p_age p) (p_total_cross_section p) (p_mean_free_path p) (p_segment_path_length p) (p_num_mean_free_paths p) (p_num_segments p) (p_random_number_seed p) (p_identifier p) (p_last_event p) (p_domain p) (p_cell p) (p_facet p) (p_normal_dot p).
(** assignment to the field [species], mc_particle.rs line 49 *)
Definition set_species (p : particle) (x : species_t) : particle :=
  mkParticle (p_coordinate p) (p_direction p) (p_kinetic_energy p) (p_energy_group p) (p_weight p) x (p_time_to_census p) (p_age p) (p_total_cross_section p) (p_mean_free_path p) (p_segment_path_length p) (p_num_mean_free_paths p) (p_num_segments p) (p_random_number_seed p) (p_identifier p) (p_last_event p) (p_domain p) (p_cell p) (p_facet p) (p_normal_dot p).
(** assignment to the field [time_to_census], mc_particle.rs line 52 *)
Definition set_time_to_census (p : particle) (x : F K) : particle :=
  mkParticle (p_coordinate p) (p_direction p) (p_kinetic_energy p) (p_energy_group p) (p_weight p) (p_species p) x (p_age p) (p_total_cross_section p) (p_mean_free_path p) (p_segment_path_length p) (p_num_mean_free_paths p) (p_num_segments p) (p_random_number_seed p) (p_identifier p) (p_last_event p) (p_domain p) (p_cell p) (p_facet p) (p_normal_dot p).
(** assignment to the field [age], mc_particle.rs line 54 *)
Definition set_age (p : particle) (x : F K) : particle :=
  mkParticle (p_coordinate p) (p_direction p) (p_kinetic_energy p) (p_energy_group p) (p_weight p) (p_species p) (p_time_to_census p) x (p_total_cross_section p) (p_mean_free_path p) (p_segment_path_length p) (p_num_mean_free_paths p) (p_num_segments p) (p_random_number_seed p) (p_identifier p) (p_last_event p) (p_domain p) (p_cell p) (p_facet p) (p_normal_dot p).
(** assignment to the field [total_cross_section], mc_particle.rs line 57 *)
Definition set_total_cross_section (p : particle) (x : F K) : particle :=
  mkParticle (p_coordinate p) (p_direction p) (p_kinetic_energy p) (p_energy_group p) (p_weight p) (p_species p) (p_time_to_census p) (p_age p) x (p_mean_free_path p) (p_segment_path_length p) (p_num_mean_free_paths p) (p_num_segments p) (p_random_number_seed p) (p_identifier p) (p_last_event p) (p_domain p) (p_cell p) (p_facet p) (p_normal_dot p).
(** assignment to the field [mean_free_path], mc_particle.rs line 59 *)
Definition set_mean_free_path (p : particle) (x : F K) : particle :=
  mkParticle (p_coordinate p) (p_direction p) (p_kinetic_energy p) (p_energy_group p) (p_weight p) (p_species p) (p_time_to_census p) (p_age p) (p_total_cross_section p) x (p_segment_path_length p) (p_num_mean_free_paths p) (p_num_segments p) (p_random_number_seed p) (p_identifier p) (p_last_event p) (p_domain p) (p_cell p) (p_facet p) (p_normal_dot p).
(** assignment to the field [segment_path_length], mc_particle.rs line 61 *)
Definition set_segment_path_length (p : particle) (x : F K) : particle :=
  mkParticle (p_coordinate p) (p_direction p) (p_kinetic_energy p) (p_energy_group p) (p_weight p) (p_species p) (p_time_to_census p) (p_age p) (p_total_cross_section p) (p_mean_free_path p) x (p_num_mean_free_paths p) (p_num_segments p) (p_random_number_seed p) (p_identifier p) (p_last_event p) (p_domain p) (p_cell p) (p_facet p) (p_normal_dot p).
(** assignment to the field [num_mean_free_paths], mc_particle.rs line 63 *)
Definition set_num_mean_free_paths (p : particle) (x : F K) : particle :=
  mkParticle (p_coordinate p) (p_direction p) (p_kinetic_energy p) (p_energy_group p) (p_weight p) (p_species p) (p_time_to_census p) (p_age p) (p_total_cross_section p) (p_mean_free_path p) (p_segment_path_length p) x (p_num_segments p) (p_random_number_seed p) (p_identifier p) (p_last_event p) (p_domain p) (p_cell p) (p_facet p) (p_normal_dot p).
(** assignment to the field [num_segments], mc_particle.rs line 65 *)
Definition set_num_segments (p : particle) (x : F K) : particle :=
  mkParticle (p_coordinate p) (p_direction p) (p_kinetic_energy p) (p_energy_group p) (p_weight p) (p_species p) (p_time_to_census p) (p_age p) (p_total_cross_section p) (p_mean_free_path p) (p_segment_path_length p) (p_num_mean_free_paths p) x (p_random_number_seed p) (p_identifier p) (p_last_event p) (p_domain p) (p_cell p) (p_facet p) (p_normal_dot p).
(** assignment to the field [random_number_seed], mc_particle.rs line 68 *)
Definition set_random_number_seed (p : particle) (x : N) : particle :=
  mkParticle (p_coordinate p) (p_direction p) (p_kinetic_energy p) (p_energy_group p) (p_weight p) (p_species p) (p_time_to_census p) (p_age p) (p_total_cross_section p) (p_mean_free_path p) (p_segment_path_length p) (p_num_mean_free_paths p) (p_num_segments p) x (p_identifier p) (p_last_event p) (p_domain p) (p_cell p) (p_facet p) (p_normal_dot p).
(** assignment to the field [identifier], mc_particle.rs line 70 *)
Definition set_identifier (p : particle) (x : N) : particle :=
  mkParticle (p_coordinate p) (p_direction p) (p_kinetic_energy p) (p_energy_group p) (p_weight p) (p_species p) (p_time_to_census p) (p_age p) (p_total_cross_section p) (p_mean_free_path p) (p_segment_path_length p) (p_num_mean_free_paths p) (p_num_segments p) (p_random_number_seed p) x (p_last_event p) (p_domain p) (p_cell p) (p_facet p) (p_normal_dot p).
(** assignment to the field [last_event], mc_particle.rs line 72 *)
Definition set_last_event (p : particle) (x : tally_event) : particle :=
  mkParticle (p_coordinate p) (p_direction p) (p_kinetic_energy p) (p_energy_group p) (p_weight p) (p_species p) (p_time_to_census p) (p_age p) (p_total_cross_section p) (p_mean_free_path p) (p_segment_path_length p) (p_num_mean_free_paths p) (p_num_segments p) (p_random_number_seed p) (p_identifier p) x (p_domain p) (p_cell p) (p_facet p) (p_normal_dot p).
(** assignment to the field [domain], mc_particle.rs line 75 *)
Definition set_domain (p : particle) (x : N) : particle :=
  mkParticle (p_coordinate p) (p_direction p) (p_kinetic_energy p) (p_energy_group p) (p_weight p) (p_species p) (p_time_to_census p) (p_age p) (p_total_cross_section p) (p_mean_free_path p) (p_segment_path_length p) (p_num_mean_free_paths p) (p_num_segments p) (p_random_number_seed p) (p_identifier p) (p_last_event p) x (p_cell p) (p_facet p) (p_normal_dot p).
(** assignment to the field [cell], mc_particle.rs line 77 *)
Definition set_cell (p : particle) (x : N) : particle :=
  mkParticle (p_coordinate p) (p_direction p) (p_kinetic_energy p) (p_energy_group p) (p_weight p) (p_species p) (p_time_to_census p) (p_age p) (p_total_cross_section p) (p_mean_free_path p) (p_segment_path_length p) (p_num_mean_free_paths p) (p_num_segments p) (p_random_number_seed p) (p_identifier p) (p_last_event p) (p_domain p) x (p_facet p) (p_normal_dot p).
(** assignment to the field [facet], mc_particle.rs line 79 *)
Definition set_facet (p : particle) (x : N) : particle :=
  mkParticle (p_coordinate p) (p_direction p) (p_kinetic_energy p) (p_energy_group p) (p_weight p) (p_species p) (p_time_to_census p) (p_age p) (p_total_cross_section p) (p_mean_free_path p) (p_segment_path_length p) (p_num_mean_free_paths p) (p_num_segments p) (p_random_number_seed p) (p_identifier p) (p_last_event p) (p_domain p) (p_cell p) x (p_normal_dot p).
(** assignment to the field [normal_dot], mc_particle.rs line 81 *)
Definition set_normal_dot (p : particle) (x : F K) : particle :=
  mkParticle (p_coordinate p) (p_direction p) (p_kinetic_energy p) (p_energy_group p) (p_weight p) (p_species p) (p_time_to_census p) (p_age p) (p_total_cross_section p) (p_mean_free_path p) (p_segment_path_length p) (p_num_mean_free_paths p) (p_num_segments p) (p_random_number_seed p) (p_identifier p) (p_last_event p) (p_domain p) (p_cell p) (p_facet p) x.

(** derived [Default], mc_particle.rs line 36. *)
Definition particle_default : particle :=
  mkParticle vzero vzero f0 0 f0 Known f0 f0 f0 f0 f0 f0 f0 0 0 EvCensus 0 0 0 f0.

(** [rng_sample::<T>(&mut self.random_number_seed)], mc_rng_state.rs lines 11-23, on a particle. *)
Definition draw (p : particle) : F K * particle :=
  let s := rng_next (p_random_number_seed p) in (fsample s, set_random_number_seed p s).

(** mc_particle.rs lines 87-89. *)
Definition move_particle_along_segment (p : particle) : particle :=
  set_coordinate p (vadd (p_coordinate p) (vscale (p_direction p) (p_segment_path_length p))).

(** mc_particle.rs lines 208-210.  [-one::<T>() * x] is [(-1) * x]. *)
Definition sample_num_mfp (p : particle) : particle :=
  let (r, p) := draw p in
  set_num_mean_free_paths p ((-. f1) *. fln r).

(** mc_particle.rs lines 241-268. *)
Definition rotate_direction (p : particle) (sine_theta cosine_theta sine_phi cosine_phi : F K) : particle :=
  let cos_theta_zero := vz (p_direction p) in
  let sin_theta_zero := fsqrt (f1 -. cos_theta_zero *. cos_theta_zero) in
  let '(cos_phi_zero, sin_phi_zero) :=
    if sin_theta_zero <. flit (1 # 1000000) then (f1, f0)
    else (vx (p_direction p) /. sin_theta_zero, vy (p_direction p) /. sin_theta_zero) in
  let x := cos_theta_zero *. cos_phi_zero *. (sine_theta *. cosine_phi)
           -. sin_phi_zero *. (sine_theta *. sine_phi)
           +. sin_theta_zero *. cos_phi_zero *. cosine_theta in
  let y := cos_theta_zero *. sin_phi_zero *. (sine_theta *. cosine_phi)
           +. cos_phi_zero *. (sine_theta *. sine_phi)
           +. sin_theta_zero *. sin_phi_zero *. cosine_theta in
  let z := (-. sin_theta_zero) *. (sine_theta *. cosine_phi) +. f0 +. cos_theta_zero *. cosine_theta in
  set_direction p (mkVec x y z).

(** mc_particle.rs lines 92-110. *)
Definition update_trajectory (p : particle) (energy angle : F K) : particle :=
  let cos_theta := angle in
  let sin_theta := fsqrt (f1 -. cos_theta *. cos_theta) in
  let (rdm_number, p) := draw p in
  let phi := ftwo *. fpi *. rdm_number in
  let p := set_kinetic_energy p energy in
  let p := rotate_direction p sin_theta cos_theta (fsin phi) (fcos phi) in
  sample_num_mfp p.

(** mc_particle.rs lines 114-123. *)
Definition get_speed (p : particle) : F K :=
  let e := p_kinetic_energy p in
  light_speed *. fsqrt (e *. (e +. ftwo *. neutron_mass_energy)
                        /. ((e +. neutron_mass_energy) *. (e +. neutron_mass_energy))).

(** mc_particle.rs lines 126-128. *)
Definition get_current_xs (p : particle) : F K * particle :=
  let (r, p') := draw p in (p_total_cross_section p *. r, p').

(** mc_particle.rs lines 145-147: energy and angle drawn by a scattering. *)
Definition draw_scatter (p : particle) (material_mass : F K) : F K * F K * particle :=
  let e := p_kinetic_energy p in
  let (r, p) := draw p in
  let energy := e *. (f1 -. r *. (f1 /. material_mass)) in
  let (a, p) := draw p in
  (energy, a *. ftwo -. f1, p).

(** mc_particle.rs lines 161-163, 170-172 and 176-181: energy and angle drawn by a fission. *)
Definition draw_fission (p : particle) : F K * F K * particle :=
  let (r, p) := draw p in
  let rand_f := (r +. f1) /. ftwo in
  let energy := flit (20 # 1) *. rand_f *. rand_f in
  let (a, p) := draw p in
  (energy, a *. ftwo -. f1, p).

(** mc_particle.rs lines 174-182: the iterator [(1..num_particle_out).map(..)]. *)
Fixpoint draw_fission_n (n : nat) (p : particle) : list (F K * F K) * particle :=
  match n with
  | O => ([], p)
  | S n => let '(e, a, p) := draw_fission p in
           let (l, p) := draw_fission_n n p in ((e, a) :: l, p)
  end.

(** [spawn_rn_seed::<T>(&mut self.random_number_seed)], mc_rng_state.rs lines 27-31, on a particle. *)
Definition spawn (p : particle) : N * particle :=
  let (s, parent) := spawn_rn_seed (p_random_number_seed p) in (s, set_random_number_seed p parent).

(** mc_particle.rs lines 184-188. *)
Fixpoint spawn_n (n : nat) (p : particle) : list N * particle :=
  match n with
  | O => ([], p)
  | S n => let (s, p) := spawn p in
           let (l, p) := spawn_n n p in (s :: l, p)
  end.

(** mc_particle.rs lines 190-196: one secondary particle, a clone of the
    original whose random state is already advanced. *)
Definition secondary (p : particle) (seed : N) (energy angle : F K) : particle :=
  update_trajectory (set_identifier (set_random_number_seed p seed) seed) energy angle.

(** mc_particle.rs lines 134-205.  Returns the number of particles out, the
    updated particle and the particles appended to [extra]. *)
Definition sample_collision (p : particle) (r : reaction) (material_mass : F K)
  : result (N * particle * list particle) :=
  match r_type r with
  | Scatter =>
      let '(energy, angle, p) := draw_scatter p material_mass in
      Ok (1, update_trajectory p energy angle, [])
  | Absorption => Ok (0, p, [])
  | Fission =>
      let (u, p) := draw p in
      do n_out <- unwrap (fto_usize (r_nu_bar r +. u)) ;
      match n_out with
      | 0 => Ok (0, p, [])
      | 1 => let '(energy, angle, p) := draw_fission p in
             Ok (1, update_trajectory p energy angle, [])
      | _ =>
          do _ <- rassert (n_out <? 5) ;
          let '(energy, angle, p) := draw_fission p in
          let (out, p) := draw_fission_n (N.to_nat (n_out - 1)) p in
          let (seeds, p) := spawn_n (N.to_nat (n_out - 1)) p in
          let sec := map (fun '(seed, (e, a)) => secondary p seed e a) (combine seeds out) in
          Ok (n_out, update_trajectory p energy angle, sec)
      end
  end.

(** mc_particle.rs lines 213-227. *)
Definition sample_isotropic (p : particle) : particle :=
  let (r1, p) := draw p in
  let z := f1 -. ftwo *. r1 in
  let sine_gamma := fsqrt (f1 -. z *. z) in
  let (r2, p) := draw p in
  let phi := fpi *. (ftwo *. r2 -. f1) in
  set_direction p (mkVec (sine_gamma *. fcos phi) (sine_gamma *. fsin phi) z).

(** mc_particle.rs lines 284-290: the iterator returned by
    [under_populated_split], fully consumed by [extend]. *)
Fixpoint split_copies (n : nat) (p : particle) : list particle * particle :=
  match n with
  | O => ([], p)
  | S n =>
      let clone := p in
      let (s, p) := spawn p in
      let copy := set_identifier (set_random_number_seed clone s) s in
      let (l, p) := split_copies n p in (copy :: l, p)
  end.

(** mc_particle.rs lines 272-291: the updated particle and its copies. *)
Definition under_populated_split (p : particle) (split_rr_factor : F K)
  : result (particle * list particle) :=
  let split_factor := ffloor split_rr_factor in
  let (r, p) := draw p in
  let split_factor := if r >. (split_rr_factor -. split_factor) then split_factor -. f1 else split_factor in
  let p := set_weight p (p_weight p /. split_rr_factor) in
  do n_split <- unwrap (fto_usize split_factor) ;
  let (l, p) := split_copies (N.to_nat n_split) p in
  Ok (p, l).

(** mc_particle.rs lines 296-305: (survives, updated particle). *)
Definition over_populated_rr (p : particle) (split_rr_factor : F K) : bool * particle :=
  let (r, p) := draw p in
  if r >. split_rr_factor then (false, p)
  else (true, set_weight p (p_weight p /. split_rr_factor)).

(** mc_particle.rs lines 310-325. *)
Definition low_weight_rr (p : particle) (relative_weight_cutoff source_particle_weight : F K)
  : bool * particle :=
  let weight_cutoff := relative_weight_cutoff *. source_particle_weight in
  if p_weight p <=. weight_cutoff then
    let (r, p) := draw p in
    if r <=. relative_weight_cutoff
    then (true, set_weight p (p_weight p /. relative_weight_cutoff))
    else (false, p)
  else (true, p).

End Particle.

Arguments vec : clear implicits.
Arguments particle : clear implicits.
Arguments reaction : clear implicits.
