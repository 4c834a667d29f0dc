(** Vocabulary for the claim that a run does not stop on an index out of range or a failed check (C49). *)
From Coq Require Import String NArith QArith List Bool Reals.
From Verif Require Import Float RealOps RngModel ParticleModel NuclearModel MeshTypes Balance TrackModel CycleModel ScheduleSpec RangeSpec
  PopSpec SegmentSpec ParamModel.
Import ListNotations.
Local Open Scope N_scope.
Local Open Scope float_scope.

Section Spec.
Context {K : FloatOps}.

(** Not below zero: for a float, at least zero (of any sign) or NaN. *)
Definition not_negative (x : F K) : Prop := (x <. f0) = false.

(** ** Indices *)

(** A facet that can be crossed: the boundary lets out or reflects, or there is a cell of the domain on the other side. *)
Definition crossable (dom : domain K) (fa : facet_adj) : Prop :=
  match fa_event fa with
  | BoundaryEscape | BoundaryReflection => True
  | TransitOnProcessor => exists d c f, fa_adjacent fa = mkLocation (Some d) (Some c) (Some f) /\ c < n_cells dom
  | AdjacencyUndefined | TransitOffProcessor => False
  end.

(** The indices stored in the problem data are those of existing entries: the mesh is complete, the cells have a known
    material, the materials known isotopes with one cross-section per group, the facets can be crossed. *)
Record indexed (md : mcdata K) (dom : domain K) : Prop := {
  ix_mesh : complete_geometry (d_mesh dom);
  ix_cells : length (d_cells dom) = length (me_conn (d_mesh dom));
  ix_material : forall cs, In cs (d_cells dom) -> cs_material cs < N.of_nat (length (td_mats (mc_track md)));
  ix_isotope : forall mat iso, In mat (td_mats (mc_track md)) -> In iso (mat_iso mat) ->
    iso_gid iso < N.of_nat (length (nd_isotopes (td_nuclear (mc_track md))));
  ix_sections : forall rs r, In rs (nd_isotopes (td_nuclear (mc_track md))) -> In r rs ->
    N.of_nat (length (r_cross_section r)) = sp_n_groups (mc_params md);
  ix_facets : forall conn fa, In conn (me_conn (d_mesh dom)) -> In fa (cc_facet conn) -> crossable dom fa;
  ix_names : materials_known md
}.

(** ** Values *)

(** What is asked of the arithmetic.  [good] are numbers that are known not to be negative (and, for floats, to be finite). *)
Record sign_laws (good : F K -> Prop) : Prop := {
  sl_zero : f0 <. (f0 : F K) = false;
  sl_huge : f0 <=. (fhuge : F K) = true;
  sl_huge_self : fhuge <=. (fhuge : F K) = true;
  sl_below_huge : (-. fhuge) <=. (f0 : F K) = true;
  sl_tiny : f0 <=. (ftiny : F K) = true;
  sl_small : not_negative fsmall;
  sl_light : not_negative light_speed;
  sl_points : (fof_N N_POINTS_INTERSEC : F K) ==. f0 = false;
  sl_le_trans : forall x y z : F K, x <=. y = true -> y <=. z = true -> x <=. z = true;
  sl_le_not_lt : forall x : F K, f0 <=. x = true -> not_negative x;
  sl_known : forall x y : F K, x <. y = true -> not_negative x -> f0 <=. x = true;
  sl_max : forall x : F K, not_negative (fmax x f0);
  sl_max_huge : forall x : F K, x <=. fhuge = true -> fmax x f0 <=. fhuge = true;
  sl_min : forall x : F K, not_negative x -> not_negative (fmin f0 x);
  sl_mul : forall x y : F K, not_negative x -> not_negative y -> not_negative (x *. y);
  sl_add : forall x y : F K, not_negative x -> not_negative y -> not_negative (x +. y);
  sl_sqrt : forall x : F K, not_negative (fsqrt x);
  sl_inverse : forall x : F K, good x -> x ==. f0 = false -> not_negative (f1 /. x);
  sl_sample : forall s, s < two64 -> not_negative (fsample s : F K);
  sl_minus_ln : forall s, s < two64 -> not_negative ((-. f1) *. fln (fsample s : F K));
  sl_good : forall x : F K, good x -> f0 <=. x = true;
  sl_literal : good (flit (1 # 100000000000000000000));
  sl_part : forall x s, good x -> s < two64 -> good (x *. fsample s);
  sl_rest : forall x y : F K, good x -> good y -> not_negative (x -. y) -> good (x -. y)
}.

(** The number of copies of a split with factor [f], for the number drawn [r] (mc_particle.rs lines 282-289). *)
Definition copies (f r : F K) : F K := if r >. (f -. ffloor f) then ffloor f -. f1 else ffloor f.

(** The values of the problem are such that the checks made during a run hold. *)
Record safe_values (good : F K -> Prop) (md : mcdata K) (dom : domain K) : Prop := {
  (* the time step *)
  sv_dt : not_negative (td_dt (mc_track md));
  (* the total cross-sections of the cells, and the share of each reaction *)
  sv_total : forall c g xs, in_range dom (sp_n_groups (mc_params md)) c g ->
    cell_cross_section (mc_track md) dom c g = Ok xs -> good xs;
  sv_shares : forall cs mat iso rs r g x, In cs (d_cells dom) ->
    nth_error (td_mats (mc_track md)) (N.to_nat (cs_material cs)) = Some mat -> In iso (mat_iso mat) ->
    nth_error (nd_isotopes (td_nuclear (mc_track md))) (N.to_nat (iso_gid iso)) = Some rs -> In r rs ->
    nth_error (r_cross_section r) g = Some x -> good (iso_atom_fraction iso *. cs_number_density cs *. x);
  (* the number of particles out of a fission *)
  sv_fission : forall rs r s, In rs (nd_isotopes (td_nuclear (mc_track md))) -> In r rs -> r_type r = Fission -> s < two64 ->
    exists n, fto_usize (r_nu_bar r +. fsample s) = Some n /\ n < 5;
  (* the number of particles to source, in all and in each cell *)
  sv_spawn : exists n, fto_usize (src_fraction *. fof_N (sp_n_particles (mc_params md)) : F K) = Some n /\ 0 < n;
  sv_source : forall w cs x, unit_weight md dom = Ok w -> In cs (d_cells dom) -> emits md cs x ->
    exists n, fto_usize (ffloor (x /. ((f0 +. w) /. (src_fraction *. fof_N (sp_n_particles (mc_params md)))))) = Some n;
  (* the splitting of particles, for any population *)
  sv_split : forall global local, 0 < global -> 0 < local ->
    exists f, compute_split_factor (K := K) (sp_n_particles (mc_params md)) global local (ei_n_units (mc_exec md))
                (sp_load_balance (mc_params md)) = Ok f /\
      (f1 <. f = true -> forall s, s < two64 -> exists n, fto_usize (copies f (fsample s)) = Some n)
}.

End Spec.

(** ** Parameters (exact arithmetic) *)
Local Open Scope R_scope.

(** Parameters with physical values: an energy range that contains the fission energies, nuclei not lighter than a neutron,
    no negative cross-section, ratio, source rate or time step, and less than four neutrons per fission on average. *)
Record physical (p : params Rops) : Prop := {
  ph_dt : 0 <= si_dt (pa_sim p);
  ph_groups : (0 < si_n_groups (pa_sim p))%N;
  ph_energies : 0 < si_e_min (pa_sim p) <= si_e_max (pa_sim p) /\ 20 <= si_e_max (pa_sim p);
  ph_nu : Forall (fun e : String.string * xs_params Rops => 0 <= (xp_nu_bar (snd e) : R) < 4) (pa_xs p);
  ph_mass : Forall (fun e : String.string * material_params Rops => 1 <= (mp_mass (snd e) : R)) (pa_mats p);
  ph_total : Forall (fun e : String.string * material_params Rops => 0 <= (mp_total_cross_section (snd e) : R)) (pa_mats p);
  ph_ratios : Forall (fun e : String.string * material_params Rops => 0 <= (mp_scattering_ratio (snd e) : R) /\ 0 <= (mp_fission_ratio (snd e) : R) /\ 0 <= (mp_absorption_ratio (snd e) : R) /\
                               0 < mp_scattering_ratio (snd e) + mp_fission_ratio (snd e) + mp_absorption_ratio (snd e)) (pa_mats p);
  ph_source : Forall (fun e : String.string * material_params Rops => 0 <= (mp_source_rate (snd e) : R)) (pa_mats p)
}.

(** Some cell of the domain has a source. *)
Definition has_source (md : mcdata Rops) (dom : domain Rops) : Prop :=
  exists cs (x : R), In cs (d_cells dom) /\ emits md cs x /\ 0 < x.
