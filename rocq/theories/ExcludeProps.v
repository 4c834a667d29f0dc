(** C66: what the parameters of a problem exclude does not happen. *)
From Coq Require Import NArith ZArith QArith String List Bool Lia Reals Lra Permutation.
From Verif Require Import Float RealOps Ieee ParticleModel NuclearModel MeshTypes Balance TrackModel CycleModel GridModel MeshModel GridSpec MeshSpec TrackSpec CycleSpec GeomSpec
  WellBuilt ParamModel ParamSpec SetUpSpec ParamDemo Demo SafeSpec ExcludeSpec ExcludeFacts ExcludeBuilt ExcludeProgram ExcludeDemo.
Import ListNotations.
Local Open Scope N_scope.

(** In exact arithmetic and in binary64, whatever the mathematical library, a multiple of zero takes nothing away, and what is at least zero is not less than zero. *)
Theorem c66_zero_takes_nothing : (zero_takes_nothing Rops /\ (forall x : F Rops, fle f0 x = true -> flt x f0 = false)) /\
  forall lm, zero_takes_nothing (f64ops lm) /\ (forall x : F (f64ops lm), fle f0 x = true -> flt x f0 = false).
Proof. exact (conj zero_real zero_ieee). Qed.
Print Assumptions c66_zero_takes_nothing.

(** In such an arithmetic a collision in a cell is a reaction of the material of the cell of the particle, and not of a kind whose cross-sections are all zero there. *)
Theorem c66_collision_partner : forall (K : FloatOps) (td : track_data K) dom k p e keep p' nx,
  zero_takes_nothing K -> (forall x : F K, fle f0 x = true -> flt x f0 = false) -> (forall cs, In cs (d_cells dom) -> dense td cs) ->
  seg_step td dom p e keep p' nx ->
  match e with
  | SegCollision t n => exists cs r, vec_get (d_cells dom) (p_cell p) = Ok cs /\ reaction_of td cs r /\ r_type r = t /\ ~ (inert td cs k /\ t = k)
  | _ => True
  end.
Proof. exact @step_excluded. Qed.
Print Assumptions c66_collision_partner.

(** A kind of reaction whose cross-sections are all zero is counted in no row of a run, nor in its totals, whatever the policy and the schedule;
    for fission neither are produced particles. *)
Theorem c66_excluded_kind : forall (K : FloatOps) fuel cf (md : mcdata K) d s k,
  zero_takes_nothing K -> (forall x : F K, fle f0 x = true -> flt x f0 = false) -> excluded (mc_track md) d k ->
  core_loop fuel cf md (initial_sim md d) (Ok s) -> forall c, In c (tells_of k) -> Forall (fun b => bget b c = 0) (all_rows s).
Proof. exact @run_excluded. Qed.
Print Assumptions c66_excluded_kind.

(** If two kinds are excluded, all collisions are of the third. *)
Theorem c66_only_kind : forall (K : FloatOps) fuel cf (md : mcdata K) d s k,
  zero_takes_nothing K -> (forall x : F K, fle f0 x = true -> flt x f0 = false) -> (forall k', k' <> k -> excluded (mc_track md) d k') ->
  core_loop fuel cf md (initial_sim md d) (Ok s) ->
  Forall (fun b => bget b ECollision = bget b (match k with Scatter => EScatter | Absorption => EAbsorb | Fission => EFission end)) (all_rows s).
Proof. exact @run_only. Qed.
Print Assumptions c66_only_kind.

(** If no facet lets particles out, no escape is counted; a mesh with reflecting boundaries is such. *)
Theorem c66_closed : forall (K : FloatOps) fuel cf (md : mcdata K) d s, closed (d_mesh d) ->
  core_loop fuel cf md (initial_sim md d) (Ok s) -> Forall (fun b => bget b EEscape = 0) (all_rows s).
Proof. exact @run_closed. Qed.
Print Assumptions c66_closed.
Theorem c66_reflecting : forall (K : FloatOps) (g : grid K) pt geoms mats dom, built_domain g "reflect" pt geoms mats dom -> closed (d_mesh dom).
Proof. exact @reflecting_closed. Qed.
Print Assumptions c66_reflecting.

(** In a closed box without absorption and fission only the source and population control change the number of particles. *)
Theorem c66_box : forall (K : FloatOps) fuel cf (md : mcdata K) d s,
  zero_takes_nothing K -> (forall x : F K, fle f0 x = true -> flt x f0 = false) ->
  closed (d_mesh d) -> excluded (mc_track md) d Absorption -> excluded (mc_track md) d Fission -> core_loop fuel cf md (initial_sim md d) (Ok s) ->
  Forall (fun b => bget b EStart + bget b ESource + bget b ESplit = bget b EEnd + bget b EOverRr + bget b EWeightRr) (map rp_balance (s_reports s)).
Proof. exact @run_box. Qed.
Print Assumptions c66_box.

(** In exact arithmetic a kind of reaction is excluded as soon as its ratio is zero in all materials. *)
Theorem c66_ratio_zero : forall (p : params Rops) md threads g bc pt geoms dom k, init_mcdata p = Ok md -> physical p ->
  built_domain g bc pt geoms (td_mats (mc_track md)) dom -> sized g ->
  Forall (fun e : string * material_params Rops => ratio_of k (snd e) = 0%R) (pa_mats p) -> excluded (mc_track (set_threads threads md)) dom k.
Proof. exact parameters_exclude. Qed.
Print Assumptions c66_ratio_zero.

(** From the command line to the last row, in exact arithmetic. *)
Theorem c66_program : forall real yaml, (forall text b, yaml text = Some b -> distinct_keys b) ->
  forall read order threads (c : cli Rops) (p : params Rops) fuel cf s, any_order order -> get_parameters real yaml read c = Ok (inl p) ->
  sane_sizes (pa_sim p) -> physical p -> geometry_everywhere (pa_sim p) (pa_geom p) -> requested (si_boundary_condition (pa_sim p)) 0 <> None ->
  program real yaml fuel cf read order threads c (Ok (Some s)) ->
  (si_boundary_condition (pa_sim p) = "reflect"%string -> Forall (fun b => bget b EEscape = 0) (all_rows s)) /\
  (forall k, Forall (fun e : string * material_params Rops => ratio_of k (snd e) = 0%R) (pa_mats p) ->
     forall ev, In ev (tells_of k) -> Forall (fun b => bget b ev = 0) (all_rows s)).
Proof. exact program_excludes. Qed.
Print Assumptions c66_program.

(** Without an input file the boundaries reflect and nothing escapes. *)
Theorem c66_default_closed : forall real yaml, (forall text b, yaml text = Some b -> distinct_keys b) ->
  forall read order threads (c : cli Rops) fuel cf s, any_order order -> cl_input_file c = None -> sane_sizes (from_cli c) -> (0 < (si_dt (from_cli c) : R))%R ->
  program real yaml fuel cf read order threads c (Ok (Some s)) -> Forall (fun b => bget b EEscape = 0) (all_rows s).
Proof. exact default_closed. Qed.
Print Assumptions c66_default_closed.

(** The density is needed: in a cell whose density is zero a reaction whose cross-sections are all zero can be picked. *)
Theorem c66_without_density_refuted : exists (td : track_data K64) cs r fuel g cur, inert td cs Fission /\
  pick_loop fuel td (cs_material cs) (cs_number_density cs) g cur = Ok r /\ r_type r = Fission.
Proof. exact empty_matter. Qed.
Print Assumptions c66_without_density_refuted.

(** A run in binary64 of two cycles in a closed box with scattering only: 57 collisions. *)
Example c66_box_case : exists (md : mcdata K64) dom s, (forall k', k' <> Scatter -> excluded (mc_track md) dom k') /\ closed (d_mesh dom) /\
  core_loop 400 40 md (initial_sim md dom) (Ok s) /\
  demo_view (Ok s) = Some ([(0, [0; 1; 9; 0; 0; 10; 0; 0; 0; 0; 20; 20; 33; 10]); (1, [10; 1; 0; 0; 0; 10; 0; 1; 0; 0; 37; 37; 70; 10])], [0; 0; 20; 0]).
Proof. exact scatter_case. Qed.
(** One with absorption only. *)
Example c66_absorb_case : exists (md : mcdata K64) dom s, (forall k', k' <> Absorption -> excluded (mc_track md) dom k') /\
  core_loop 400 40 md (initial_sim md dom) (Ok s) /\
  demo_view (Ok s) = Some ([(0, [0; 1; 9; 0; 10; 0; 0; 0; 0; 0; 10; 0; 10; 0]); (1, [0; 1; 9; 0; 0; 10; 0; 0; 0; 0; 0; 0; 10; 10])], [0; 0; 10; 0]).
Proof. exact absorb_case. Qed.
(** The default problem of 1000 cells without fission. *)
Example c66_ratio_case : exists md pt dom, init_mcdata no_fission = Ok md /\ physical no_fission /\
  built_domain (grid_new (K := Rops) (dims_of (pa_sim no_fission)) (si_lx (pa_sim no_fission)) (si_ly (pa_sim no_fission)) (si_lz (pa_sim no_fission))) "reflect" pt (pa_geom no_fission) (td_mats (mc_track md)) dom /\
  sized (grid_new (K := Rops) (dims_of (pa_sim no_fission)) (si_lx (pa_sim no_fission)) (si_ly (pa_sim no_fission)) (si_lz (pa_sim no_fission))) /\
  Forall (fun e : string * material_params Rops => ratio_of Fission (snd e) = 0%R) (pa_mats no_fission).
Proof. exact no_fission_case. Qed.
(** The default command line meets the conditions. *)
Example c66_program_case : cl_input_file plain_cli = None /\ sane_sizes (from_cli plain_cli) /\ (0 < (si_dt (from_cli plain_cli) : R))%R.
Proof. split; [reflexivity|]. split; [exact plain_sane|]. unfold Q2R. cbn. lra. Qed.
