(** What an input file means: vocabulary of claims C41 to C43 and C45. *)
From Coq Require Import NArith QArith List Bool String Ascii Permutation.
From Verif Require Import Float RngModel ParticleModel NuclearModel MeshTypes TrackModel CycleModel GridModel MeshModel ParamModel.
Import ListNotations.
Local Open Scope N_scope.

(** The value of a key in a block: what its text says, or the default when the key is absent. *)
Definition field {A} (parse : string -> option A) (b : block) (key : string) (default : A) : option A :=
  match map_get b key with None => Some default | Some text => parse text end.
Definition distinct_keys {A} (b : list (string * A)) : Prop := NoDup (map fst b).
Definition keys_among (allowed : list string) (b : block) : Prop := Forall (fun e => In (fst e) allowed) b.

Definition text_of (s : string) : option string := Some s.
Definition shape_of (s : string) : option shape :=
  if (s =? "brick")%string then Some Brick else if (s =? "sphere")%string then Some Sphere else None.
Definition flag_of (s : string) : option bool :=
  match s with String "0" _ => Some false | String "1" _ => Some true | _ => None end.
Definition bench_of (s : string) : option bench_type :=
  match s with String "0" _ => Some Standard | String "1" _ => Some Coral1 | String "2" _ => Some Coral2 | _ => None end.

Definition geometry_keys : list string :=
  ["material"; "shape"; "radius"; "xCenter"; "yCenter"; "zCenter"; "xMin"; "yMin"; "zMin"; "xMax"; "yMax"; "zMax"]%string.
Definition material_keys : list string :=
  ["name"; "mass"; "totalCrossSection"; "nIsotopes"; "nReactions"; "sourceRate"; "scatteringCrossSection"; "absorptionCrossSection";
   "fissionCrossSection"; "scatteringCrossSectionRatio"; "absorptionCrossSectionRatio"; "fissionCrossSectionRatio"]%string.
Definition xs_keys : list string := ["name"; "A"; "B"; "C"; "D"; "E"; "nuBar"]%string.
Definition ignored_keys : list string :=
  ["cycleTimers"; "batchSize"; "nBatches"; "balanceTallyReplications"; "bTally"; "fluxTallyReplications"; "fTally";
   "cellTallyReplications"; "cTally"; "xDom"; "yDom"; "zDom"; "fMax"; "mpiThreadMultiple"]%string.
Definition simulation_keys : list string :=
  ["inputFile"; "energySpectrum"; "crossSectionsOut"; "boundaryCondition"; "loadBalance"; "debugThreads"; "coralBenchmark";
   "nParticles"; "nSteps"; "nx"; "ny"; "nz"; "seed"; "dt"; "lx"; "ly"; "lz"; "eMin"; "eMax"; "nGroups"; "lowWeightCutoff"]%string
  ++ ignored_keys.

Section Spec.
Context {K : FloatOps}.
Context (real : string -> option (F K)).

(** The geometry described by a block. *)
Definition geometry_read (b : block) (g : geometry_params K) : Prop :=
  keys_among geometry_keys b /\
  field text_of b "material" ""%string = Some (gp_material_name g) /\
  field shape_of b "shape" ShUndefined = Some (gp_shape g) /\
  field real b "radius" f0 = Some (gp_radius g) /\
  field real b "xCenter" f0 = Some (gp_x_center g) /\
  field real b "yCenter" f0 = Some (gp_y_center g) /\
  field real b "zCenter" f0 = Some (gp_z_center g) /\
  field real b "xMin" f0 = Some (gp_x_min g) /\
  field real b "yMin" f0 = Some (gp_y_min g) /\
  field real b "zMin" f0 = Some (gp_z_min g) /\
  field real b "xMax" f0 = Some (gp_x_max g) /\
  field real b "yMax" f0 = Some (gp_y_max g) /\
  field real b "zMax" f0 = Some (gp_z_max g).

(** The material described by a block. *)
Definition material_read (b : block) (m : material_params K) : Prop :=
  keys_among material_keys b /\
  field text_of b "name" ""%string = Some (mp_name m) /\
  field real b "mass" (flit (1000 # 1)) = Some (mp_mass m) /\
  field real b "totalCrossSection" f1 = Some (mp_total_cross_section m) /\
  field parse_u64 b "nIsotopes" 10 = Some (mp_n_isotopes m) /\
  field parse_u64 b "nReactions" 9 = Some (mp_n_reactions m) /\
  field real b "sourceRate" f0 = Some (mp_source_rate m) /\
  field text_of b "scatteringCrossSection" ""%string = Some (mp_scattering_cross_section m) /\
  field text_of b "absorptionCrossSection" ""%string = Some (mp_absorption_cross_section m) /\
  field text_of b "fissionCrossSection" ""%string = Some (mp_fission_cross_section m) /\
  field real b "scatteringCrossSectionRatio" f1 = Some (mp_scattering_ratio m) /\
  field real b "absorptionCrossSectionRatio" f1 = Some (mp_absorption_ratio m) /\
  field real b "fissionCrossSectionRatio" f1 = Some (mp_fission_ratio m).

(** The cross-section described by a block. *)
Definition xs_read (b : block) (x : xs_params K) : Prop :=
  keys_among xs_keys b /\
  field text_of b "name" ""%string = Some (xp_name x) /\
  field real b "A" f0 = Some (xp_aa x) /\
  field real b "B" f0 = Some (xp_bb x) /\
  field real b "C" f0 = Some (xp_cc x) /\
  field real b "D" f0 = Some (xp_dd x) /\
  field real b "E" f1 = Some (xp_ee x) /\
  field real b "nuBar" (flit (5033165 # 2097152)) = Some (xp_nu_bar x).

(** The simulation parameters: those of the block, and those of [s] for the other ones. *)
Definition simulation_read (s : simulation_params K) (b : block) (s' : simulation_params K) : Prop :=
  keys_among simulation_keys b /\
  field text_of b "inputFile" (si_input_file s) = Some (si_input_file s') /\
  field text_of b "energySpectrum" (si_energy_spectrum s) = Some (si_energy_spectrum s') /\
  field text_of b "crossSectionsOut" (si_cross_sections_out s) = Some (si_cross_sections_out s') /\
  field text_of b "boundaryCondition" (si_boundary_condition s) = Some (si_boundary_condition s') /\
  field flag_of b "loadBalance" (si_load_balance s) = Some (si_load_balance s') /\
  si_csv s' = si_csv s /\
  field flag_of b "debugThreads" (si_debug_threads s) = Some (si_debug_threads s') /\
  field parse_u64 b "nParticles" (si_n_particles s) = Some (si_n_particles s') /\
  si_chunk_size s' = si_chunk_size s /\
  si_n_rayon_threads s' = si_n_rayon_threads s /\
  si_bind_threads s' = si_bind_threads s /\
  si_n_units s' = si_n_units s /\
  field parse_u64 b "nSteps" (si_n_steps s) = Some (si_n_steps s') /\
  field parse_u64 b "nx" (si_nx s) = Some (si_nx s') /\
  field parse_u64 b "ny" (si_ny s) = Some (si_ny s') /\
  field parse_u64 b "nz" (si_nz s) = Some (si_nz s') /\
  field parse_u64 b "seed" (si_seed s) = Some (si_seed s') /\
  field real b "dt" (si_dt s) = Some (si_dt s') /\
  field real b "lx" (si_lx s) = Some (si_lx s') /\
  field real b "ly" (si_ly s) = Some (si_ly s') /\
  field real b "lz" (si_lz s) = Some (si_lz s') /\
  field real b "eMin" (si_e_min s) = Some (si_e_min s') /\
  field real b "eMax" (si_e_max s) = Some (si_e_max s') /\
  field parse_u64 b "nGroups" (si_n_groups s) = Some (si_n_groups s') /\
  field real b "lowWeightCutoff" (si_low_weight_cutoff s) = Some (si_low_weight_cutoff s') /\
  field bench_of b "coralBenchmark" (si_coral_benchmark s) = Some (si_coral_benchmark s').

(** The values given on the command line, and the documented defaults for the other ones. *)
Definition given {A} (o : option A) (default a : A) : Prop := match o with Some v => a = v | None => a = default end.
Definition cli_read (c : cli K) (s : simulation_params K) : Prop :=
  given (cl_input_file c) ""%string (si_input_file s) /\
  given (cl_energy_spectrum c) ""%string (si_energy_spectrum s) /\
  given (cl_cross_sections_out c) ""%string (si_cross_sections_out s) /\
  si_boundary_condition s = "reflect"%string /\
  si_load_balance s = cl_load_balance c /\
  si_csv s = cl_csv c /\
  si_debug_threads s = cl_debug_threads c /\
  given (cl_n_particles c) 1000000 (si_n_particles s) /\
  given (cl_chunk_size c) 0 (si_chunk_size s) /\
  given (cl_n_rayon_threads c) 1 (si_n_rayon_threads s) /\
  si_bind_threads s = cl_bind_threads c /\
  given (cl_n_units c) 1 (si_n_units s) /\
  given (cl_n_steps c) 10 (si_n_steps s) /\
  given (cl_nx c) 10 (si_nx s) /\
  given (cl_ny c) 10 (si_ny s) /\
  given (cl_nz c) 10 (si_nz s) /\
  given (cl_seed c) 1029384756 (si_seed s) /\
  given (cl_dt c) (flit (1 # 100000000)) (si_dt s) /\
  given (cl_lx c) (flit (100 # 1)) (si_lx s) /\
  given (cl_ly c) (flit (100 # 1)) (si_ly s) /\
  given (cl_lz c) (flit (100 # 1)) (si_lz s) /\
  si_e_min s = flit (1 # 1000000000) /\
  si_e_max s = flit (20 # 1) /\
  si_n_groups s = 230 /\
  si_low_weight_cutoff s = flit (1 # 1000) /\
  si_coral_benchmark s = Standard.

(** ** Files *)

(** The text of a file made of blocks. *)
Fixpoint file_text (blocks : list string) : string :=
  match blocks with
  | [] => ""
  | [b] => b
  | b :: bs => (b ++ String lf (String lf (file_text bs)))%string
  end.
(** No two line feeds in a row. *)
Fixpoint no_blank_line (s : string) : Prop :=
  match s with
  | EmptyString => True
  | String c s' => ~ (c = lf /\ match s' with String c' _ => c' = lf | EmptyString => False end) /\ no_blank_line s'
  end.
Definition starts_text (s : string) : Prop := match s with String c _ => c <> lf | EmptyString => True end.

(** The block under a title in the piece of a file, if that is its title. *)
Definition under (yaml : string -> option block) (title : string) (raw : string) : list block :=
  match cut_line raw with
  | Some (head, text) => if (head =? title)%string then (match yaml text with Some b => [b] | None => [] end) else []
  | None => []
  end.
(** The blocks with that title in a file. *)
Definition blocks_of (yaml : string -> option block) (title : string) (raws : list string) : list block :=
  flat_map (under yaml title) raws.

(** Two readers of texts that differ only in the order of the pairs of a block. *)
Definition same_blocks (yaml yaml' : string -> option block) : Prop :=
  forall text, match yaml text, yaml' text with
               | Some b, Some b' => distinct_keys b /\ Permutation b b'
               | None, None => True
               | _, _ => False
               end.
(** The three switches are not empty texts. *)
Definition switches_given (b : block) : Prop :=
  Forall (fun e => In (fst e) ["loadBalance"; "debugThreads"; "coralBenchmark"]%string -> snd e <> ""%string) b.

(** ** Integrity *)
Definition known {A} (m : list (string * A)) (name : string) : Prop := exists v, In (name, v) m.
Definition geometry_sound (p : params K) (g : geometry_params K) : Prop :=
  gp_shape g <> ShUndefined /\ known (pa_mats p) (gp_material_name g).
Definition material_sound (p : params K) (m : material_params K) : Prop :=
  known (pa_xs p) (mp_absorption_cross_section m) /\ known (pa_xs p) (mp_scattering_cross_section m) /\ known (pa_xs p) (mp_fission_cross_section m).
Definition integrity (p : params K) : Prop :=
  pa_geom p <> [] /\ Forall (geometry_sound p) (pa_geom p) /\ Forall (fun e => material_sound p (snd e)) (pa_mats p).

(** Materials and cross-sections are stored under their names, once. *)
Definition well_named (p : params K) : Prop :=
  Forall (fun e => fst e = mp_name (snd e)) (pa_mats p) /\ distinct_keys (pa_mats p) /\
  Forall (fun e => fst e = xp_name (snd e)) (pa_xs p) /\ distinct_keys (pa_xs p).

(** The same parameters with another iteration order of the maps. *)
Definition reordered (p q : params K) : Prop :=
  pa_sim q = pa_sim p /\ pa_geom q = pa_geom p /\ Permutation (pa_mats p) (pa_mats q) /\ Permutation (pa_xs p) (pa_xs q).

(** The same parameters with another boundary condition. *)
Definition with_boundary (p : params K) (bc : string) : params K :=
  let '(mkSimulation inp spe xso _ lb csv dbg np cs nt bt nu ns nx ny nz seed dt lx ly lz e0 e1 ng lw co) := pa_sim p in
  set_sim p (mkSimulation inp spe xso bc lb csv dbg np cs nt bt nu ns nx ny nz seed dt lx ly lz e0 e1 ng lw co).

(** The pieces of the input file, in the order of the file. *)
Definition input_pieces (read : string -> option string) (c : cli K) : option (list string) :=
  match cl_input_file c with None => Some [] | Some f => match read f with Some text => Some (rev (rsplit text)) | None => None end end.

End Spec.

Section Files.
Context {K : FloatOps}.
Context (real : string -> option (F K)) (yaml : string -> option block).

(** A piece of a file that can be read: a single line, or a block under one of the four titles. *)
Definition piece_fine (raw : string) : Prop :=
  match cut_line raw with
  | None => True
  | Some (head, text) =>
      exists b, yaml text = Some b /\
        ((head = "Simulation:"%string /\ forall s : simulation_params K, exists s', simulation_read real s b s') \/
         (head = "Geometry:"%string /\ exists g, geometry_read real b g) \/
         (head = "Material:"%string /\ exists m, material_read real b m) \/
         (head = "CrossSection:"%string /\ exists x, xs_read real b x))
  end.

(** The first value with that name in a list. *)
Definition first_named {A} (name_of : A -> string) (l : list A) (name : string) : option A :=
  find (fun a => (name_of a =? name)%string) l.

(** The command line options that win over the input file. *)
Definition cli_wins (c : cli K) : block :=
  (match cl_energy_spectrum c with Some v => [("energySpectrum"%string, v)] | None => [] end)
  ++ (match cl_cross_sections_out c with Some v => [("crossSectionsOut"%string, v)] | None => [] end).

(** What the pieces of a file (in the order of the file) and the command line say.  In the file the first value of a setting, the first
    material and the first cross-section of a name are kept; the geometries come in reverse order. *)
Definition parameters_read (c : cli K) (pieces : list string) (p : params K) : Prop :=
  (exists s, cli_read c s /\ simulation_read real s (cli_wins c ++ List.concat (blocks_of yaml "Simulation:" pieces)) (pa_sim p)) /\
  exists gs ms xs,
    Forall2 (geometry_read real) (blocks_of yaml "Geometry:" pieces) gs /\
    Forall2 (material_read real) (blocks_of yaml "Material:" pieces) ms /\
    Forall2 (xs_read real) (blocks_of yaml "CrossSection:" pieces) xs /\
    let default := match gs with [] => true | _ => false end in
    pa_geom p = (if default then [source_geometry (pa_sim p)] else rev gs) /\
    (forall name, map_get (pa_mats p) name = first_named mp_name ((if default then [source_material] else []) ++ ms) name) /\
    (forall name, map_get (pa_xs p) name = first_named xp_name ((if default then [flat_cross_section] else []) ++ xs) name).

End Files.
