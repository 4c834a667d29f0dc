(** Model of /repo/fastiron/src/parameters.rs and /repo/fastiron/src/utils/input.rs: reading, completing and checking
    the parameters; and of the initialisation that uses them (init.rs, montecarlo.rs, mc_processor_info.rs, main.rs). *)
From Coq Require Import NArith QArith List Bool String Ascii.
From Verif Require Import Float RngModel ParticleModel NuclearModel MeshTypes Balance TrackModel CycleModel GridModel AssignModel MeshModel.
Import ListNotations.
Local Open Scope N_scope.
Local Open Scope float_scope.

(** ** Text *)

(** core::num, [FromStr for u64] and [usize] (64 bits): an optional plus sign, at least one decimal digit, no overflow. *)
Definition digit (c : ascii) : option N :=
  let n := N_of_ascii c in if (48 <=? n) && (n <=? 57) then Some (n - 48) else None.
Fixpoint parse_digits (s : string) (acc : N) : option N :=
  match s with
  | EmptyString => Some acc
  | String c s =>
      match digit c with
      | None => None
      | Some d => let acc := 10 * acc + d in if acc <? two64 then parse_digits s acc else None
      end
  end.
Definition parse_u64 (s : string) : option N :=
  match s with
  | EmptyString => None
  | String c s' =>
      if Ascii.eqb c "+" then (match s' with EmptyString => None | _ => parse_digits s' 0 end) else parse_digits s 0
  end.

(** The line feed. *)
Definition lf : ascii := Ascii.ascii_of_N 10.

(** input.rs line 158, [content.rsplit("\n\n")]: the text is searched from its end.  [l] is the reversed text, [cur] the
    end of the current piece. *)
Fixpoint rsplit_from (l cur : list ascii) : list (list ascii) :=
  match l with
  | [] => [cur]
  | c :: l =>
      match l with
      | c' :: l' => if Ascii.eqb c lf && Ascii.eqb c' lf then cur :: rsplit_from l' [] else rsplit_from l (c :: cur)
      | [] => [c :: cur]
      end
  end.
Definition rsplit (content : string) : list string :=
  map string_of_list_ascii (rsplit_from (rev (list_ascii_of_string content)) []).

(** input.rs lines 160-164, [raw_block.find('\n')] and the two slices around the line feed. *)
Fixpoint cut_line (s : string) : option (string * string) :=
  match s with
  | EmptyString => None
  | String c s =>
      if Ascii.eqb c lf then Some (EmptyString, s)
      else match cut_line s with None => None | Some (a, b) => Some (String c a, b) end
  end.

(** ** Maps *)

(** parameters.rs line 18, [Block]: the pairs in the iteration order of the hash map. *)
Definition block : Type := list (string * string).
(** [FxHashMap::insert]; the iteration order is the order of the list. *)
Fixpoint map_insert {A} (m : list (string * A)) (key : string) (v : A) : list (string * A) :=
  match m with
  | [] => [(key, v)]
  | (k, w) :: m => if String.eqb k key then (k, v) :: m else (k, w) :: map_insert m key v
  end.
Definition contains_key {A} (m : list (string * A)) (key : string) : bool :=
  match map_get m key with None => false | Some _ => true end.

(** input.rs lines 15-22, [InputError]. *)
Inductive input_error : Set :=
  BadInputFile | BadSimulationBlock | BadGeometryBlock | BadMaterialBlock | BadCrossSectionBlock | BadBlockType.
(** parameters.rs lines 22-34, [ParameterError]. *)
Inductive parameter_error : Set :=
  NoGeometry | UndefinedGeometry | MissingMaterial (name : string) | MissingCrossSection (name : string).
(** parameters.rs lines 37-46, [BenchType]. *)
Inductive bench_type : Set := Standard | Coral1 | Coral2.

Section Param.
Context {K : FloatOps}.
(** [str::parse::<T>] for the float type: not modelled, any function. *)
Context (parse_t : string -> option (F K)).

(** parameters.rs lines 228-246, [CrossSectionParameters]. *)
Record xs_params : Type := mkXsParams {
  xp_name : string; xp_aa : F K; xp_bb : F K; xp_cc : F K; xp_dd : F K; xp_ee : F K; xp_nu_bar : F K
}.

(** parameters.rs lines 311-366, [SimulationParameters], all the fields. *)
Record simulation_params : Type := mkSimulation {
  si_input_file : string;
  si_energy_spectrum : string;
  si_cross_sections_out : string;
  si_boundary_condition : string;
  si_load_balance : bool;
  si_csv : bool;
  si_debug_threads : bool;
  si_n_particles : N;
  si_chunk_size : N;
  si_n_rayon_threads : N;
  si_bind_threads : bool;
  si_n_units : N;
  si_n_steps : N;
  si_nx : N; si_ny : N; si_nz : N;
  si_seed : N;
  si_dt : F K;
  si_lx : F K; si_ly : F K; si_lz : F K;
  si_e_min : F K; si_e_max : F K;
  si_n_groups : N;
  si_low_weight_cutoff : F K;
  si_coral_benchmark : bench_type
}.

(** parameters.rs lines 461-470, [Parameters]; the maps in their iteration order. *)
Record params : Type := mkParams {
  pa_sim : simulation_params;
  pa_geom : list (geometry_params K);
  pa_mats : list (string * material_params K);
  pa_xs : list (string * xs_params)
}.

(** ** Blocks *)

(** Lines 61-63: derived [Default] of [GeometryParameters]. *)
Definition geometry_default : geometry_params K := mkGeomParams "" ShUndefined f0 f0 f0 f0 f0 f0 f0 f0 f0 f0.

(** Macro [fetch_data!] (lines 105-112, 183-190, 267-274): the field is left when the text is not a value. *)
Definition fetch {A B} (parse : string -> option A) (v : string) (set : A -> B) : option B :=
  match parse v with None => None | Some a => Some (set a) end.

(** Lines 113-134: one entry of a geometry block; [None] is the error [BadGeometryBlock]. *)
Definition geometry_entry (g : geometry_params K) (e : string * string) : option (geometry_params K) :=
  let '(key, val) := e in
  let '(mkGeomParams mat sh r xc yc zc x0 y0 z0 x1 y1 z1) := g in
  if (key =? "material")%string then Some (mkGeomParams val sh r xc yc zc x0 y0 z0 x1 y1 z1)
  else if (key =? "shape")%string then
    if (val =? "brick")%string then Some (mkGeomParams mat Brick r xc yc zc x0 y0 z0 x1 y1 z1)
    else if (val =? "sphere")%string then Some (mkGeomParams mat Sphere r xc yc zc x0 y0 z0 x1 y1 z1)
    else None
  else if (key =? "radius")%string then fetch parse_t val (fun v => mkGeomParams mat sh v xc yc zc x0 y0 z0 x1 y1 z1)
  else if (key =? "xCenter")%string then fetch parse_t val (fun v => mkGeomParams mat sh r v yc zc x0 y0 z0 x1 y1 z1)
  else if (key =? "yCenter")%string then fetch parse_t val (fun v => mkGeomParams mat sh r xc v zc x0 y0 z0 x1 y1 z1)
  else if (key =? "zCenter")%string then fetch parse_t val (fun v => mkGeomParams mat sh r xc yc v x0 y0 z0 x1 y1 z1)
  else if (key =? "xMin")%string then fetch parse_t val (fun v => mkGeomParams mat sh r xc yc zc v y0 z0 x1 y1 z1)
  else if (key =? "yMin")%string then fetch parse_t val (fun v => mkGeomParams mat sh r xc yc zc x0 v z0 x1 y1 z1)
  else if (key =? "zMin")%string then fetch parse_t val (fun v => mkGeomParams mat sh r xc yc zc x0 y0 v x1 y1 z1)
  else if (key =? "xMax")%string then fetch parse_t val (fun v => mkGeomParams mat sh r xc yc zc x0 y0 z0 v y1 z1)
  else if (key =? "yMax")%string then fetch parse_t val (fun v => mkGeomParams mat sh r xc yc zc x0 y0 z0 x1 v z1)
  else if (key =? "zMax")%string then fetch parse_t val (fun v => mkGeomParams mat sh r xc yc zc x0 y0 z0 x1 y1 v)
  else None.

(** The [for] loops of the three [from_block]: they stop at the first error. *)
Fixpoint entries {A} (step : A -> string * string -> option A) (a : A) (b : block) : option A :=
  match b with
  | [] => Some a
  | e :: b => match step a e with None => None | Some a => entries step a b end
  end.

(** Lines 102-137, [GeometryParameters::from_block]. *)
Definition geometry_from_block (b : block) : option (geometry_params K) := entries geometry_entry geometry_default b.

(** Lines 212-228, [Default] of [MaterialParameters]. *)
Definition material_default : material_params K :=
  mkMatParams "" (flit (1000 # 1)) f1 10 9 f0 "" "" "" f1 f1 f1.

(** Lines 191-208: one entry of a material block.  Parsing a string (lines 199-201) always succeeds. *)
Definition material_entry (m : material_params K) (e : string * string) : option (material_params K) :=
  let '(key, val) := e in
  let '(mkMatParams name mass total ni nr rate sc ab fi rs ra rf) := m in
  if (key =? "name")%string then Some (mkMatParams val mass total ni nr rate sc ab fi rs ra rf)
  else if (key =? "mass")%string then fetch parse_t val (fun v => mkMatParams name v total ni nr rate sc ab fi rs ra rf)
  else if (key =? "totalCrossSection")%string then fetch parse_t val (fun v => mkMatParams name mass v ni nr rate sc ab fi rs ra rf)
  else if (key =? "nIsotopes")%string then fetch parse_u64 val (fun v => mkMatParams name mass total v nr rate sc ab fi rs ra rf)
  else if (key =? "nReactions")%string then fetch parse_u64 val (fun v => mkMatParams name mass total ni v rate sc ab fi rs ra rf)
  else if (key =? "sourceRate")%string then fetch parse_t val (fun v => mkMatParams name mass total ni nr v sc ab fi rs ra rf)
  else if (key =? "scatteringCrossSection")%string then Some (mkMatParams name mass total ni nr rate val ab fi rs ra rf)
  else if (key =? "absorptionCrossSection")%string then Some (mkMatParams name mass total ni nr rate sc val fi rs ra rf)
  else if (key =? "fissionCrossSection")%string then Some (mkMatParams name mass total ni nr rate sc ab val rs ra rf)
  else if (key =? "scatteringCrossSectionRatio")%string then fetch parse_t val (fun v => mkMatParams name mass total ni nr rate sc ab fi v ra rf)
  else if (key =? "absorptionCrossSectionRatio")%string then fetch parse_t val (fun v => mkMatParams name mass total ni nr rate sc ab fi rs v rf)
  else if (key =? "fissionCrossSectionRatio")%string then fetch parse_t val (fun v => mkMatParams name mass total ni nr rate sc ab fi rs ra v)
  else None.

(** Lines 180-209, [MaterialParameters::from_block]. *)
Definition material_from_block (b : block) : option (material_params K) := entries material_entry material_default b.

(** Lines 291-303, [Default] of [CrossSectionParameters]; 2.4 is read as an f32 there: the value is 2.4000000953674316. *)
Definition xs_default : xs_params := mkXsParams "" f0 f0 f0 f0 f1 (flit (5033165 # 2097152)).

(** Lines 276-288: one entry of a cross-section block. *)
Definition xs_entry (x : xs_params) (e : string * string) : option xs_params :=
  let '(key, val) := e in
  let '(mkXsParams name a b c d ee nu) := x in
  if (key =? "name")%string then Some (mkXsParams val a b c d ee nu)
  else if (key =? "A")%string then fetch parse_t val (fun v => mkXsParams name v b c d ee nu)
  else if (key =? "B")%string then fetch parse_t val (fun v => mkXsParams name a v c d ee nu)
  else if (key =? "C")%string then fetch parse_t val (fun v => mkXsParams name a b v d ee nu)
  else if (key =? "D")%string then fetch parse_t val (fun v => mkXsParams name a b c v ee nu)
  else if (key =? "E")%string then fetch parse_t val (fun v => mkXsParams name a b c d v nu)
  else if (key =? "nuBar")%string then fetch parse_t val (fun v => mkXsParams name a b c d ee v)
  else None.

(** Lines 264-289, [CrossSectionParameters::from_block]. *)
Definition xs_from_block (b : block) : option xs_params := entries xs_entry xs_default b.

(** ** Simulation block *)

(** [let chars: Vec<char> = val.chars().collect()] and [chars[0]]: panics when the text is empty.  Only the first byte
    is looked at, which is the first character when it is one of the digits compared with. *)
Definition first_char (v : string) : result ascii := match v with EmptyString => Panic | String c _ => Ok c end.

(** Lines 630-676: one entry; [None] is the error [BadSimulationBlock]. *)
Definition simulation_entry (s : simulation_params) (e : string * string) : result (option simulation_params) :=
  let '(key, val) := e in
  let '(mkSimulation inp spe xso bc lb csv dbg np cs nt bt nu ns nx ny nz seed dt lx ly lz e0 e1 ng lw co) := s in
  let boolean (set : bool -> simulation_params) :=
    do c <- first_char val ;
    Ok (if Ascii.eqb c "0" then Some (set false) else if Ascii.eqb c "1" then Some (set true) else None) in
  if (key =? "inputFile")%string then Ok (Some (mkSimulation val spe xso bc lb csv dbg np cs nt bt nu ns nx ny nz seed dt lx ly lz e0 e1 ng lw co))
  else if (key =? "energySpectrum")%string then Ok (Some (mkSimulation inp val xso bc lb csv dbg np cs nt bt nu ns nx ny nz seed dt lx ly lz e0 e1 ng lw co))
  else if (key =? "crossSectionsOut")%string then Ok (Some (mkSimulation inp spe val bc lb csv dbg np cs nt bt nu ns nx ny nz seed dt lx ly lz e0 e1 ng lw co))
  else if (key =? "boundaryCondition")%string then Ok (Some (mkSimulation inp spe xso val lb csv dbg np cs nt bt nu ns nx ny nz seed dt lx ly lz e0 e1 ng lw co))
  else if (key =? "loadBalance")%string then boolean (fun v => mkSimulation inp spe xso bc v csv dbg np cs nt bt nu ns nx ny nz seed dt lx ly lz e0 e1 ng lw co)
  else if (key =? "debugThreads")%string then boolean (fun v => mkSimulation inp spe xso bc lb csv v np cs nt bt nu ns nx ny nz seed dt lx ly lz e0 e1 ng lw co)
  else if (key =? "coralBenchmark")%string then
    do c <- first_char val ;
    let set v := Some (mkSimulation inp spe xso bc lb csv dbg np cs nt bt nu ns nx ny nz seed dt lx ly lz e0 e1 ng lw v) in
    Ok (if Ascii.eqb c "0" then set Standard else if Ascii.eqb c "1" then set Coral1 else if Ascii.eqb c "2" then set Coral2 else None)
  else if (key =? "nParticles")%string then Ok (fetch parse_u64 val (fun v => mkSimulation inp spe xso bc lb csv dbg v cs nt bt nu ns nx ny nz seed dt lx ly lz e0 e1 ng lw co))
  else if (key =? "nSteps")%string then Ok (fetch parse_u64 val (fun v => mkSimulation inp spe xso bc lb csv dbg np cs nt bt nu v nx ny nz seed dt lx ly lz e0 e1 ng lw co))
  else if (key =? "nx")%string then Ok (fetch parse_u64 val (fun v => mkSimulation inp spe xso bc lb csv dbg np cs nt bt nu ns v ny nz seed dt lx ly lz e0 e1 ng lw co))
  else if (key =? "ny")%string then Ok (fetch parse_u64 val (fun v => mkSimulation inp spe xso bc lb csv dbg np cs nt bt nu ns nx v nz seed dt lx ly lz e0 e1 ng lw co))
  else if (key =? "nz")%string then Ok (fetch parse_u64 val (fun v => mkSimulation inp spe xso bc lb csv dbg np cs nt bt nu ns nx ny v seed dt lx ly lz e0 e1 ng lw co))
  else if (key =? "seed")%string then Ok (fetch parse_u64 val (fun v => mkSimulation inp spe xso bc lb csv dbg np cs nt bt nu ns nx ny nz v dt lx ly lz e0 e1 ng lw co))
  else if (key =? "dt")%string then Ok (fetch parse_t val (fun v => mkSimulation inp spe xso bc lb csv dbg np cs nt bt nu ns nx ny nz seed v lx ly lz e0 e1 ng lw co))
  else if (key =? "lx")%string then Ok (fetch parse_t val (fun v => mkSimulation inp spe xso bc lb csv dbg np cs nt bt nu ns nx ny nz seed dt v ly lz e0 e1 ng lw co))
  else if (key =? "ly")%string then Ok (fetch parse_t val (fun v => mkSimulation inp spe xso bc lb csv dbg np cs nt bt nu ns nx ny nz seed dt lx v lz e0 e1 ng lw co))
  else if (key =? "lz")%string then Ok (fetch parse_t val (fun v => mkSimulation inp spe xso bc lb csv dbg np cs nt bt nu ns nx ny nz seed dt lx ly v e0 e1 ng lw co))
  else if (key =? "eMin")%string then Ok (fetch parse_t val (fun v => mkSimulation inp spe xso bc lb csv dbg np cs nt bt nu ns nx ny nz seed dt lx ly lz v e1 ng lw co))
  else if (key =? "eMax")%string then Ok (fetch parse_t val (fun v => mkSimulation inp spe xso bc lb csv dbg np cs nt bt nu ns nx ny nz seed dt lx ly lz e0 v ng lw co))
  else if (key =? "nGroups")%string then Ok (fetch parse_u64 val (fun v => mkSimulation inp spe xso bc lb csv dbg np cs nt bt nu ns nx ny nz seed dt lx ly lz e0 e1 v lw co))
  else if (key =? "lowWeightCutoff")%string then Ok (fetch parse_t val (fun v => mkSimulation inp spe xso bc lb csv dbg np cs nt bt nu ns nx ny nz seed dt lx ly lz e0 e1 ng v co))
  else if existsb (String.eqb key)
    ["cycleTimers"; "batchSize"; "nBatches"; "balanceTallyReplications"; "bTally"; "fluxTallyReplications"; "fTally";
     "cellTallyReplications"; "cTally"; "xDom"; "yDom"; "zDom"; "fMax"; "mpiThreadMultiple"]%string
  then Ok (Some s)
  else Ok None.

(** Lines 610-679, [update_simulation_parameters]: the parameters, updated up to the first error, and whether there was none. *)
Fixpoint update_simulation (s : simulation_params) (b : block) : result (simulation_params * bool) :=
  match b with
  | [] => Ok (s, true)
  | e :: b =>
      do o <- simulation_entry s e ;
      match o with None => Ok (s, false) | Some s => update_simulation s b end
  end.

(** ** Input file *)

(** [serde_yaml::from_str] into a [Block]: not modelled, any function; the pairs come in the iteration order of the map. *)
Context (yaml : string -> option block).

(** Lines 681-693: additions to the parameters. *)
Definition set_sim (p : params) (s : simulation_params) : params := mkParams s (pa_geom p) (pa_mats p) (pa_xs p).
Definition add_geometry (p : params) (g : geometry_params K) : params := mkParams (pa_sim p) (pa_geom p ++ [g]) (pa_mats p) (pa_xs p).
Definition add_material (p : params) (m : material_params K) : params :=
  mkParams (pa_sim p) (pa_geom p) (map_insert (pa_mats p) (mp_name m) m) (pa_xs p).
Definition add_cross_section (p : params) (x : xs_params) : params :=
  mkParams (pa_sim p) (pa_geom p) (pa_mats p) (map_insert (pa_xs p) (xp_name x) x).

(** input.rs lines 159-190: one block; pieces of a single line are skipped. *)
Definition parse_block (p : params) (raw : string) : result (params * option input_error) :=
  match cut_line raw with
  | None => Ok (p, None)
  | Some (head, text) =>
      do b <- unwrap (yaml text) ;
      if (head =? "Simulation:")%string then
        do (s, ok) <- update_simulation (pa_sim p) b ;
        Ok (set_sim p s, if (ok : bool) then None else Some BadSimulationBlock)
      else if (head =? "Geometry:")%string then
        Ok (match geometry_from_block b with Some g => (add_geometry p g, None) | None => (p, Some BadGeometryBlock) end)
      else if (head =? "Material:")%string then
        Ok (match material_from_block b with Some m => (add_material p m, None) | None => (p, Some BadMaterialBlock) end)
      else if (head =? "CrossSection:")%string then
        Ok (match xs_from_block b with Some x => (add_cross_section p x, None) | None => (p, Some BadCrossSectionBlock) end)
      else Ok (p, Some BadBlockType)
  end.

(** input.rs lines 157-198: all the blocks, last one first, with the list of the errors. *)
Fixpoint parse_blocks (p : params) (raws : list string) : result (params * list input_error) :=
  match raws with
  | [] => Ok (p, [])
  | raw :: raws =>
      do (p, e) <- parse_block p raw ;
      do (p, es) <- parse_blocks p raws ;
      Ok (p, match e with None => es | Some e => e :: es end)
  end.
Definition parse_content (p : params) (content : string) : result (params * list input_error) := parse_blocks p (rsplit content).

(** ** Command line and defaults *)

(** input.rs lines 25-133, [Cli], without [single_precision] (which selects the float type).  The f32 options are already
    converted to the float type. *)
Record cli : Type := mkCli {
  cl_input_file : option string;
  cl_energy_spectrum : option string;
  cl_cross_sections_out : option string;
  cl_dt : option (F K);
  cl_load_balance : bool;
  cl_csv : bool;
  cl_debug_threads : bool;
  cl_lx : option (F K); cl_ly : option (F K); cl_lz : option (F K);
  cl_n_particles : option N;
  cl_chunk_size : option N;
  cl_n_rayon_threads : option N;
  cl_bind_threads : bool;
  cl_n_units : option N;
  cl_n_steps : option N;
  cl_nx : option N; cl_ny : option N; cl_nz : option N;
  cl_seed : option N
}.

(** parameters.rs lines 428-457, [Default] of [SimulationParameters]. *)
Definition simulation_default : simulation_params :=
  mkSimulation "" "" "" "reflect" false false false 1000000 0 1 false 1 10 10 10 10 1029384756
    (flit (1 # 100000000)) (flit (100 # 1)) (flit (100 # 1)) (flit (100 # 1)) (flit (1 # 1000000000)) (flit (20 # 1)) 230
    (flit (1 # 1000)) Standard.

Definition or_default {A} (o : option A) (d : A) : A := match o with None => d | Some a => a end.

(** parameters.rs lines 382-424, [from_cli]. *)
Definition from_cli (c : cli) : simulation_params :=
  let d := simulation_default in
  mkSimulation (or_default (cl_input_file c) (si_input_file d)) (or_default (cl_energy_spectrum c) (si_energy_spectrum d))
    (or_default (cl_cross_sections_out c) (si_cross_sections_out d)) (si_boundary_condition d)
    (cl_load_balance c) (cl_csv c) (cl_debug_threads c)
    (or_default (cl_n_particles c) (si_n_particles d)) (or_default (cl_chunk_size c) (si_chunk_size d))
    (or_default (cl_n_rayon_threads c) (si_n_rayon_threads d)) (cl_bind_threads c)
    (or_default (cl_n_units c) (si_n_units d)) (or_default (cl_n_steps c) (si_n_steps d))
    (or_default (cl_nx c) (si_nx d)) (or_default (cl_ny c) (si_ny d)) (or_default (cl_nz c) (si_nz d))
    (or_default (cl_seed c) (si_seed d)) (or_default (cl_dt c) (si_dt d))
    (or_default (cl_lx c) (si_lx d)) (or_default (cl_ly c) (si_ly d)) (or_default (cl_lz c) (si_lz d))
    (si_e_min d) (si_e_max d) (si_n_groups d) (si_low_weight_cutoff d) (si_coral_benchmark d).

(** parameters.rs lines 509-547, [supply_defaults]. *)
Definition flat_cross_section : xs_params := mkXsParams "flat" f0 f0 f0 f0 f1 (xp_nu_bar xs_default).
Definition source_material : material_params K :=
  mkMatParams "source_material" (flit (1000 # 1)) f1 10 9 (flit (10000000000 # 1)) "flat" "flat" "flat" f1 f1 (flit (1 # 10)).
Definition source_geometry (s : simulation_params) : geometry_params K :=
  mkGeomParams "source_material" Brick f0 f0 f0 f0 f0 f0 f0 (si_lx s) (si_ly s) (si_lz s).
Definition supply_defaults (p : params) : params :=
  match pa_geom p with
  | _ :: _ => p
  | [] => add_geometry (add_material (add_cross_section p flat_cross_section) source_material) (source_geometry (pa_sim p))
  end.

(** parameters.rs lines 555-603, [check_parameters_integrity]: the list of the errors, empty for [Ok]. *)
Definition geometry_errors (p : params) (g : geometry_params K) : list parameter_error :=
  (match gp_shape g with ShUndefined => [UndefinedGeometry] | _ => [] end)
  ++ (if contains_key (pa_mats p) (gp_material_name g) then [] else [MissingMaterial (gp_material_name g)]).
Definition material_errors (p : params) (m : material_params K) : list parameter_error :=
  flat_map (fun name => if contains_key (pa_xs p) name then [] else [MissingCrossSection (mp_name m ++ ":" ++ name)%string])
    [mp_absorption_cross_section m; mp_scattering_cross_section m; mp_fission_cross_section m].
Definition check_integrity (p : params) : list parameter_error :=
  (match pa_geom p with [] => [NoGeometry] | _ => [] end)
  ++ flat_map (geometry_errors p) (pa_geom p) ++ flat_map (fun e => material_errors p (snd e)) (pa_mats p).

(** parameters.rs lines 479-505, [get_parameters]; [read] gives the content of a file, [None] when it cannot be opened.
    A file that is not valid UTF-8 (panic at input.rs line 155) is not modelled. *)
Definition get_parameters (read : string -> option string) (c : cli) : result (params + list input_error) :=
  let p := mkParams (from_cli c) [] [] [] in
  do pe <-
    match cl_input_file c with
    | None => Ok (p, [])
    | Some name => match read name with None => Ok (p, [BadInputFile]) | Some content => parse_content p content end
    end ;
  match pe with
  | (p, []) =>
      let '(mkSimulation inp spe xso bc lb csv dbg np cs nt bt nu ns nx ny nz seed dt lx ly lz e0 e1 ng lw co) := pa_sim p in
      let s := mkSimulation inp (or_default (cl_energy_spectrum c) spe) (or_default (cl_cross_sections_out c) xso)
                 bc lb csv dbg np cs nt bt nu ns nx ny nz seed dt lx ly lz e0 e1 ng lw co in
      let p := supply_defaults (set_sim p s) in
      match check_integrity p with
      | [] => Ok (inl p)
      | _ => Ok (inr [BadInputFile])
      end
  | (_, es) => Ok (inr es)
  end.

(** ** Initialisation *)

(** mc_processor_info.rs lines 51-91, [MCProcessorInfo::new]. *)
Definition exec_info_new (s : simulation_params) : result exec_info :=
  if negb (si_n_units s =? 1) then
    do _ <- rassert (negb (si_n_units s =? 0)) ;
    if negb (si_n_rayon_threads s =? 1) then Ok (mkExecInfo Hybrid (si_n_rayon_threads s) (si_chunk_size s) (si_n_units s))
    else Ok (mkExecInfo Distributed 1 (si_chunk_size s) (si_n_units s))
  else if negb (si_n_rayon_threads s =? 1) then Ok (mkExecInfo Rayon (si_n_rayon_threads s) (si_chunk_size s) 1)
  else Ok (mkExecInfo Sequential 1 (si_chunk_size s) 1).

(** The parameters used during the cycles. *)
Definition cycle_params (s : simulation_params) : sim_params K :=
  mkSimParams (si_n_particles s) (si_n_groups s) (si_n_steps s) (si_e_min s) (si_e_max s) (si_low_weight_cutoff s)
    (si_load_balance s) (negb (si_energy_spectrum s =? "")%string) (match si_coral_benchmark s with Standard => true | _ => false end).

(** init.rs lines 30-47, [init_mcdata], with [init_nuclear_data] (lines 125-177); writing the cross-sections to a file
    (lines 36-43) is in XsTableModel.v. *)
Definition init_mcdata (p : params) : result (mcdata K) :=
  let s := pa_sim p in
  do ei <- exec_info_new s ;
  let cross_section := map (fun e => (xp_name (snd e), mkPoly (xp_aa (snd e)) (xp_bb (snd e)) (xp_cc (snd e)) (xp_dd (snd e)) (xp_ee (snd e)))) (pa_xs p) in
  let nu_bars := map (fun e => (fst e, xp_nu_bar (snd e))) (pa_xs p) in
  do (nd, mats) <- init_materials (map snd (pa_mats p)) (nuclear_new (si_n_groups s) (si_e_min s) (si_e_max s)) cross_section nu_bars ;
  Ok (mkMcData (cycle_params s) ei (mkTrackData (si_dt s) nd mats) (pa_mats p)).

(** init.rs lines 52-86, [init_particle_containers]: only what can panic.  The capacities are usize products; reserving the
    memory is not modelled. *)
Definition init_containers (p : params) (ei : exec_info) : result unit :=
  do per <- (if ei_n_units ei =? 0 then Panic else Ok (si_n_particles (pa_sim p) / ei_n_units ei)) ;
  do nus <- rmap (fun e => do nu <- map_index (pa_xs p) (mp_fission_cross_section (snd e)) ; unwrap (fto_usize (fceil (xp_nu_bar nu)))) (pa_mats p) ;
  do most <- unwrap (match nus with [] => None | n :: nus => Some (fold_left N.max nus n) end) ;
  do _ <- rassert ((per + per / 10 <? two64) && (per * N.max most 2 <? two64)) ;
  match ei_policy ei with Sequential | Rayon => Ok tt | Distributed | Hybrid => Panic end.

(** main.rs lines 78-103: the number of threads of a parallel run is that of the thread pool, [threads]. *)
Definition set_threads (threads : N) (md : mcdata K) : mcdata K :=
  match ei_policy (mc_exec md) with
  | Rayon => mkMcData (mc_params md) (mkExecInfo Rayon threads (ei_chunk_size (mc_exec md)) (ei_n_units (mc_exec md))) (mc_track md) (mc_material_params md)
  | _ => md
  end.

(** main.rs lines 45-113: everything before the core loop.  [None] is the early return of lines 52-56. *)
Definition set_up (read : string -> option string) (order : list (N * N) -> list (N * N)) (threads : N) (c : cli)
  : result (option (mcdata K * domain K)) :=
  do ps <- get_parameters read c ;
  match ps with
  | inr _ => Panic
  | inl p =>
      let s := pa_sim p in
      do _ <- rassert ((si_nx s * si_ny s <? two64) && (si_nx s * si_ny s * si_nz s <? two64) && negb (si_nx s * si_ny s * si_nz s =? 0)) ;
      if si_n_particles s / (si_nx s * si_ny s * si_nz s) <? 10 then Ok None
      else
        do md <- init_mcdata p ;
        do _ <- init_containers p (mc_exec md) ;
        do dom <- init_mcunits order (mkDims (si_nx s) (si_ny s) (si_nz s)) (si_lx s) (si_ly s) (si_lz s) (si_seed s)
                    (si_boundary_condition s) (pa_geom p) (td_mats (mc_track md)) ;
        Ok (Some (set_threads threads md, dom))
  end.

(** main.rs lines 45-149, [run]: the whole program up to the final reports. *)
Inductive program (fuel cfuel : nat) (read : string -> option string) (order : list (N * N) -> list (N * N)) (threads : N) (c : cli)
  : result (option (sim K)) -> Prop :=
| pg_run : forall md dom r,
    set_up read order threads c = Ok (Some (md, dom)) -> core_loop fuel cfuel md (initial_sim md dom) r ->
    program fuel cfuel read order threads c (do s <- r ; Ok (Some s))
| pg_few : set_up read order threads c = Ok None -> program fuel cfuel read order threads c (Ok None)
| pg_panic : set_up read order threads c = Panic -> program fuel cfuel read order threads c Panic
| pg_fuel : set_up read order threads c = NoFuel -> program fuel cfuel read order threads c NoFuel.

End Param.
Arguments xs_params : clear implicits.
Arguments simulation_params : clear implicits.
Arguments params : clear implicits.
Arguments cli : clear implicits.
