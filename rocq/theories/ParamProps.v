(** Claims C41, C42, C43 and C45: reading, completing and checking the parameters. *)
From Coq Require Import NArith ZArith QArith List Bool Reals String Ascii Permutation.
From Verif Require Import Float RealOps RngModel ParticleModel NuclearModel MeshTypes TrackModel CycleModel GridModel AssignModel MeshModel GridSpec MeshSpec GeomSpec
  MaterialFacts ParamModel ParamSpec SetUpSpec BlockLemmas ParamLemmas IntegrityLemmas SetUpReal ParamDemo.
Import ListNotations.
Local Open Scope N_scope.

(** ** C41 *)
Theorem c41_check_ignores_condition : forall (K : FloatOps) (p : params K) bc,
  check_integrity (with_boundary p bc) = check_integrity p /\ si_boundary_condition (pa_sim (with_boundary p bc)) = bc.
Proof. exact @boundary_ignored. Qed.
Print Assumptions c41_check_ignores_condition.

(** Accepted parameters with an unknown condition, and only those, make the set-up panic. *)
Theorem c41_accepted_unknown_panics : forall (real : string -> option (F Rops)) yaml, (forall text b, yaml text = Some b -> distinct_keys b) ->
  forall read order threads c (p : params Rops), any_order order -> get_parameters real yaml read c = Ok (inl p) ->
  sane_sizes (pa_sim p) -> nu_bars_small p -> geometry_everywhere (pa_sim p) (pa_geom p) ->
  (set_up real yaml read order threads c = Panic <-> requested (si_boundary_condition (pa_sim p)) 0 = None).
Proof. exact set_up_unknown. Qed.
Print Assumptions c41_accepted_unknown_panics.

Example c41_accepted_case : exists p, get_parameters (K := Rops) (demo_real (1%R : F Rops)) demo_yaml odd_read odd_cli = Ok (inl p) /\
  sane_sizes (pa_sim p) /\ nu_bars_small p /\ geometry_everywhere (pa_sim p) (pa_geom p) /\
  set_up (K := Rops) (demo_real (1%R : F Rops)) demo_yaml odd_read (fun l => l) 1 odd_cli = Panic.
Proof.
  destruct odd_params as (p & E & Eb & H1 & H2 & H3). exists p. split; [exact E|]. split; [exact H1|]. split; [exact H2|]. split; [exact H3|].
  apply (set_up_unknown _ _ demo_distinct _ _ _ _ p); try assumption; [intros l; apply Permutation_refl|]. rewrite Eb. reflexivity.
Qed.

(** ** C42 *)
Theorem c42_accepted_iff_integrity : forall (K : FloatOps) (p : params K), check_integrity p = [] <-> integrity p.
Proof. exact @check_integrity_nil. Qed.
Print Assumptions c42_accepted_iff_integrity.

Theorem c42_errors_say : forall (K : FloatOps) (p : params K) e, In e (check_integrity p) <->
  match e with
  | NoGeometry => pa_geom p = []
  | UndefinedGeometry => exists g, In g (pa_geom p) /\ gp_shape g = ShUndefined
  | MissingMaterial name => exists g, In g (pa_geom p) /\ name = gp_material_name g /\ ~ known (pa_mats p) name
  | MissingCrossSection text => exists key m name, In (key, m) (pa_mats p) /\
      In name [mp_absorption_cross_section m; mp_scattering_cross_section m; mp_fission_cross_section m] /\
      ~ known (pa_xs p) name /\ text = (mp_name m ++ ":" ++ name)%string
  end.
Proof. exact @errors_say. Qed.
Print Assumptions c42_errors_say.

Theorem c42_order_free : forall (K : FloatOps) (p q : params K), reordered p q -> Permutation (check_integrity p) (check_integrity q).
Proof. exact @errors_perm. Qed.
Print Assumptions c42_order_free.

(** The lookups made with accepted parameters succeed. *)
Theorem c42_lookups_succeed : forall (K : FloatOps) (p : params K), integrity p -> well_named p -> si_n_units (pa_sim p) <> 0 ->
  exists md, init_mcdata p = Ok md /\ map mat_name (td_mats (mc_track md)) = map fst (pa_mats p) /\
    Forall (fun g => find_material_idx (td_mats (mc_track md)) (gp_material_name g) <> None) (pa_geom p) /\
    (forall r, exists name, find_material (pa_geom p) r = Ok name /\ (name = ""%string \/ find_material_idx (td_mats (mc_track md)) name <> None)).
Proof. exact @accepted_initialises. Qed.
Print Assumptions c42_lookups_succeed.

(** A run with accepted parameters gets to its first cycle. *)
Theorem c42_set_up_succeeds : forall (real : string -> option (F Rops)) yaml, (forall text b, yaml text = Some b -> distinct_keys b) ->
  forall read order threads c (p : params Rops), any_order order -> get_parameters real yaml read c = Ok (inl p) ->
  sane_sizes (pa_sim p) -> nu_bars_small p -> geometry_everywhere (pa_sim p) (pa_geom p) -> requested (si_boundary_condition (pa_sim p)) 0 <> None ->
  exists md dom pt, init_mcdata p = Ok md /\ map mat_name (td_mats (mc_track md)) = map fst (pa_mats p) /\
    set_up real yaml read order threads c = Ok (Some (set_threads threads md, dom)) /\
    built_domain (grid_new (K := Rops) (dims_of (pa_sim p)) (si_lx (pa_sim p)) (si_ly (pa_sim p)) (si_lz (pa_sim p))) (si_boundary_condition (pa_sim p)) pt (pa_geom p)
      (td_mats (mc_track md)) dom.
Proof. exact set_up_succeeds. Qed.
Print Assumptions c42_set_up_succeeds.

Example c42_case : forall (K : FloatOps) (a : F K),
  (exists p, get_parameters (demo_real a) demo_yaml demo_read (demo_cli (Some "demo"%string)) = Ok (inl p) /\ integrity p /\ well_named p /\ si_n_units (pa_sim p) <> 0) /\
  check_integrity (demo_bad (K := K)) = [UndefinedGeometry; MissingMaterial ""; MissingCrossSection "m:y"]%string.
Proof.
  intros K a. split; [|exact demo_bad_errors]. destruct (demo_params a) as (p & E & _). exists p. split; [exact E|].
  destruct (accepted_means _ _ demo_distinct _ _ _ E) as (_ & _ & _ & _ & W & I). split; [exact I|]. split; [exact W|].
  revert E. vm_compute. intros E. injection E as <-. discriminate.
Qed.

Example c42_order_case : forall K : FloatOps, exists p q : params K, reordered p q /\ check_integrity p <> check_integrity q.
Proof.
  intros K. pose (m n := mkMatParams (K := K) n f1 f1 1 1 f1 n n n f1 f1 f1).
  exists (mkParams simulation_default [] [("a", m "a"); ("b", m "b")]%string []), (mkParams simulation_default [] [("b", m "b"); ("a", m "a")]%string []).
  split; [repeat split; [apply perm_swap|constructor]|]. vm_compute. discriminate.
Qed.

Example c42_set_up_case : exists p, get_parameters (K := Rops) (demo_real (1%R : F Rops)) demo_yaml odd_read plain_cli = Ok (inl p) /\
  sane_sizes (pa_sim p) /\ nu_bars_small p /\ geometry_everywhere (pa_sim p) (pa_geom p) /\ requested (si_boundary_condition (pa_sim p)) 0 <> None.
Proof. destruct plain_params as (p & E & Eb & H1 & H2 & H3). exists p. rewrite Eb. repeat (split; [assumption|]). discriminate. Qed.

(** ** C43 *)
(** Without a geometry, what may be missing are cross-sections of other materials. *)
Theorem c43_defaults_errors : forall (K : FloatOps) (p : params K), pa_geom p = [] -> distinct_keys (pa_mats p) ->
  forall e, In e (check_integrity (supply_defaults p)) ->
  exists key m name, In (key, m) (pa_mats p) /\ key <> "source_material"%string /\ name <> "flat"%string /\
    In name [mp_absorption_cross_section m; mp_scattering_cross_section m; mp_fission_cross_section m] /\ ~ known (pa_xs p) name /\
    e = MissingCrossSection (mp_name m ++ ":" ++ name).
Proof. exact @defaults_errors. Qed.
Print Assumptions c43_defaults_errors.

Theorem c43_defaults_accepted : forall (K : FloatOps) (p : params K), pa_geom p = [] -> distinct_keys (pa_mats p) ->
  (integrity (supply_defaults p) <-> forall name m, In (name, m) (pa_mats p) -> name <> "source_material"%string -> material_sound (supply_defaults p) m).
Proof. exact @defaults_integrity. Qed.
Print Assumptions c43_defaults_accepted.

Theorem c43_material_in_the_box : forall (K : FloatOps) (p : params K) r, pa_geom p = [] ->
  let s := pa_sim p in
  fle f0 (vx r) = true -> fle (vx r) (si_lx s) = true -> fle f0 (vy r) = true -> fle (vy r) (si_ly s) = true -> fle f0 (vz r) = true -> fle (vz r) (si_lz s) = true ->
  find_material (pa_geom (supply_defaults p)) r = Ok "source_material"%string.
Proof. exact @defaults_material. Qed.
Print Assumptions c43_material_in_the_box.

(** A run without an input file gets to its first cycle, every cell being of the default material. *)
Theorem c43_default_run_starts : forall (real : string -> option (F Rops)) yaml, (forall text b, yaml text = Some b -> distinct_keys b) ->
  forall read order threads c, any_order order -> cl_input_file c = None -> sane_sizes (from_cli c) ->
  exists md dom pt, set_up real yaml read order threads c = Ok (Some (md, dom)) /\
    built_domain (grid_new (K := Rops) (dims_of (from_cli c)) (si_lx (from_cli c)) (si_ly (from_cli c)) (si_lz (from_cli c))) "reflect" pt [source_geometry (from_cli c)]
      (td_mats (mc_track md)) dom /\
    Forall (fun cs => exists m, nth_error (td_mats (mc_track md)) (N.to_nat (cs_material cs)) = Some m /\ mat_name m = "source_material"%string) (d_cells dom).
Proof. exact default_set_up. Qed.
Print Assumptions c43_default_run_starts.

Example c43_case : cl_input_file plain_cli = None /\ sane_sizes (from_cli plain_cli) /\
  (forall K : FloatOps, check_integrity (supply_defaults (mkParams (simulation_default (K := K)) [] [("wood", material_default)]%string [])) =
     [MissingCrossSection ":"; MissingCrossSection ":"; MissingCrossSection ":"]%string).
Proof. split; [reflexivity|]. split; [exact plain_sane|]. intros K. vm_compute. reflexivity. Qed.

(** ** C45 *)
(** What accepted parameters are, in terms of the pieces of the file and of the command line. *)
Theorem c45_accepted_meaning : forall (K : FloatOps) (real : string -> option (F K)) yaml, (forall text b, yaml text = Some b -> distinct_keys b) ->
  forall read c p, get_parameters real yaml read c = Ok (inl p) ->
  exists pieces, input_pieces read c = Some pieces /\ Forall (piece_fine real yaml) pieces /\ parameters_read real yaml c pieces p /\ well_named p /\ integrity p.
Proof. exact @accepted_means. Qed.
Print Assumptions c45_accepted_meaning.

Theorem c45_acceptance : forall (K : FloatOps) (real : string -> option (F K)) yaml, (forall text b, yaml text = Some b -> distinct_keys b) ->
  forall read c, (exists p, get_parameters real yaml read c = Ok (inl p)) <->
  exists pieces, input_pieces read c = Some pieces /\ Forall (piece_fine real yaml) pieces /\ exists p, parameters_read real yaml c pieces p /\ well_named p /\ integrity p.
Proof. exact @acceptance. Qed.
Print Assumptions c45_acceptance.

(** That meaning is unique up to the iteration order of the maps. *)
Theorem c45_meaning_unique : forall (K : FloatOps) (real : string -> option (F K)) yaml c pieces p q,
  parameters_read real yaml c pieces p -> parameters_read real yaml c pieces q ->
  pa_sim p = pa_sim q /\ pa_geom p = pa_geom q /\ (forall name, map_get (pa_mats p) name = map_get (pa_mats q) name) /\
  (forall name, map_get (pa_xs p) name = map_get (pa_xs q) name).
Proof. exact @parameters_read_unique. Qed.
Print Assumptions c45_meaning_unique.

(** Blocks separated by blank lines are the pieces of the file. *)
Theorem c45_file_pieces : forall bs, bs <> [] -> Forall no_blank_line bs -> Forall starts_text (tl bs) -> rsplit (file_text bs) = rev bs.
Proof. exact rsplit_file. Qed.
Print Assumptions c45_file_pieces.

(** The order of the pairs of a block does not matter. *)
Theorem c45_key_order : forall (K : FloatOps) (real : string -> option (F K)) yaml yaml' read c, same_blocks yaml yaml' ->
  (forall text b, yaml text = Some b -> switches_given b) -> get_parameters real yaml read c = get_parameters real yaml' read c.
Proof. exact @get_parameters_same. Qed.
Print Assumptions c45_key_order.

(** It decides between a panic and an error for a block with an empty switch and another mistake. *)
Theorem c45_key_order_of_errors_refuted : exists b b' : block, distinct_keys b /\ Permutation b b' /\
  forall (K : FloatOps) (real : string -> option (F K)) s, update_simulation real s b = Panic /\ update_simulation real s b' = Ok (s, false).
Proof. exact panic_or_error. Qed.
Print Assumptions c45_key_order_of_errors_refuted.

Example c45_case : forall (K : FloatOps) (a : F K),
  (demo_pieces <> [] /\ Forall no_blank_line demo_pieces /\ Forall starts_text (tl demo_pieces)) /\
  same_blocks demo_yaml demo_yaml' /\ (forall text b, demo_yaml text = Some b -> switches_given b /\ distinct_keys b) /\
  exists p, get_parameters (demo_real a) demo_yaml' demo_read (demo_cli (Some "demo"%string)) = Ok (inl p) /\
    si_nx (pa_sim p) = 2 /\ si_ny (pa_sim p) = 4 /\ si_nz (pa_sim p) = 9 /\ si_n_steps (pa_sim p) = 7 /\ si_dt (pa_sim p) = a /\
    si_cross_sections_out (pa_sim p) = "xs.csv"%string /\ map gp_material_name (pa_geom p) = ["fuel"; "wall"]%string /\
    option_map mp_n_isotopes (map_get (pa_mats p) "wall"%string) = Some 10.
Proof.
  intros K a. split; [exact demo_pieces_plain|]. split; [exact demo_same|]. split; [split; [eapply demo_switches|eapply demo_distinct]; eassumption|].
  rewrite <- (get_parameters_same _ _ _ _ _ demo_same demo_switches). exact (demo_params a).
Qed.
