(** C49: no index is out of range, and no check made by the code fails, during a run. *)
From Coq Require Import String NArith QArith Reals Lra List Bool Permutation.
From Verif Require Import Float RealOps RngModel Ieee ParticleModel NuclearModel MeshTypes Balance TrackModel CycleModel GridModel AssignModel MeshModel GridSpec MeshSpec GeomSpec
  ScheduleSpec RangeSpec IeeeEnergy PopSpec ParamModel ParamSpec SetUpSpec SetUpReal ParamDemo SafeSpec SafeReal SafeIeee SafeBuilt SafeDemo SafeAll.
Import ListNotations.
Local Open Scope N_scope.

(** In any arithmetic with the usual signs: a run whose stored indices are those of existing entries, whose energies stay below the last boundary
    and whose values are sensible ends without a panic, whatever the policy, the chunks and the interleaving of the threads.  (In the model an index
    out of range, a failed [assert!], a failed conversion and an [unwrap] of nothing are all [Panic].) *)
Theorem c49_run_never_panics : forall (K : FloatOps) (good ok : F K -> Prop) (md : mcdata K) dom fuel cfuel r,
  sign_laws good -> safe_energies md ok -> threads_ok md -> implemented md -> sound_problem md dom -> indexed md dom -> safe_values good md dom ->
  core_loop fuel cfuel md (initial_sim md dom) r -> r <> Panic.
Proof. exact never_panics. Qed.
Print Assumptions c49_run_never_panics.

(** At every moment of a parallel region the entries of the shared arrays that are about to be used exist. *)
Theorem c49_shared_arrays_in_range : forall (K : FloatOps) fuel cfuel (md : mcdata K) d u c slices ex cf t,
  flt (f0 : F K) f0 = false -> energies_bounded md -> threads_ok md -> implemented md -> sound_problem md d -> tracked fuel cfuel md d u c ->
  Permutation (concat slices) (processing c) ->
  csteps (sp_n_groups (mc_params md))
    (mkConf (map (fun l => Running (track_slice fuel cfuel (mc_track md) (u_domain u) l balance_zero [])) slices)
       (map (fun v => [v]) (m_cache (u_mem u))) (m_flux (u_mem u)) ex) cf ->
  In t (cf_tasks cf) ->
  match t with
  | Running (LoadXs c g _) | Running (StoreXs c g _ _) => exists v, nth_error (cf_hist cf) (N.to_nat (slot (sp_n_groups (mc_params md)) c g)) = Some v
  | Running (AddFlux c g _ _) => exists v, nth_error (cf_flux cf) (N.to_nat (slot (sp_n_groups (mc_params md)) c g)) = Some v
  | _ => True
  end.
Proof. exact accesses_in_range. Qed.
Print Assumptions c49_shared_arrays_in_range.

(** The indices stored by the set-up are those of existing entries. *)
Theorem c49_set_up_indexed : forall (K : FloatOps) (p : params K) md threads g bc pt geoms dom,
  init_mcdata p = Ok md -> well_named p -> 0 < si_n_groups (pa_sim p) -> built_domain g bc pt geoms (td_mats (mc_track md)) dom ->
  sound_problem (set_threads threads md) dom /\ indexed (set_threads threads md) dom.
Proof. exact @set_up_indexed. Qed.
Print Assumptions c49_set_up_indexed.

(** In exact arithmetic, from the command line to the last cycle: with physical parameters that pass the checks, and a source somewhere, no panic. *)
Theorem c49_program_never_panics : forall (real : string -> option (F Rops)) yaml, (forall text b, yaml text = Some b -> distinct_keys b) ->
  forall read order threads c (p : params Rops), any_order order -> get_parameters real yaml read c = Ok (inl p) ->
  sane_sizes (pa_sim p) -> physical p -> geometry_everywhere (pa_sim p) (pa_geom p) -> requested (si_boundary_condition (pa_sim p)) 0 <> None ->
  forall fuel cf r, 0 < threads \/ si_chunk_size (pa_sim p) <> 0 ->
  (forall md dom, set_up real yaml read order threads c = Ok (Some (md, dom)) -> has_source md dom) ->
  program real yaml fuel cf read order threads c r -> r <> Panic.
Proof. exact program_never_panics. Qed.
Print Assumptions c49_program_never_panics.

(** Without an input file, whatever the options of the command line. *)
Theorem c49_default_run_never_panics : forall (real : string -> option (F Rops)) yaml, (forall text b, yaml text = Some b -> distinct_keys b) ->
  forall read order threads c fuel cf r, any_order order -> cl_input_file c = None -> sane_sizes (from_cli c) -> (0 < (si_dt (from_cli c) : R))%R -> 0 < threads ->
  program real yaml fuel cf read order threads c r -> r <> Panic.
Proof. exact default_never_panics. Qed.
Print Assumptions c49_default_run_never_panics.

(** In binary64, with any mathematical library whose logarithm is not positive on [0, 1]. *)
Theorem c49_binary64_run_never_panics : forall lm (md : mcdata (f64ops lm)) dom fuel cfuel r,
  ln_sign lm -> bounded_params lm md -> threads_ok md -> implemented md -> sound_problem md dom -> indexed md dom -> fine_numbers lm md dom ->
  core_loop fuel cfuel md (initial_sim md dom) r -> r <> Panic.
Proof. exact never_panics64. Qed.
Print Assumptions c49_binary64_run_never_panics.

(** The arithmetic of the reals and that of binary64 are such. *)
Example c49_arithmetics : sign_laws (K := Rops) (fun x => 0 <= (x : R))%R /\ sign_laws (K := f64ops signed_libm) good64.
Proof. split; [exact real_sign_laws|exact (sign_laws64 signed_libm signed_ln)]. Qed.

(** A problem in binary64 with two threads that meets all the conditions. *)
Example c49_binary64_case : ln_sign signed_libm /\ exists md dom, small_data Rayon = Ok md /\ small_domain = Ok dom /\ sound_problem md dom /\ indexed md dom /\
  bounded_params signed_libm md /\ fine_numbers signed_libm md dom /\ safe_values (K := f64ops signed_libm) good64 md dom /\ energies_bounded md /\ implemented md /\ threads_ok md /\ (0 < List.length (d_cells dom))%nat.
Proof.
  split; [exact signed_ln|]. destruct small_problem as (md & dom & H1 & H2 & H3 & H4 & H5 & H6 & H7 & H8 & H9). exists md, dom.
  split; [exact H1|]. split; [exact H2|]. split; [exact H3|]. split; [exact H4|]. split; [exact H5|]. split; [exact H6|].
  split; [exact (safe_values64 _ _ _ H6)|]. split; [exists (below signed_libm md); exact (bounded_safe _ _ H5)|]. split; [exact H7|]. split; [exact H8|]. exact H9.
Qed.

(** The default parameters: 1000 cells, 230 groups. *)
Example c49_program_case : exists p, get_parameters (K := Rops) (demo_real (1%R : F Rops)) demo_yaml odd_read plain_cli = Ok (inl p) /\
  sane_sizes (pa_sim p) /\ physical p /\ geometry_everywhere (pa_sim p) (pa_geom p) /\ requested (si_boundary_condition (pa_sim p)) 0 <> None /\
  (forall md dom, set_up (demo_real (1%R : F Rops)) demo_yaml odd_read (fun l => l) 2 plain_cli = Ok (Some (md, dom)) -> has_source md dom).
Proof.
  assert (Hdt : (0 < (si_dt (from_cli plain_cli) : R))%R) by (unfold Q2R; cbn; lra).
  assert (Ep := default_parameters (demo_real (1%R : F Rops)) demo_yaml odd_read plain_cli eq_refl).
  pose proof (default_physical plain_cli Hdt) as Hp. pose proof (default_everywhere (from_cli plain_cli) plain_sane) as Hg.
  eexists. split; [exact Ep|]. split; [exact plain_sane|]. split; [exact Hp|]. split; [exact Hg|]. split; [discriminate|].
  intros md dom E. eapply (every_cell_source _ _ demo_distinct odd_read (fun l => l) 2 plain_cli _ (fun l => Permutation_refl l) Ep); [exact plain_sane|exact Hp|exact Hg|discriminate|exact Hdt| |exact E].
  constructor; [|constructor]. cbn. unfold Q2R. cbn. lra.
Qed.

Example c49_default_case : cl_input_file plain_cli = None /\ sane_sizes (from_cli plain_cli) /\ (0 < (si_dt (from_cli plain_cli) : R))%R.
Proof. split; [reflexivity|]. split; [exact plain_sane|]. unfold Q2R. cbn. lra. Qed.
