(** C68: a run returns.  In exact arithmetic, with as much fuel as the bound of C67 for one time step, the core loop of a run returns a state under every policy and every
    interleaving: it neither panics nor goes on for ever, unless somewhere something happens on an edge between faces, or a collision at the very end of a cycle. *)
From Coq Require Import NArith ZArith String List Bool Reals Lra Lia.
From Verif Require Import Float RealOps ParticleModel NuclearModel MeshTypes Balance TrackModel CycleModel GridModel MeshModel GridSpec MeshSpec MeshTheorems
  TrackSpec SegmentSpec GeomSpec GeomLemmas SourcePoint GeomDemo StaySpec StayDemo SpeedSpec QuietRun ScheduleSpec ScheduleFacts RangeSpec RunAgree SafeSpec SafeRun SafeReal
  HaltSpec HaltRounds HaltDemo ParamModel ParamSpec SetUpSpec ReturnSpec ReturnRounds ReturnRun ReturnDemo ReturnProgram ReturnCase.
Import ListNotations.
Local Open Scope R_scope.

Theorem c68_run_returns : forall (g : grid Rops) bc pt geoms mats dom ok (md : mcdata Rops) X fuel cf,
  built_domain g bc pt geoms mats dom -> sized g -> fits g -> heavy (mc_track md) -> 0 <= td_dt (mc_track md) ->
  safe_energies (K := Rops) md ok -> (forall e, ok e -> 0 < e) -> run_ok md -> loop_policy md ->
  sound_problem md dom -> indexed md dom -> safe_values (K := Rops) (fun x => 0 <= x) md dom ->
  no_denser (mc_track md) dom X -> 1 <= X -> answered (mc_track md) dom -> (2 <= cf)%nat -> most_segments g X (td_dt (mc_track md)) < INR fuel ->
  (forall n u c, about_to_track fuel cf md dom n u c -> Forall (starts_regular g (mc_track md) (u_domain u)) (processing c)) ->
  (exists s, core_loop fuel cf md (initial_sim md dom) (Ok s)) /\
  forall r, core_loop fuel cf md (initial_sim md dom) r -> exists s, r = Ok s.
Proof. exact run_comes_back. Qed.
(** Twenty-four particles, about two hundred and forty after splitting, in a fissile material, tracked by four threads. *)
Example c68_run_case : exists pt dom fuel, built_domain box "octant" pt box_geoms box_mats dom /\ sized box /\ fits box /\ heavy (mc_track short_md) /\ 0 <= td_dt (mc_track short_md) /\
  safe_energies (K := Rops) short_md usual /\ (forall e, usual e -> 0 < e) /\ run_ok short_md /\ loop_policy short_md /\
  sound_problem short_md dom /\ indexed short_md dom /\ safe_values (K := Rops) (fun x => 0 <= x) short_md dom /\
  no_denser (mc_track short_md) dom 1 /\ answered (mc_track short_md) dom /\ most_segments box 1 (td_dt (mc_track short_md)) < INR fuel /\
  (forall n u c, about_to_track fuel 2 short_md dom n u c -> Forall (starts_regular box (mc_track short_md) (u_domain u)) (processing c)) /\
  ei_policy (mc_exec short_md) = Rayon /\ (exists n u c, about_to_track fuel 2 short_md dom n u c /\ (24 <= List.length (processing c))%nat).
Proof. exact short_case. Qed.
Print Assumptions c68_run_returns.

(** The whole program, from its parameters.  What the file and the command line ask for has to be physical; materials heavier than a neutron that react at the energy of
    normalisation.  No bound on energies or cross-sections is assumed, they follow from the parameters, and so does the fuel. *)
Theorem c68_program_returns : forall real yaml, (forall text b, yaml text = Some b -> distinct_keys b) -> forall read order threads (c : cli Rops) (p : params Rops),
  any_order order -> get_parameters real yaml read c = Ok (inl p) -> sane_sizes (pa_sim p) -> physical p -> geometry_everywhere (pa_sim p) (pa_geom p) ->
  requested (si_boundary_condition (pa_sim p)) 0 <> None -> Forall (fun e : string * material_params Rops => reacts (snd e)) (pa_mats p) ->
  (0 < threads)%N \/ si_chunk_size (pa_sim p) <> 0%N ->
  exists md dom, set_up real yaml read order threads c = Ok (Some (md, dom)) /\
  (has_source md dom -> exists enough, forall fuel cf, (enough <= fuel)%nat -> (2 <= cf)%nat ->
    (forall n u q, about_to_track fuel cf md dom n u q ->
       Forall (starts_regular (grid_new (K := Rops) (dims_of (pa_sim p)) (si_lx (pa_sim p)) (si_ly (pa_sim p)) (si_lz (pa_sim p))) (mc_track md) (u_domain u)) (processing q)) ->
    (exists s, program real yaml fuel cf read order threads c (Ok (Some s))) /\
    forall r, program real yaml fuel cf read order threads c r -> exists s, r = Ok (Some s)).
Proof. exact program_returns. Qed.
(** The default problem on a box of 2x3x4 cells, one very short step on four threads: one particle per cell, ten after splitting, and every track is regular. *)
Example c68_program_case : forall real yaml (Hy : forall text b, yaml text = Some b -> distinct_keys b) read order, any_order order ->
  get_parameters real yaml read small_cli = Ok (inl small_params) /\ sane_sizes (pa_sim small_params) /\ physical small_params /\
  geometry_everywhere (pa_sim small_params) (pa_geom small_params) /\ requested (si_boundary_condition (pa_sim small_params)) 0 <> None /\
  Forall (fun e : string * material_params Rops => reacts (snd e)) (pa_mats small_params) /\
  exists md dom, set_up real yaml read order 4 small_cli = Ok (Some (md, dom)) /\ has_source md dom /\ ei_policy (mc_exec md) = Rayon /\
    (forall fuel cf, (2 <= cf)%nat -> forall n u q, about_to_track fuel cf md dom n u q -> Forall (starts_regular small_grid (mc_track md) (u_domain u)) (processing q)) /\
    (forall fuel cf, exists n u q, about_to_track fuel cf md dom n u q /\ (24 <= List.length (processing q))%nat).
Proof. exact small_case. Qed.
Print Assumptions c68_program_returns.
