(** Model of a whole run: particle containers, population control, the two phases of a cycle
    and the main loop (/repo/fastiron/src/particles/particle_container.rs,
    simulation/population_control.rs, simulation/mct.rs, montecarlo.rs, data/tallies.rs, main.rs),
    with the sequential and the concurrent semantics of the tracking programs. *)
From Coq Require Import NArith QArith List Bool String.
From Verif Require Import Float RngModel ParticleModel NuclearModel MeshTypes Balance TrackModel.
Import ListNotations.
Local Open Scope N_scope.
Local Open Scope float_scope.

(** [v[i] = x] once the index is known to be in range. *)
Fixpoint list_set {A} (l : list A) (i : nat) (x : A) : list A :=
  match l, i with
  | [], _ => []
  | _ :: l, O => x :: l
  | y :: l, S i => y :: list_set l i x
  end.

Section Cycle.
Context {K : FloatOps}.

(** ** Parameters *)

(** mc_processor_info.rs lines 12-19, [ExecPolicy]. *)
Inductive exec_policy : Set := Sequential | Rayon | Distributed | Hybrid.

(** mc_processor_info.rs lines 34-47, [MCProcessorInfo]; thread binding and the number of
    processors are left out. *)
Record exec_info : Set := mkExecInfo {
  ei_policy : exec_policy;
  ei_n_rayon_threads : N;
  ei_chunk_size : N;
  ei_n_units : N
}.

(** parameters.rs lines 311-366, the fields of [SimulationParameters] used during the cycles.
    [sp_spectrum] tells whether the name of the spectrum file is non empty, [sp_standard]
    whether the benchmark type is [Standard]. *)
Record sim_params : Type := mkSimParams {
  sp_n_particles : N;
  sp_n_groups : N;
  sp_n_steps : N;
  sp_e_min : F K;
  sp_e_max : F K;
  sp_low_weight_cutoff : F K;
  sp_load_balance : bool;
  sp_spectrum : bool;
  sp_standard : bool
}.

(** montecarlo.rs lines 30-45, [MonteCarloData], the part that does not
    change during a run (the time step is in [td_dt]). *)
Record mcdata : Type := mkMcData {
  mc_params : sim_params;
  mc_exec : exec_info;
  mc_track : track_data K;
  mc_material_params : list (string * material_params K)
}.

(** ** Shared arrays *)

(** The cross-section cache (montecarlo.rs lines 110-117) and the scalar flux tally
    (tallies.rs lines 164-167).  Both hold [num_groups], initialised from the same parameter
    (init.rs lines 311-330); here it is the parameter [ng] of the access functions. *)
Record mem : Type := mkMem { m_cache : list (F K); m_flux : list (F K) }.

(** montecarlo.rs line 124 and tallies.rs line 192: flattened index. *)
Definition slot (ng c g : N) : N := c * ng + g.

(** Sequential execution of a program. *)
Fixpoint run_seq {A} (ng : N) (p : prog K A) (m : mem) : result (A * mem) :=
  match p with
  | Ret a => Ok (a, m)
  | Fail => Panic
  | Stuck => NoFuel
  | LoadXs c g f =>
      do v <- vec_get (m_cache m) (slot ng c g) ; run_seq ng (f v) m
  | StoreXs c g v q =>
      do _ <- vec_get (m_cache m) (slot ng c g) ;
      run_seq ng q (mkMem (list_set (m_cache m) (N.to_nat (slot ng c g)) v) (m_flux m))
  | AddFlux c g v q =>
      do old <- vec_get (m_flux m) (slot ng c g) ;
      run_seq ng q (mkMem (m_cache m) (list_set (m_flux m) (N.to_nat (slot ng c g)) (old +. v)))
  end.

(** ** Concurrent execution

    One task per chunk, interleaved at the granularity of the atomic operations.
    - A load of a cache entry may return any value the entry has held (the entry's
      history), which covers every memory order.
    - [fetch_update] (atomic crate) is a load followed by a compare-and-swap loop: [Casing]
      is a task that has read [old] and is about to try.  The attempt succeeds only when the
      entry still holds [old]; a failed attempt (also a spurious one) reads some value again.
      The value read is unconstrained, which covers every memory order.
    - A task that ends takes the lock and appends its local particles to the common
      collection (particle_container.rs line 149). *)
Definition slice_result : Type := list (particle K) * balance * list (particle K).

Inductive task : Type :=
| Running : prog K slice_result -> task
| Casing : N -> N -> F K -> F K -> prog K slice_result -> task   (* cell, group, increment, old *)
| Done : list (particle K) -> balance -> task.

Record conf : Type := mkConf {
  cf_tasks : list task;
  cf_hist : list (list (F K));       (* history of each cache entry *)
  cf_flux : list (F K);
  cf_extra : list (particle K)
}.

Inductive cstep (ng : N) : conf -> conf -> Prop :=
| CLoad : forall l1 l2 c g f h fl ex vs v,
    nth_error h (N.to_nat (slot ng c g)) = Some vs -> In v vs ->
    cstep ng (mkConf (l1 ++ Running (LoadXs c g f) :: l2) h fl ex)
             (mkConf (l1 ++ Running (f v) :: l2) h fl ex)
| CStore : forall l1 l2 c g v q h fl ex vs,
    nth_error h (N.to_nat (slot ng c g)) = Some vs ->
    cstep ng (mkConf (l1 ++ Running (StoreXs c g v q) :: l2) h fl ex)
             (mkConf (l1 ++ Running q :: l2) (list_set h (N.to_nat (slot ng c g)) (v :: vs)) fl ex)
| CFluxRead : forall l1 l2 c g v q h fl ex old cur,
    nth_error fl (N.to_nat (slot ng c g)) = Some cur ->
    cstep ng (mkConf (l1 ++ Running (AddFlux c g v q) :: l2) h fl ex)
             (mkConf (l1 ++ Casing c g v old q :: l2) h fl ex)
| CFluxFail : forall l1 l2 c g v q h fl ex old old',
    cstep ng (mkConf (l1 ++ Casing c g v old q :: l2) h fl ex)
             (mkConf (l1 ++ Casing c g v old' q :: l2) h fl ex)
| CFluxCas : forall l1 l2 c g v q h fl ex old,
    nth_error fl (N.to_nat (slot ng c g)) = Some old ->
    cstep ng (mkConf (l1 ++ Casing c g v old q :: l2) h fl ex)
             (mkConf (l1 ++ Running q :: l2) h (list_set fl (N.to_nat (slot ng c g)) (old +. v)) ex)
| CFinish : forall l1 l2 ps b exl h fl ex,
    cstep ng (mkConf (l1 ++ Running (Ret (ps, b, exl)) :: l2) h fl ex)
             (mkConf (l1 ++ Done ps b :: l2) h fl (ex ++ exl)).

Inductive csteps (ng : N) : conf -> conf -> Prop :=
| csteps_refl : forall c, csteps ng c c
| csteps_step : forall c1 c2 c3, cstep ng c1 c2 -> csteps ng c2 c3 -> csteps ng c1 c3.

(** A task about to panic: explicit panic or index out of range. *)
Inductive task_panics (ng : N) (h : list (list (F K))) (fl : list (F K)) : task -> Prop :=
| tp_fail : task_panics ng h fl (Running Fail)
| tp_load : forall c g f, nth_error h (N.to_nat (slot ng c g)) = None ->
    task_panics ng h fl (Running (LoadXs c g f))
| tp_store : forall c g v q, nth_error h (N.to_nat (slot ng c g)) = None ->
    task_panics ng h fl (Running (StoreXs c g v q))
| tp_flux : forall c g v q, nth_error fl (N.to_nat (slot ng c g)) = None ->
    task_panics ng h fl (Running (AddFlux c g v q)).

(** [fold_with(default, +)] followed by [sum] (particle_container.rs lines 152-153): the
    list of balances is cut in contiguous pieces, each folded from the default value, and the
    results are summed pairwise in any association (rayon's [sum] consumer). *)
Inductive par_sum : list balance -> balance -> Prop :=
| par_sum_fold : forall l, par_sum l (bsum [bsum l])
| par_sum_join : forall l1 l2 a b, par_sum l1 a -> par_sum l2 b -> par_sum (l1 ++ l2) (bsum [a; b]).

(** The cache after the tasks have joined: a value of each entry's history. *)
Definition settles (h : list (list (F K))) (cache : list (F K)) : Prop :=
  Forall2 (fun vs v => In v vs) h cache.

Definition done_parts (t : task) : option (list (particle K) * balance) :=
  match t with Done ps b => Some (ps, b) | _ => None end.

(** Outcome of a parallel region started with [tasks] on [m] and [extra]: the slices, the
    balances in task order, the memory and the common collection of extra particles. *)
Inductive par_exec (ng : N) (tasks : list (prog K slice_result)) (m : mem) (extra : list (particle K))
  : result (list (list (particle K)) * list balance * mem * list (particle K)) -> Prop :=
| par_ok : forall slices bals h fl ex cache,
    csteps ng (mkConf (map Running tasks) (map (fun v => [v]) (m_cache m)) (m_flux m) extra)
              (mkConf (map (fun sb => Done (fst sb) (snd sb)) (combine slices bals)) h fl ex) ->
    List.length slices = List.length tasks -> List.length bals = List.length tasks ->
    settles h cache ->
    par_exec ng tasks m extra (Ok (slices, bals, mkMem cache fl, ex))
| par_panic : forall ts h fl ex t,
    csteps ng (mkConf (map Running tasks) (map (fun v => [v]) (m_cache m)) (m_flux m) extra)
              (mkConf ts h fl ex) ->
    In t ts -> task_panics ng h fl t ->
    par_exec ng tasks m extra Panic
| par_nofuel : forall ts h fl ex,
    csteps ng (mkConf (map Running tasks) (map (fun v => [v]) (m_cache m)) (m_flux m) extra)
              (mkConf ts h fl ex) ->
    In (Running Stuck) ts ->
    par_exec ng tasks m extra NoFuel.

(** ** Containers *)

(** particle_container.rs lines 23-31. *)
Record container : Type := mkContainer {
  processing : list (particle K);
  processed : list (particle K);
  extra_particles : list (particle K)
}.

(** lines 45-48; [append] empties its argument. *)
Definition swap_processing_processed (c : container) : container :=
  mkContainer (processing c ++ processed c) [] (extra_particles c).

(** lines 60-64: [retain_mut] with a predicate that updates the particle. *)
Fixpoint retain_mut (f : particle K -> bool * particle K) (l : list (particle K)) : list (particle K) :=
  match l with
  | [] => []
  | p :: l => let (keep, p) := f p in
              if (keep : bool) then p :: retain_mut f l else retain_mut f l
  end.

(** lines 60-64: both roulettes are played whatever the first says. *)
Definition regulate_one (f cutoff w : F K) (p : particle K) : bool * particle K :=
  let (once, p) := over_populated_rr p f in
  let (twice, p) := low_weight_rr p cutoff w in
  (once && twice, p).

(** lines 52-66, [regulate_population]. *)
Definition regulate_population (c : container) (f cutoff w : F K) (b : balance) : container * balance :=
  let old_len := List.length (processing c) in
  let ps := retain_mut (regulate_one f cutoff w) (processing c) in
  (mkContainer ps (processed c) (extra_particles c),
   bset b EOverRr (N.of_nat (old_len - List.length ps))).

(** lines 78-81: the updated particles and the copies, in order. *)
Fixpoint split_all (f : F K) (l : list (particle K)) : result (list (particle K) * list (particle K)) :=
  match l with
  | [] => Ok ([], [])
  | p :: l =>
      do (p, copies) <- under_populated_split p f ;
      do (ps, rest) <- split_all f l ;
      Ok (p :: ps, copies ++ rest)
  end.

(** lines 178-180, [clean_extra_vaults]. *)
Definition clean_extra_vaults (c : container) : container :=
  mkContainer (processing c ++ extra_particles c) (processed c) [].

(** lines 70-88, [split_population]. *)
Definition split_population (c : container) (f cutoff w : F K) (b : balance) : result (container * balance) :=
  let old_len := List.length (processing c) in
  do (ps, copies) <- split_all f (processing c) ;
  let c := clean_extra_vaults (mkContainer ps (processed c) (extra_particles c ++ copies)) in
  let b := bset b ESplit (N.of_nat (List.length (processing c) - old_len)) in
  let old_len := List.length (processing c) in
  let ps := retain_mut (fun p => low_weight_rr p cutoff w) (processing c) in
  Ok (mkContainer ps (processed c) (extra_particles c),
      bset b EWeightRr (N.of_nat (old_len - List.length ps))).

(** lines 170-174: [a] may stay before [b] (the comparison is not [Greater]). *)
Definition sort_le (a b : particle K) : bool :=
  (p_cell a <? p_cell b) || ((p_cell a =? p_cell b) && (p_energy_group a <=? p_energy_group b)).

(** lines 168-175, [sort_processing].  Rust's [sort_by] is a stable sort; its
    result is determined by that (theorem [c51_sort_unique]) and is computed here by insertion. *)
Fixpoint sort_insert (p : particle K) (l : list (particle K)) : list (particle K) :=
  match l with
  | [] => [p]
  | q :: l' => if sort_le p q then p :: l else q :: sort_insert p l'
  end.
Fixpoint sort_particles (l : list (particle K)) : list (particle K) :=
  match l with [] => [] | p :: l => sort_insert p (sort_particles l) end.
Definition sort_processing (c : container) : container :=
  mkContainer (sort_particles (processing c)) (processed c) (extra_particles c).

(** lines 186-188, [is_done_processing]. *)
Definition is_nil {A} (l : list A) : bool := match l with [] => true | _ => false end.
Definition is_done_processing (c : container) : bool := is_nil (extra_particles c) && is_nil (processing c).

(** rayon [chunks(n)]: consecutive slices of [n] elements, the last one possibly shorter. *)
Fixpoint chunks_fuel {A} (fuel : nat) (n : nat) (l : list A) : list (list A) :=
  match fuel, l with
  | O, _ | _, [] => []
  | S fuel, _ => firstn n l :: chunks_fuel fuel n (skipn n l)
  end.
Definition chunks {A} (n : nat) (l : list A) : list (list A) := chunks_fuel (List.length l) n l.

(** lines 118-121: size of the chunks; the division panics for zero threads. *)
Definition chunk_size (ei : exec_info) (len : N) : result N :=
  match ei_chunk_size ei with
  | 0 => do _ <- rassert (negb (ei_n_rayon_threads ei =? 0)) ;
         Ok (len / ei_n_rayon_threads ei + 1)
  | n => Ok n
  end.

(** lines 161-164: invalid particles are dropped, the others become processed. *)
Definition is_valid (p : particle K) : bool := match p_species p with Unknown => false | Known => true end.
Definition finish_processing (c : container) (ps extra : list (particle K)) : container :=
  mkContainer [] (processed c ++ filter is_valid ps) extra.

(** ** Unit state *)

(** montecarlo.rs lines 64-75, [MonteCarloUnit] (timers are modelled in
    TimerModel). *)
Record unit_state : Type := mkUnit {
  u_domain : domain K;
  u_balance : balance;       (* tallies.balance_cycle *)
  u_mem : mem;               (* xs_cache and tallies.scalar_flux_domain *)
  u_weight : F K             (* unit_weight *)
}.

(** particle_container.rs lines 91-165, [process_particles], as a relation between
    the state before and the outcome, since the parallel branch is not deterministic.
    [fuel] bounds the segments of a track and [cfuel] the passes of the reaction search. *)
Inductive process_particles (fuel cfuel : nat) (md : mcdata) (u : unit_state) (c : container)
  : result (unit_state * container) -> Prop :=
| pp_seq : forall r,
    (ei_policy (mc_exec md) = Sequential \/ ei_policy (mc_exec md) = Distributed) ->
    run_seq (sp_n_groups (mc_params md))
            (track_slice fuel cfuel (mc_track md) (u_domain u) (processing c) balance_zero (extra_particles c))
            (u_mem u) = r ->
    process_particles fuel cfuel md u c
      (do (s, m) <- r ;
       let '(ps, b, extra) := s in
       Ok (mkUnit (u_domain u) (badd (u_balance u) b) m (u_weight u), finish_processing c ps extra))
| pp_par : forall n r b,
    (ei_policy (mc_exec md) = Rayon \/ ei_policy (mc_exec md) = Hybrid) ->
    chunk_size (mc_exec md) (N.of_nat (List.length (processing c))) = Ok n ->
    par_exec (sp_n_groups (mc_params md))
             (map (fun l => track_slice fuel cfuel (mc_track md) (u_domain u) l balance_zero [])
                  (chunks (N.to_nat n) (processing c)))
             (u_mem u) (extra_particles c) r ->
    (forall s bals m ex, r = Ok (s, bals, m, ex) -> par_sum bals b) ->
    process_particles fuel cfuel md u c
      (do (slices, bals, m, extra) <- r ;
       do _ <- rassert ((bget b EStart =? 0) && (bget b EEnd =? 0) && (bget b ESource =? 0)) ;
       Ok (mkUnit (u_domain u) (badd (u_balance u) b) m (u_weight u),
           finish_processing c (List.concat slices) extra))
| pp_chunk_panic :
    (ei_policy (mc_exec md) = Rayon \/ ei_policy (mc_exec md) = Hybrid) ->
    chunk_size (mc_exec md) (N.of_nat (List.length (processing c))) = Panic ->
    process_particles fuel cfuel md u c Panic.

(** ** Source *)

(** mct.rs lines 190-197, [compute_volume]. *)
Definition compute_volume (fc : vec K * vec K * vec K) (origin : vec K) : F K :=
  let '(v0, v1, v2) := fc in
  vdot (vsub v0 origin) (vcross (vsub v1 origin) (vsub v2 origin)).

(** mct.rs lines 57-65: the facet to sample from; [n] facets are left from [i] on. *)
Fixpoint pick_facet (n : nat) (m : mesh K) (cell i : N) (center : vec K) (which current : F K)
    (points : vec K * vec K * vec K) : result (vec K * vec K * vec K) :=
  match n with
  | O => Ok points
  | S n =>
      do points <- get_facet_coords m cell i ;
      let current := current +. compute_volume points center in
      if current >=. which then Ok points
      else pick_facet n m cell (N.succ i) center which current points
  end.

(** mct.rs lines 71-84: the barycentric coordinates. *)
Definition fold_barycentric (r1 r2 r3 : F K) : F K * F K * F K * F K :=
  let '(r1, r2) := if (r1 +. r2) >. f1 then (f1 -. r1, f1 -. r2) else (r1, r2) in
  let '(r1, r2, r3) :=
    if (r2 +. r3) >. f1 then (r1, f1 -. r3, f1 -. r1 -. r2)
    else if (r1 +. r2 +. r3) >. f1 then (f1 -. r2 -. r3, r2, r1 +. r2 +. r3 -. f1)
    else (r1, r2, r3) in
  (r1, r2, r3, f1 -. r1 -. r2 -. r3).

(** mct.rs lines 40-87, [generate_coordinate_3dg], on the particle's own seed. *)
Definition generate_coordinate_3dg (p : particle K) (m : mesh K) (cell : N) (volume : F K)
  : result (vec K * particle K) :=
  do center <- cell_position_3dg m cell ;
  let (r, p) := draw p in
  let which := r *. flit (6 # 1) *. volume in
  do points <- pick_facet 24 m cell 0 center which f0 (vzero, vzero, vzero) ;
  let (r1, p) := draw p in
  let (r2, p) := draw p in
  let (r3, p) := draw p in
  let '(r1, r2, r3, r4) := fold_barycentric r1 r2 r3 in
  let '(q0, q1, q2) := points in
  Ok (vadd (vadd (vadd (vscale q0 r1) (vscale q1 r2)) (vscale q2 r3)) (vscale center r4), p).

(** population_control.rs lines 101-106: the seeds given to the new particles of a cell.
    The sum is on usize and is taken modulo 2^64, as in a release build. *)
Definition source_seeds (n : nat) (tally id : N) : list N :=
  map (fun t => (t + id) mod two64) (nrange tally n).

(** population_control.rs lines 113-142: one new particle. *)
Definition source_particle (md : mcdata) (weight : F K) (dom : domain K) (cell_idx : N) (volume : F K)
    (rand_n_seed : N) : result (particle K) :=
  let (s, rand_n_seed) := spawn_rn_seed rand_n_seed in
  let p := set_identifier (set_random_number_seed particle_default s) rand_n_seed in
  do (coord, p) <- generate_coordinate_3dg p (d_mesh dom) cell_idx volume ;
  let p := set_coordinate p coord in
  let p := set_weight (set_cell (set_domain p (d_global_domain dom)) cell_idx) weight in
  let p := sample_isotropic p in
  let range := sp_e_max (mc_params md) -. sp_e_min (mc_params md) in
  let (r, p) := draw p in
  let p := set_kinetic_energy p (r *. range +. sp_e_min (mc_params md)) in
  let p := sample_num_mfp p in
  let (r, p) := draw p in
  Ok (set_time_to_census p (td_dt (mc_track md) *. r)).

(** population_control.rs lines 94-98: number of particles created in a cell. *)
Definition cell_n_particles (md : mcdata) (weight : F K) (rates : list (F K)) (cs : cell_state K) : result N :=
  do rate <- vec_get rates (cs_material cs) ;
  let cell_weight := cs_volume cs *. rate *. td_dt (mc_track md) in
  unwrap (fto_usize (ffloor (cell_weight /. weight))).

(** population_control.rs lines 87-144: the loop over the cells; returns the new
    cells, the number of particles and the particles. *)
Fixpoint source_cells (md : mcdata) (weight : F K) (rates : list (F K)) (dom : domain K) (cell_idx : N)
    (cells : list (cell_state K)) : result (list (cell_state K) * N * list (particle K)) :=
  match cells with
  | [] => Ok ([], 0, [])
  | cs :: cells =>
      do n <- cell_n_particles md weight rates cs ;
      let seeds := source_seeds (N.to_nat n) (cs_source_tally cs) (cs_id cs) in
      do ps <- rmap (source_particle md weight dom cell_idx (cs_volume cs)) seeds ;
      let cs := mkCellState (cs_material cs) (cs_volume cs) (cs_number_density cs) (cs_id cs)
                            (cs_source_tally cs + n) in
      do (cells, n', ps') <- source_cells md weight rates dom (N.succ cell_idx) cells ;
      Ok (cs :: cells, n + n', ps ++ ps')
  end.

(** population_control.rs lines 78-83 and montecarlo.rs lines 87-92: the
    source rates by material index; [params[&name]] panics for an unknown name. *)
Definition source_rates (md : mcdata) : result (list (F K)) :=
  rmap (fun mat => do mp <- map_index (mc_material_params md) (mat_name mat) ; Ok (mp_source_rate mp))
       (td_mats (mc_track md)).

Definition set_cells (d : domain K) (cells : list (cell_state K)) : domain K :=
  mkDomain (d_global_domain d) cells (d_mesh d).

(** population_control.rs lines 71-145, [source_now]. *)
Definition source_now (md : mcdata) (weight : F K) (u : unit_state) (c : container)
  : result (unit_state * container) :=
  do rates <- source_rates md ;
  do (cells, n, ps) <- source_cells md weight rates (u_domain u) 0 (d_cells (u_domain u)) ;
  Ok (mkUnit (set_cells (u_domain u) cells) (binc (u_balance u) ESource n) (u_mem u) (u_weight u),
      mkContainer (processing c ++ ps) (processed c) (extra_particles c)).

(** population_control.rs lines 25-53, [compute_split_factor]. *)
Definition compute_split_factor (global_target global_n local_n num_threads : N) (load_balance : bool)
  : result (F K) :=
  if load_balance then
    if negb (local_n =? 0) then
      do local_target <- unwrap (fto_usize (fceil ((fof_N global_target : F K) /. fof_N num_threads))) ;
      Ok (fof_N local_target /. fof_N local_n)
    else Ok f1
  else Ok (fof_N global_target /. fof_N global_n).

(** ** The run *)

(** montecarlo.rs lines 138-147, [MonteCarloResults]. *)
Record mc_results : Type := mkResults {
  rs_balance : balance;          (* balance_cumulative *)
  rs_fluence : list (F K);       (* fluence.cell *)
  rs_spectrum : list N           (* spectrum.census_energy_spectrum *)
}.

(** One line of the printed table and of the csv report (tallies.rs lines 249-327): cycle
    number, balance and flux sum. *)
Record report : Type := mkReport { rp_cycle : N; rp_balance : balance; rp_flux : F K }.

(** The state of a run with one unit: [MonteCarloUnit], container, results and
    the two mutable fields of [MonteCarloData]; [s_reports] collects what was printed. *)
Record sim : Type := mkSim {
  s_unit : unit_state;
  s_cont : container;
  s_results : mc_results;
  s_source_weight : F K;
  s_global_n : N;
  s_reports : list report
}.

(** montecarlo.rs lines 86-105, [update_unit_weight]. *)
Definition unit_weight (md : mcdata) (d : domain K) : result (F K) :=
  do rates <- source_rates md ;
  do ws <- rmap (fun cs => do rate <- vec_get rates (cs_material cs) ;
                           Ok (cs_volume cs *. rate *. td_dt (mc_track md))) (d_cells d) ;
  Ok (fsum ws).

(** tallies.rs lines 339-345, [cycle_finalize]: balance and flux. *)
Definition cycle_finalize (u : unit_state) : unit_state :=
  mkUnit (u_domain u) (bset balance_zero EStart (bget (u_balance u) EEnd))
         (mkMem (m_cache (u_mem u)) (map (fun _ => f0) (m_flux (u_mem u)))) (u_weight u).

(** tallies.rs lines 56-67, [FluenceDomain::compute]; [chunks(0)] panics. *)
Fixpoint zip_add (cells : list (F K)) (sums : list (F K)) : list (F K) :=
  match cells, sums with
  | x :: cells, s :: sums => (x +. s) :: zip_add cells sums
  | _, _ => cells
  end.
Definition fluence_compute (ng : N) (cells flux : list (F K)) : result (list (F K)) :=
  do _ <- rassert (negb (ng =? 0)) ;
  Ok (zip_add cells (map fsum (chunks (N.to_nat ng) flux))).

(** montecarlo.rs lines 188-197, [update_stats]. *)
Definition update_stats (md : mcdata) (u : unit_state) (rs : mc_results) : result (unit_state * mc_results) :=
  do fl <- (if sp_standard (mc_params md) then Ok (rs_fluence rs)
            else fluence_compute (sp_n_groups (mc_params md)) (rs_fluence rs) (m_flux (u_mem u))) ;
  Ok (cycle_finalize u, mkResults (badd (rs_balance rs) (u_balance u)) fl (rs_spectrum rs)).

(** montecarlo.rs lines 161-185, [update_spectrum]. *)
Definition spectrum_add (sp : list N) (p : particle K) : result (list N) :=
  do x <- vec_get sp (p_energy_group p) ;
  Ok (list_set sp (N.to_nat (p_energy_group p)) (x + 1)).
Definition update_spectrum (md : mcdata) (c : container) (rs : mc_results) : result mc_results :=
  if sp_spectrum (mc_params md) then
    do sp <- rfold spectrum_add (processing c) (rs_spectrum rs) ;
    do sp <- rfold spectrum_add (processed c) sp ;
    Ok (mkResults (rs_balance rs) (rs_fluence rs) sp)
  else Ok rs.

(** main.rs lines 238-256: the end of the previous cycle. *)
Definition finish_cycle (md : mcdata) (step : N) (s : sim) : result sim :=
  match ei_policy (mc_exec md) with
  | Sequential | Rayon =>
      let u := s_unit s in
      let b := bset (u_balance u) EEnd (N.of_nat (List.length (processed (s_cont s)))) in
      let rep := mkReport (step - 1) b (fsum (m_flux (u_mem u))) in
      do (u, rs) <- update_stats md (mkUnit (u_domain u) b (u_mem u) (u_weight u)) (s_results s) ;
      do rs <- update_spectrum md (s_cont s) rs ;
      Ok (mkSim u (s_cont s) rs (s_source_weight s) (s_global_n s) (s_reports s ++ [rep]))
  | Distributed | Hybrid => Panic    (* todo!() *)
  end.

(** main.rs lines 264-284: preparation of the next cycle. *)
Definition prepare_cycle (md : mcdata) (s : sim) : result sim :=
  let u := s_unit s in
  do w <- unit_weight md (u_domain u) ;
  let m := mkMem (map (fun _ => f0) (m_cache (u_mem u))) (m_flux (u_mem u)) in
  let c := swap_processing_processed (s_cont s) in
  let n := N.of_nat (List.length (processing c)) in
  let u := mkUnit (u_domain u) (bset (u_balance u) EStart n) m w in
  let to_spawn : F K := src_fraction *. fof_N (sp_n_particles (mc_params md)) in
  do spawned <- unwrap (fto_usize to_spawn) ;
  Ok (mkSim u c (s_results s) ((f0 +. w) /. to_spawn) (n + spawned) (s_reports s)).

(** main.rs lines 229-285, [cycle_sync]. *)
Definition cycle_sync (md : mcdata) (step : N) (s : sim) : result sim :=
  if step =? 0 then prepare_cycle md s
  else
    do s <- finish_cycle md step s ;
    if step =? sp_n_steps (mc_params md) + 1 then Ok s else prepare_cycle md s.

(** main.rs lines 299-323: source and population control. *)
Definition population_phase (md : mcdata) (s : sim) : result (unit_state * container) :=
  let w := s_source_weight s in
  do (u, c) <- source_now md w (s_unit s) (s_cont s) ;
  do f <- compute_split_factor (sp_n_particles (mc_params md)) (s_global_n s)
            (N.of_nat (List.length (processing c))) (ei_n_units (mc_exec md))
            (sp_load_balance (mc_params md)) ;
  let cutoff := sp_low_weight_cutoff (mc_params md) in
  if f <. f1 then
    let (c, b) := regulate_population c f cutoff w (u_balance u) in
    Ok (mkUnit (u_domain u) b (u_mem u) (u_weight u), c)
  else if f >. f1 then
    do (c, b) <- split_population c f cutoff w (u_balance u) ;
    Ok (mkUnit (u_domain u) b (u_mem u) (u_weight u), c)
  else Ok (u, c).

(** main.rs lines 328-341: the rounds of tracking. *)
Inductive tracking_rounds (fuel cfuel : nat) (md : mcdata)
  : unit_state -> container -> result (unit_state * container) -> Prop :=
| tr_done : forall u c, is_done_processing c = true ->
    tracking_rounds fuel cfuel md u c (Ok (u, c))
| tr_more : forall u c u' c' r, is_done_processing c = false ->
    process_particles fuel cfuel md u (sort_processing c) (Ok (u', c')) ->
    tracking_rounds fuel cfuel md u' (clean_extra_vaults c') r ->
    tracking_rounds fuel cfuel md u c r
| tr_panic : forall u c, is_done_processing c = false ->
    process_particles fuel cfuel md u (sort_processing c) Panic ->
    tracking_rounds fuel cfuel md u c Panic
| tr_nofuel : forall u c, is_done_processing c = false ->
    process_particles fuel cfuel md u (sort_processing c) NoFuel ->
    tracking_rounds fuel cfuel md u c NoFuel.

(** main.rs lines 291-344, [cycle_process]. *)
Inductive cycle_process (fuel cfuel : nat) (md : mcdata) (s : sim) : result sim -> Prop :=
| cp_run : forall u c r,
    population_phase md s = Ok (u, c) ->
    tracking_rounds fuel cfuel md u c r ->
    cycle_process fuel cfuel md s
      (do (u, c) <- r ;
       Ok (mkSim u c (s_results s) (s_source_weight s) (s_global_n s) (s_reports s)))
| cp_panic : population_phase md s = Panic -> cycle_process fuel cfuel md s Panic
| cp_nofuel : population_phase md s = NoFuel -> cycle_process fuel cfuel md s NoFuel.

(** main.rs lines 121-130: the first [n] iterations of the main loop. *)
Inductive run_steps (fuel cfuel : nat) (md : mcdata) (s0 : sim) : N -> result sim -> Prop :=
| rs_zero : run_steps fuel cfuel md s0 0 (Ok s0)
| rs_succ : forall n s s1 r,
    run_steps fuel cfuel md s0 n (Ok s) ->
    cycle_sync md n s = Ok s1 ->
    cycle_process fuel cfuel md s1 r ->
    run_steps fuel cfuel md s0 (N.succ n) r
| rs_sync_panic : forall n s,
    run_steps fuel cfuel md s0 n (Ok s) ->
    cycle_sync md n s = Panic ->
    run_steps fuel cfuel md s0 (N.succ n) Panic
| rs_propagate : forall n r,
    run_steps fuel cfuel md s0 n r -> (r = Panic \/ r = NoFuel) ->
    run_steps fuel cfuel md s0 (N.succ n) r.

(** main.rs lines 116-143: the core loop with its final synchronisation. *)
Inductive core_loop (fuel cfuel : nat) (md : mcdata) (s0 : sim) : result sim -> Prop :=
| cl_run : forall r,
    (ei_policy (mc_exec md) = Sequential \/ ei_policy (mc_exec md) = Rayon) ->
    run_steps fuel cfuel md s0 (sp_n_steps (mc_params md)) r ->
    core_loop fuel cfuel md s0 (do s <- r ; cycle_sync md (sp_n_steps (mc_params md)) s)
| cl_todo :
    (ei_policy (mc_exec md) = Distributed \/ ei_policy (mc_exec md) = Hybrid) ->
    core_loop fuel cfuel md s0 Panic.

(** The state before the core loop: init.rs lines 52-86 (empty containers), 113-119 (empty
    results), 311-330 (arrays of zeros), [Default] for the rest. *)
Definition initial_sim (md : mcdata) (d : domain K) : sim :=
  let size := N.to_nat (N.of_nat (List.length (d_cells d)) * sp_n_groups (mc_params md)) in
  mkSim (mkUnit d balance_zero (mkMem (repeat f0 size) (repeat f0 size)) f0)
        (mkContainer [] [] [])
        (mkResults balance_zero [] (repeat 0%N (N.to_nat (sp_n_groups (mc_params md) + 1))))
        f0 0 [].

End Cycle.
Arguments sim_params : clear implicits.
Arguments mcdata : clear implicits.
Arguments mem : clear implicits.
Arguments task : clear implicits.
Arguments conf : clear implicits.
Arguments container : clear implicits.
Arguments unit_state : clear implicits.
Arguments mc_results : clear implicits.
Arguments report : clear implicits.
Arguments sim : clear implicits.
Arguments slice_result : clear implicits.
