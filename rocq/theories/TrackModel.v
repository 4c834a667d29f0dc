(** Model of the tracking of one particle: /repo/fastiron/src/simulation/mct.rs,
    mc_segment_outcome.rs, macro_cross_section.rs, collision_event.rs,
    mc_facet_crossing_event.rs and cycle_tracking.rs. *)
From Coq Require Import NArith QArith List Bool String.
From Verif Require Import Float RngModel ParticleModel NuclearModel MeshTypes Balance.
Import ListNotations.
Local Open Scope N_scope.
Local Open Scope float_scope.

Section Track.
Context {K : FloatOps}.

(** ** Programs over the shared arrays

    Tracking reads and writes two shared arrays of atomics, both indexed by
    (cell, energy group): the cross-section cache and the scalar flux tally.  A program is
    the tree of the shared accesses; everything else is ordinary computation. *)
Inductive prog (A : Type) : Type :=
| Ret : A -> prog A
| Fail : prog A                                    (* panic *)
| Stuck : prog A                                   (* out of fuel *)
| LoadXs : N -> N -> (F K -> prog A) -> prog A     (* xs_cache[(c,g)].load *)
| StoreXs : N -> N -> F K -> prog A -> prog A      (* xs_cache[(c,g)].store *)
| AddFlux : N -> N -> F K -> prog A -> prog A.     (* scalar_flux[(c,g)].fetch_update(x + v) *)
Arguments Ret {A}. Arguments Fail {A}. Arguments Stuck {A}.
Arguments LoadXs {A}. Arguments StoreXs {A}. Arguments AddFlux {A}.

Fixpoint pbind {A B} (p : prog A) (k : A -> prog B) : prog B :=
  match p with
  | Ret a => k a
  | Fail => Fail
  | Stuck => Stuck
  | LoadXs c g f => LoadXs c g (fun v => pbind (f v) k)
  | StoreXs c g v q => StoreXs c g v (pbind q k)
  | AddFlux c g v q => AddFlux c g v (pbind q k)
  end.
Definition lift {A} (r : result A) : prog A :=
  match r with Ok a => Ret a | Panic => Fail | NoFuel => Stuck end.

(** ** mct.rs: nearest facet *)

(** mct.rs lines 302-306, macro [ab_cross_ac]. *)
Definition ab_cross_ac (ax ay bx by_ cx cy : F K) : F K :=
  (bx -. ax) *. (cy -. ay) -. (by_ -. ay) *. (cx -. ax).

(** mct.rs lines 284-299, macro [belongs_or_return]: [true] when the point is
    rejected on that axis. *)
Definition axis_rejects (a0 a1 a2 x : F K) : bool :=
  let tol := flit (1 # 1000000000) in
  let below := (a0 >. (x +. tol)) && (a1 >. (x +. tol)) && (a2 >. (x +. tol)) in
  let above := (a0 <. (x -. tol)) && (a1 <. (x -. tol)) && (a2 <. (x -. tol)) in
  below || above.

(** mct.rs lines 402-413: the final test on the three cross products. *)
Definition crosses_agree (c0 c1 c2 : F K) : bool :=
  let tol := flit (1 # 1000000000) *. fabs (c0 +. c1 +. c2) in
  ((c0 >. (-. tol)) && (c1 >. (-. tol)) && (c2 >. (-. tol)))
  || ((c0 <. tol) && (c1 <. tol) && (c2 <. tol)).

(** mct.rs lines 275-414, [mct_nf_3dg_dist_to_segment]. *)
Definition dist_to_segment (pt : vec K) (pl : plane K) (fc : vec K * vec K * vec K) : bool :=
  let '(q0, q1, q2) := fc in
  let pfive := flit (1 # 2) in
  if fabs (pl_c pl) >. pfive then
    if axis_rejects (vx q0) (vx q1) (vx q2) (vx pt) then false else
    if axis_rejects (vy q0) (vy q1) (vy q2) (vy pt) then false else
    crosses_agree (ab_cross_ac (vx q0) (vy q0) (vx q1) (vy q1) (vx pt) (vy pt))
                  (ab_cross_ac (vx q1) (vy q1) (vx q2) (vy q2) (vx pt) (vy pt))
                  (ab_cross_ac (vx q2) (vy q2) (vx q0) (vy q0) (vx pt) (vy pt))
  else if fabs (pl_b pl) >. pfive then
    if axis_rejects (vx q0) (vx q1) (vx q2) (vx pt) then false else
    if axis_rejects (vz q0) (vz q1) (vz q2) (vz pt) then false else
    crosses_agree (ab_cross_ac (vz q0) (vx q0) (vz q1) (vx q1) (vz pt) (vx pt))
                  (ab_cross_ac (vz q1) (vx q1) (vz q2) (vx q2) (vz pt) (vx pt))
                  (ab_cross_ac (vz q2) (vx q2) (vz q0) (vx q0) (vz pt) (vx pt))
  else if fabs (pl_a pl) >. pfive then
    if axis_rejects (vz q0) (vz q1) (vz q2) (vz pt) then false else
    if axis_rejects (vy q0) (vy q1) (vy q2) (vy pt) then false else
    crosses_agree (ab_cross_ac (vy q0) (vz q0) (vy q1) (vz q1) (vy pt) (vz pt))
                  (ab_cross_ac (vy q1) (vz q1) (vy q2) (vz q2) (vy pt) (vz pt))
                  (ab_cross_ac (vy q2) (vz q2) (vy q0) (vz q0) (vy pt) (vz pt))
  else crosses_agree f0 f0 f0.

(** mct.rs lines 152-171: distance to one facet; the value stays [huge]
    when the facet is not hit. *)
Definition facet_distance (m : mesh K) (cell : N) (coords direction : vec K) (plane_tolerance : F K)
    (facet_idx : N) (pl : plane K) : result (F K) :=
  let numerator := (-. f1) *. (pl_a pl *. vx coords +. pl_b pl *. vy coords +. pl_c pl *. vz coords +. pl_d pl) in
  let facet_normal_dot_dcos := pl_a pl *. vx direction +. pl_b pl *. vy direction +. pl_c pl *. vz direction in
  if (facet_normal_dot_dcos <=. f0)
     || ((numerator <. f0) && ((numerator *. numerator) >. plane_tolerance))
  then Ok fhuge
  else
    do fc <- get_facet_coords m cell facet_idx ;
    let distance := numerator /. facet_normal_dot_dcos in
    let intersection_pt := vadd coords (vscale direction distance) in
    Ok (if dist_to_segment intersection_pt pl fc then distance else fhuge).

(** mct.rs lines 147-171: all the distances, the facet index is the position.
    The array has 24 entries and so has the array of planes. *)
Fixpoint facet_distances (m : mesh K) (cell : N) (coords direction : vec K) (tol : F K)
    (facet_idx : N) (planes : list (plane K)) : result (list (F K)) :=
  match planes with
  | [] => Ok []
  | pl :: planes =>
      do d <- facet_distance m cell coords direction tol facet_idx pl ;
      do ds <- facet_distances m cell coords direction tol (N.succ facet_idx) planes ;
      Ok (d :: ds)
  end.

(** facets.rs lines 70-77, [MCNearestFacet]: (facet, distance).  The field
    [dot_product] is always the default zero (no code assigns it) and is left out; see
    [outcome_after]. *)
Definition nearest : Type := N * F K.

(** mct.rs lines 210-219: smallest positive distance, ties to the last. *)
Fixpoint nearest_positive (i : N) (ds : list (F K)) (acc : nearest) : nearest :=
  match ds with
  | [] => acc
  | d :: ds =>
      let acc := if d >. f0 then (if d <=. snd acc then (i, d) else acc) else acc in
      nearest_positive (N.succ i) ds acc
  end.
(** mct.rs lines 225-234: largest non positive distance, ties to the first. *)
Fixpoint nearest_negative (i : N) (ds : list (F K)) (acc : nearest) : nearest :=
  match ds with
  | [] => acc
  | d :: ds =>
      let acc := if d <=. f0 then (if d >. snd acc then (i, d) else acc) else acc in
      nearest_negative (N.succ i) ds acc
  end.
(** mct.rs lines 199-241, [mct_nf_compute_nearest]. *)
Definition compute_nearest (ds : list (F K)) : nearest :=
  let np := nearest_positive 0 ds (0, fhuge) in
  if negb (snd np ==. fhuge) then np else
  let nn := nearest_negative 0 ds (0, -. fhuge) in
  if negb (snd nn ==. -. fhuge) then nn else np.

(** mct.rs lines 243-273, [check_nearest_validity]: (retry, particle, iteration, move_factor). *)
Definition check_nearest_validity (p : particle K) (m : mesh K) (iteration : N) (move_factor : F K)
    (nf : nearest) : result (bool * particle K * N * F K) :=
  let max := fof_N 10000000 in
  if (snd nf ==. fhuge) || ((p_num_segments p >. max) && (snd nf <=. f0)) then
    do move_to <- cell_position_3dg m (p_cell p) ;
    let coord := p_coordinate p in
    let p := set_coordinate p (vadd coord (vscale (vsub move_to coord) move_factor)) in
    let iteration := iteration + 1 in
    let move_factor := fmin (flit (1 # 100)) (move_factor *. ftwo) in
    Ok (negb (iteration =? 1000), p, iteration, move_factor)
  else Ok (false, p, iteration, move_factor).

(** mct.rs lines 144-185: the loop.  [coords], [direction] and the tolerance
    were copied before the loop (lines 130-139), so they are the same at each iteration although
    the particle moves. *)
Fixpoint mct_nf_loop (fuel : nat) (m : mesh K) (coords direction : vec K) (tol : F K)
    (planes : list (plane K)) (p : particle K) (iteration : N) (move_factor : F K)
  : result (nearest * particle K) :=
  match fuel with
  | O => NoFuel
  | S fuel =>
      do ds <- facet_distances m (p_cell p) coords direction tol 0 planes ;
      let nf := compute_nearest ds in
      do (retry, p, iteration, move_factor) <- check_nearest_validity p m iteration move_factor nf ;
      if (retry : bool) then mct_nf_loop fuel m coords direction tol planes p iteration move_factor
      else Ok (nf, p)
  end.

(** mct.rs lines 126-186, [mct_nf_3dg].  The fuel 1000 is always enough
    ([NearestLemmas.search_first]). *)
Definition mct_nf_3dg (p : particle K) (m : mesh K) : result (nearest * particle K) :=
  let coords := p_coordinate p in
  let direction := p_direction p in
  let move_factor := flit (1 # 2) *. fsmall in
  let tol := flit (1 # 10000000000000000)
             *. (vx coords *. vx coords +. vy coords *. vy coords +. vz coords *. vz coords) in
  do planes <- vec_get (me_geom m) (p_cell p) ;
  mct_nf_loop 1000 m coords direction tol planes p 0 move_factor.

(** mct.rs lines 27-37, [nearest_facet]. *)
Definition nearest_facet (p : particle K) (m : mesh K) : result (nearest * particle K) :=
  do (nf, p) <- mct_nf_3dg p m ;
  let nf := (fst nf, fmax (snd nf) f0) in
  do _ <- rassert (snd nf <=. fhuge) ;
  Ok (nf, p).

(** mct.rs lines 107-120, [reflect_particle]. *)
Definition reflect_particle (p : particle K) (pl : plane K) : particle K :=
  let facet_normal := mkVec (pl_a pl) (pl_b pl) (pl_c pl) in
  let dot := ftwo *. vdot (p_direction p) facet_normal in
  if dot >. f0 then set_direction p (vsub (p_direction p) (vscale facet_normal dot)) else p.

(** ** Problem data *)

(** montecarlo.rs lines 30-45, [MonteCarloData], restricted to what tracking
    reads; the rest is in CycleModel. *)
Record track_data : Type := mkTrackData {
  td_dt : F K;                         (* params.simulation_params.dt *)
  td_nuclear : nuclear_data K;
  td_mats : list (material K)
}.

(** ** macro_cross_section.rs *)

(** macro_cross_section.rs lines 15-36. *)
Definition macroscopic_total_cross_section (td : track_data) (iso : isotope K) (cell_nb_density : F K)
    (energy_group : N) : result (F K) :=
  if (iso_atom_fraction iso ==. f0) || (cell_nb_density ==. f0)
  then Ok (flit (1 # 100000000000000000000))
  else
    do micro <- get_total_cross_section (td_nuclear td) (iso_gid iso) energy_group ;
    Ok (iso_atom_fraction iso *. cell_nb_density *. micro).

(** macro_cross_section.rs lines 43-62.  The code indexes [iso[isotope_idx]] for
    [isotope_idx] in [0..len]; here the list is traversed. *)
Definition weighted_macroscopic_cross_section (td : track_data) (mat_gid : N) (cell_nb_density : F K)
    (energy_group : N) : result (F K) :=
  do mat <- vec_get (td_mats td) mat_gid ;
  do l <- rmap (fun iso => macroscopic_total_cross_section td iso cell_nb_density energy_group) (mat_iso mat) ;
  Ok (fsum l).

(** ** mc_segment_outcome.rs *)

(** mc_segment_outcome.rs lines 28-35. *)
Inductive segment_outcome : Set := OutCollision | OutFacetCrossing | OutCensus.

(** mc_segment_outcome.rs lines 38-49: (min_dist, outcome); the three stored
    distances are never read and are left out. *)
Definition handler : Type := F K * segment_outcome.
(** lines 77-88. *)
Definition handler_default : handler := (fhuge, OutCollision).
(** lines 55-65. *)
Definition handler_update (h : handler) (o : segment_outcome) (d : F K) : handler :=
  if d <. fst h then (d, o) else h.

(** lines 122-138: cross-section of the cell, cached. *)
Definition cell_cross_section (td : track_data) (dom : domain K) (cell group : N) : result (F K) :=
  do cs <- vec_get (d_cells dom) cell ;
  weighted_macroscopic_cross_section td (cs_material cs) (cs_number_density cs) group.
Definition get_xs (td : track_data) (dom : domain K) (cell group : N) : prog (F K) :=
  LoadXs cell group (fun pcxs =>
    if pcxs >. f0 then Ret pcxs
    else pbind (lift (cell_cross_section td dom cell group))
               (fun tmp => StoreXs cell group tmp (Ret tmp))).

(** lines 140-219: the rest of [outcome], given the speed computed at line 112,
    the flag of line 114 and the cross-section. *)
Definition outcome_after (dom : domain K) (p : particle K) (speed : F K) (force_collision : bool) (xs : F K)
  : result (segment_outcome * particle K) :=
  let p := set_total_cross_section p xs in
  let p := set_mean_free_path p (if xs ==. f0 then fhuge else f1 /. xs) in
  let p := if p_num_mean_free_paths p ==. f0 then sample_num_mfp p else p in
  let h := handler_update handler_default OutCollision (p_num_mean_free_paths p *. p_mean_free_path p) in
  let h := handler_update h OutCensus (speed *. p_time_to_census p) in
  do (nf, p) <- nearest_facet p (d_mesh dom) ;
  let p := set_normal_dot p f0 in            (* line 168, dot_product is never set *)
  let h := handler_update h OutFacetCrossing (snd nf) in
  let h := if force_collision then (ftiny, OutCollision) else h in   (* lines 68-74, 175-177 *)
  let '(min_dist, o) := h in
  do _ <- rassert (f0 <=. min_dist) ;
  let p := set_segment_path_length p min_dist in
  let p := set_num_mean_free_paths p (p_num_mean_free_paths p -. p_segment_path_length p /. p_mean_free_path p) in
  let p :=
    match o with
    | OutCollision => set_last_event (set_num_mean_free_paths p f0) EvCollision
    | OutFacetCrossing => set_last_event (set_facet p (fst nf)) EvTransitExit
    | OutCensus => set_last_event (set_time_to_census p (fmin f0 (p_time_to_census p))) EvCensus
    end in
  if p_segment_path_length p ==. f0 then Ok (o, p) else
  let p := move_particle_along_segment p in
  let segment_path_time := p_segment_path_length p /. speed in
  let p := set_time_to_census p (p_time_to_census p -. segment_path_time) in
  let p := set_age p (p_age p +. segment_path_time) in
  let p := set_time_to_census p (fmax (p_time_to_census p) f0) in
  Ok (o, p).

(** lines 100-220, [outcome]. *)
Definition outcome (td : track_data) (dom : domain K) (p : particle K) : prog (segment_outcome * particle K) :=
  let speed := get_speed p in
  let force_collision := p_num_mean_free_paths p <. f0 in
  let p := if force_collision then set_num_mean_free_paths p fsmall else p in
  pbind (get_xs td dom (p_cell p) (p_energy_group p)) (fun xs =>
  lift (outcome_after dom p speed force_collision xs)).

(** ** collision_event.rs *)

(** collision_event.rs lines 46-58: the reactions of one isotope; [inr r]
    when reaction [r] makes the current cross-section negative. *)
Fixpoint pick_reaction (reactions : list (reaction K)) (atom_fraction cell_nb_density : F K) (group : N)
    (current : F K) : result (F K + reaction K) :=
  match reactions with
  | [] => Ok (inl current)
  | r :: rs =>
      do current <-
        (if (atom_fraction ==. f0) || (cell_nb_density ==. f0)
         then Ok (current -. flit (1 # 100000000000000000000))
         else do xs <- vec_get (r_cross_section r) group ;
              Ok (current -. atom_fraction *. cell_nb_density *. xs)) ;
      if current <. f0 then Ok (inr r)
      else pick_reaction rs atom_fraction cell_nb_density group current
  end.

(** collision_event.rs lines 44-62: one pass over the isotopes. *)
Fixpoint pick_isotope (nd : nuclear_data K) (isos : list (isotope K)) (cell_nb_density : F K) (group : N)
    (current : F K) : result (F K + reaction K) :=
  match isos with
  | [] => Ok (inl current)
  | iso :: isos =>
      do reactions <- vec_get (nd_isotopes nd) (iso_gid iso) ;
      do r <- pick_reaction reactions (iso_atom_fraction iso) cell_nb_density group current ;
      match r with
      | inr r => Ok (inr r)
      | inl current => pick_isotope nd isos cell_nb_density group current
      end
  end.

(** collision_event.rs lines 43-65: the [while] loop and the assertion.
    The material is indexed at each pass (line 44). *)
Fixpoint pick_loop (fuel : nat) (td : track_data) (mat_gid : N) (cell_nb_density : F K) (group : N)
    (current : F K) : result (reaction K) :=
  if f0 <=. current then
    match fuel with
    | O => NoFuel
    | S fuel =>
        do mat <- vec_get (td_mats td) mat_gid ;
        do r <- pick_isotope (td_nuclear td) (mat_iso mat) cell_nb_density group current ;
        match r with
        | inr r => Ok r
        | inl current => pick_loop fuel td mat_gid cell_nb_density group current
        end
    end
  else Panic.   (* line 64: reaction is None *)

(** collision_event.rs lines 76-91: tally. *)
Definition tally_collision (b : balance) (t : reaction_type) (n_out : N) : balance :=
  let b := binc b ECollision 1 in
  match t with
  | Scatter => binc b EScatter 1
  | Absorption => binc b EAbsorb 1
  | Fission => binc (binc b EFission 1) EProduce n_out
  end.

(** collision_event.rs lines 29-94, [collision_event]: (keep tracking, particle,
    balance, extra). *)
Definition collision_event (fuel : nat) (td : track_data) (b : balance) (mat_gid : N) (cell_nb_density : F K)
    (p : particle K) (extra : list (particle K))
  : result (bool * particle K * balance * list (particle K)) :=
  let (current, p) := get_current_xs p in
  do r <- pick_loop fuel td mat_gid cell_nb_density (p_energy_group p) current ;
  do mat <- vec_get (td_mats td) mat_gid ;
  do (n_out, p, sec) <- sample_collision p r (mat_mass mat) ;
  Ok (1 <=? n_out, p, tally_collision b (r_type r) n_out, extra ++ sec).

(** ** mc_facet_crossing_event.rs lines 19-49 *)
Definition facet_crossing_event (p : particle K) (fa : facet_adj) : result (particle K) :=
  match fa_event fa with
  | TransitOnProcessor =>
      do d <- unwrap (loc_domain (fa_adjacent fa)) ;
      do c <- unwrap (loc_cell (fa_adjacent fa)) ;
      do f <- unwrap (loc_facet (fa_adjacent fa)) ;
      Ok (set_last_event (set_facet (set_cell (set_domain p d) c) f) EvTransitExit)
  | BoundaryEscape => Ok (set_last_event p EvEscape)
  | BoundaryReflection => Ok (set_last_event p EvReflection)
  | TransitOffProcessor =>
      do d <- unwrap (loc_domain (fa_adjacent fa)) ;
      do c <- unwrap (loc_cell (fa_adjacent fa)) ;
      do f <- unwrap (loc_facet (fa_adjacent fa)) ;
      Ok (set_last_event (set_facet (set_cell (set_domain p d) c) f) EvCommunication)
  | AdjacencyUndefined => Panic
  end.

(** ** cycle_tracking.rs *)

(** What one iteration of the tracking loop leaves: (keep_tracking, particle, balance, extra). *)
Definition step_state : Type := bool * particle K * balance * list (particle K).

(** cycle_tracking.rs lines 74-87: collision. *)
Definition on_collision (cfuel : nat) (td : track_data) (dom : domain K) (p : particle K) (b : balance)
    (extra : list (particle K)) : result step_state :=
  do cs <- vec_get (d_cells dom) (p_cell p) ;
  do (keep, p, b, extra) <- collision_event cfuel td b (cs_material cs) (cs_number_density cs) p extra ;
  do g <- get_energy_groups (td_nuclear td) (p_kinetic_energy p) ;
  let p := set_energy_group p g in
  let p := if (keep : bool) then p else set_species p Unknown in
  Ok (keep, p, b, extra).

(** cycle_tracking.rs lines 88-124: facet crossing. *)
Definition on_facet (dom : domain K) (p : particle K) (b : balance) (extra : list (particle K))
  : result step_state :=
  do conn <- vec_get (me_conn (d_mesh dom)) (p_cell p) ;
  do fa <- vec_get (cc_facet conn) (p_facet p) ;
  do p <- facet_crossing_event p fa ;
  match p_last_event p with
  | EvTransitExit => Ok (true, p, b, extra)
  | EvReflection =>
      do planes <- vec_get (me_geom (d_mesh dom)) (p_cell p) ;
      do pl <- vec_get planes (p_facet p) ;
      Ok (true, reflect_particle p pl, b, extra)
  | EvCommunication => Panic       (* unimplemented!() *)
  | EvEscape =>
      Ok (false, set_species (set_last_event p EvEscape) Unknown, binc b EEscape 1, extra)
  | _ => Panic                     (* unreachable!() *)
  end.

(** cycle_tracking.rs lines 73-130: the event that ends the segment. *)
Definition after_segment (cfuel : nat) (td : track_data) (dom : domain K) (o : segment_outcome)
    (p : particle K) (b : balance) (extra : list (particle K)) : result step_state :=
  match o with
  | OutCollision => on_collision cfuel td dom p b extra
  | OutFacetCrossing => on_facet dom p b extra
  | OutCensus => Ok (false, p, binc b ECensus 1, extra)
  end.

(** cycle_tracking.rs lines 61-130: one iteration. *)
Definition track_step (cfuel : nat) (td : track_data) (dom : domain K) (p : particle K) (b : balance)
    (extra : list (particle K)) : prog step_state :=
  pbind (outcome td dom p) (fun op =>
  let '(o, p) := op in
  let b := binc b ENumSegments 1 in
  let p := set_num_segments p (p_num_segments p +. f1) in
  AddFlux (p_cell p) (p_energy_group p) (p_segment_path_length p *. p_weight p)
    (lift (after_segment cfuel td dom o p b extra))).

(** The result of tracking: (particle, balance, extra). *)
Definition track_state : Type := particle K * balance * list (particle K).

(** cycle_tracking.rs lines 51-136, [cycle_tracking_function]. *)
Fixpoint cycle_tracking_function (fuel cfuel : nat) (td : track_data) (dom : domain K) (p : particle K)
    (b : balance) (extra : list (particle K)) : prog track_state :=
  match fuel with
  | O => Stuck
  | S fuel =>
      pbind (track_step cfuel td dom p b extra) (fun s =>
      let '(keep, p, b, extra) := s in
      if (keep : bool) then cycle_tracking_function fuel cfuel td dom p b extra
      else Ret (p, b, extra))
  end.

(** cycle_tracking.rs lines 38-46. *)
Definition prepare_particle (td : track_data) (p : particle K) : result (particle K) :=
  let p := if p_time_to_census p <=. f0 then set_time_to_census p (p_time_to_census p +. td_dt td) else p in
  let p := set_age p (fmax (p_age p) f0) in
  do g <- get_energy_groups (td_nuclear td) (p_kinetic_energy p) ;
  Ok (set_energy_group p g).

(** cycle_tracking.rs lines 31-49, [cycle_tracking_guts]. *)
Definition cycle_tracking_guts (fuel cfuel : nat) (td : track_data) (dom : domain K) (p : particle K)
    (b : balance) (extra : list (particle K)) : prog track_state :=
  pbind (lift (prepare_particle td p)) (fun p => cycle_tracking_function fuel cfuel td dom p b extra).

(** particle_container.rs lines 101-111 and 140-148: tracking a slice of
    particles one after the other, with one balance and one extra collection. *)
Fixpoint track_slice (fuel cfuel : nat) (td : track_data) (dom : domain K) (ps : list (particle K))
    (b : balance) (extra : list (particle K)) : prog (list (particle K) * balance * list (particle K)) :=
  match ps with
  | [] => Ret ([], b, extra)
  | p :: ps =>
      pbind (cycle_tracking_guts fuel cfuel td dom p b extra) (fun s =>
      let '(p, b, extra) := s in
      pbind (track_slice fuel cfuel td dom ps b extra) (fun s =>
      let '(ps, b, extra) := s in Ret (p :: ps, b, extra)))
  end.

End Track.
Arguments prog : clear implicits.
Arguments track_data : clear implicits.
Arguments Ret {K A}. Arguments Fail {K A}. Arguments Stuck {K A}.
Arguments LoadXs {K A}. Arguments StoreXs {K A}. Arguments AddFlux {K A}.
