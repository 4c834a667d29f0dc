(** Claims about one flight segment (C11, C25, C26, C27, C28, C48). *)
From Coq Require Import NArith ZArith QArith Qreals List Bool String Reals Lra Lia.
From Flocq Require Import IEEE754.BinarySingleNaN.
From Verif Require Import Float RealOps RngModel RngIeee Ieee ParticleModel NuclearModel MeshTypes Balance TrackModel CycleModel
  GridModel AssignModel MeshModel Demo DemoRun TrackSpec CycleSpec PopSpec GridSpec MeshSpec IeeeEnergy RangeSpec DemoSound SegmentSpec NearestLemmas FacetLemmas
  SegmentFacts SegmentDefined SegmentDemo CrossingLemmas ClockIeee MeshProps.
Import ListNotations.

(** ** C11 (the remaining part): no time is left to the particles kept for the next cycle *)

(** In exact arithmetic, for any duration of the time step that is not negative. *)
Theorem c11_kept_at_census_exact : forall fuel cf (md : mcdata Rops) d n s, (0 <= td_dt (mc_track md))%R ->
  run_steps fuel cf md (initial_sim md d) n (Ok s) -> (n <= sp_n_steps (mc_params md))%N ->
  Forall (fun p : particle Rops => p_species p = Known /\ p_last_event p = EvCensus /\ p_time_to_census p = 0%R /\
            (0 <= p_num_mean_free_paths p)%R /\ (0 <= p_age p)%R) (processed (s_cont s)).
Proof. exact kept_at_census. Qed.
Print Assumptions c11_kept_at_census_exact.

(** In binary64 arithmetic, whatever the mathematical library. *)
Theorem c11_kept_at_census : forall lm fuel cf (md : mcdata (f64ops lm)) d n s, bounded_params lm md ->
  is_finite (td_dt (mc_track md) : f64) = true -> fle f0 (td_dt (mc_track md)) = true ->
  run_steps fuel cf md (initial_sim md d) n (Ok s) -> (n <= sp_n_steps (mc_params md))%N ->
  Forall (fun p : particle (f64ops lm) => p_species p = Known /\ p_last_event p = EvCensus /\ p_time_to_census p = f0)
    (processed (s_cont s)).
Proof. exact kept_at_census64. Qed.
Print Assumptions c11_kept_at_census.

Example c11_census_example : exists (md : mcdata K64) d s,
  bounded_params approx_libm md /\ is_finite (td_dt (mc_track md) : f64) = true /\ fle f0 (td_dt (mc_track md)) = true /\
  run_steps 200 20 md (initial_sim md d) 2 (Ok s) /\ (2 <= sp_n_steps (mc_params md))%N.
Proof. exact demo_census_run. Qed.

(** ** C25: the next event is the nearest one *)

(** A particle with a negative number of mean free paths collides at the tiny distance.  Otherwise the
    event is the first of the three: [n] mean free paths for the cross section found, the flight until
    census, the facet ahead. *)
Theorem c25_next_event_nearest : forall td dom (p : particle Rops) ng m o q m',
  run_seq ng (outcome td dom p) m = Ok ((o, q), m') ->
  (p_num_mean_free_paths p < 0 /\ o = OutCollision /\ p_segment_path_length q = tiny)%R \/
  ((0 <= p_num_mean_free_paths p)%R /\
   exists xs n ds i df, xs_found td dom ng m p xs /\ paths_left p n /\ distances_now (d_mesh dom) p ds /\ facet_choice ds i df /\
    first_event (Rmin huge (n * mean_path xs)) (get_speed p * p_time_to_census p) df o (p_segment_path_length q) /\
    (o = OutFacetCrossing -> p_facet q = i) /\
    ((df < huge)%R -> (p_num_segments p <= 10000000)%R ->
     p_coordinate q = along (p_coordinate p) (p_direction p) (p_segment_path_length q))).
Proof. exact outcome_nearest. Qed.
Print Assumptions c25_next_event_nearest.

Example c25_example : exists q m', run_seq 1 (outcome room_td room_dom start) room_mem = Ok ((OutFacetCrossing, q), m').
Proof. exact demo_outcome. Qed.

(** With a complete mesh, a particle in one of its cells, and a time, a speed and a cross section that
    are not negative, the segment has an outcome. *)
Theorem c25_outcome_defined : forall (dom : domain Rops) (p : particle Rops) (speed : R) force (xs : R),
  complete_geometry (d_mesh dom) -> (p_cell p < N.of_nat (List.length (me_conn (d_mesh dom))))%N ->
  (0 <= speed)%R -> (0 <= xs)%R -> on_time p ->
  exists o q, outcome_after dom p speed force xs = Ok (o, q).
Proof. exact outcome_defined. Qed.
Print Assumptions c25_outcome_defined.

Example c25_defined_example : complete_geometry (d_mesh room_dom) /\
  (p_cell start < N.of_nat (List.length (me_conn (d_mesh room_dom))))%N /\ (0 <= get_speed start)%R /\ on_time start.
Proof.
  split; [exact room_complete|]. split; [reflexivity|]. split; [apply speed_nonneg|]. split; cbn; lra.
Qed.

(** ** C26: the clock of a particle *)

(** Along a track the time to census does not increase, the age does not decrease, their sum does not
    increase, for the particle and for those it creates; at census no time is left. *)
Theorem c26_clock : forall td dom (p : particle Rops) evs p' nx, track_path td dom p evs p' nx -> on_time p ->
  Forall (fun q : particle Rops => on_time q /\ later p q) (p' :: nx) /\
  (p_species p = Known -> p_species p' = Known -> p_time_to_census p' = 0%R).
Proof. exact path_clock. Qed.
Print Assumptions c26_clock.

(** When all the materials are heavier than a neutron and the energy is positive, age and time to
    census have a constant sum. *)
Theorem c26_clock_constant : forall td dom (p : particle Rops) evs p' nx, track_path td dom p evs p' nx -> on_time p ->
  heavy td -> (0 < p_kinetic_energy p)%R ->
  Forall (fun q : particle Rops => age_at_census q = age_at_census p /\ (0 < p_kinetic_energy q)%R) (p' :: nx).
Proof. exact path_clock_exact. Qed.
Print Assumptions c26_clock_constant.

Example c26_example : (exists p', track_path room_td room_dom start [SegFacet BoundaryReflection; SegCensus] p' []) /\
  on_time start /\ heavy room_td /\ (0 < p_kinetic_energy start)%R.
Proof.
  split; [exact demo_track|]. split; [split; cbn; lra|]. split; [constructor|].
  cbn [p_kinetic_energy start flyer set_num_mean_free_paths set_time_to_census set_kinetic_energy]. unfold neutron_mass_energy.
  cbn [flit Rops]. unfold Q2R. cbn. lra.
Qed.

(** ** C27: the facet ahead *)

(** The distance computed for one facet is the one at which the flight meets its plane, provided the
    facet is flown out through and met within its corners; otherwise it is huge. *)
Theorem c27_facet_distance : forall (m : mesh Rops) cell (x u : vec Rops) tol i (pl : plane Rops) d,
  facet_distance m cell x u tol i pl = Ok d ->
  (exists fc, get_facet_coords m cell i = Ok fc /\ hits tol x u pl fc d) \/
  (d = huge /\ forall fc d', get_facet_coords m cell i = Ok fc -> ~ hits tol x u pl fc d').
Proof. exact facet_distance_right. Qed.
Print Assumptions c27_facet_distance.

(** The corners test: a point of the plane with barycentric coordinates that are not negative is
    accepted, and an accepted point has barycentric coordinates above -10^-9. *)
Theorem c27_inside_facet : forall (pl : plane Rops) (q0 q1 q2 pt : vec Rops) l0 l1 l2,
  plane_of pl q0 q1 q2 -> barycentric q0 q1 q2 pt l0 l1 l2 ->
  ((0 <= l0)%R -> (0 <= l1)%R -> (0 <= l2)%R -> dist_to_segment pt pl (q0, q1, q2) = true) /\
  (dist_to_segment pt pl (q0, q1, q2) = true -> (- / 1000000000 < l0 /\ - / 1000000000 < l1 /\ - / 1000000000 < l2)%R).
Proof. exact triangle_test. Qed.
Print Assumptions c27_inside_facet.

(** The facet chosen from the list of the distances. *)
Theorem c27_nearest_facet : forall ds : list R,
  let nf := compute_nearest (K := Rops) ds in facet_choice ds (fst nf) (Rmax (snd nf) 0).
Proof. exact choice_right. Qed.
Print Assumptions c27_nearest_facet.

Example c27_example :
  (exists ds, distances_now room start ds /\ forall k d, nth_error ds k = Some d -> d = 1%R) /\
  plane_of wall (v3 1 (-10) (-10)) (v3 1 10 (-10)) (v3 1 0 10) /\
  barycentric (v3 1 (-10) (-10)) (v3 1 10 (-10)) (v3 1 0 10) (v3 1 0 0) (1 / 4) (1 / 4) (1 / 2).
Proof.
  split; [|split].
  - destruct demo_outcome as (q & m' & H). destruct (outcome_nearest _ _ _ _ _ _ _ _ H) as [(C & _)|(_ & xs & n & ds & i & df & _ & _ & Hd & _)].
    + cbn in C. lra.
    + exists ds. split; [exact Hd|]. intros k d Hk. rewrite (towards start 0 ds eq_refl eq_refl eq_refl ltac:(lra) Hd k d Hk). lra.
  - exists 400%R. cbn [wall pl_a pl_b pl_c pl_d v3 vx vy vz]. repeat split; lra.
  - unfold barycentric. cbn [v3 vx vy vz]. repeat split; lra.
Qed.

(** ** C28: the search of the facet *)

(** The search never runs out of its 1000 iterations, more iterations change nothing, and its answer is
    the one computed from where the particle was at first; the retries only move the particle, and not
    where a facet is found. *)
Theorem c28_search_terminates : forall (K : FloatOps) (m : mesh K) (p : particle K),
  mct_nf_3dg p m <> NoFuel /\
  (forall nf p', mct_nf_3dg p m = Ok (nf, p') ->
    same_but_place p p' /\ exists ds, distances_now m p ds /\ nf = compute_nearest ds).
Proof. exact @search_first. Qed.
Print Assumptions c28_search_terminates.

Theorem c28_more_iterations : forall (K : FloatOps) (m : mesh K) x u tol pls (p : particle K) mf n, (1000 <= n)%nat ->
  mct_nf_loop n m x u tol pls p 0 mf = mct_nf_loop 1000 m x u tol pls p 0 mf.
Proof. exact @search_terminates. Qed.
Print Assumptions c28_more_iterations.

Theorem c28_found_stays : forall (K : FloatOps) (m : mesh K) (p : particle K) nf p', mct_nf_3dg p m = Ok (nf, p') ->
  feq (snd nf) fhuge = false -> flt (fof_N 10000000) (p_num_segments p) && fle (snd nf) f0 = false -> p' = p.
Proof. exact @search_stays. Qed.
Print Assumptions c28_found_stays.

Example c28_example : exists nf p', mct_nf_3dg start room = Ok (nf, p').
Proof. exact (search_ok room room_complete fourteen start eq_refl). Qed.

(** ** C48: crossing a facet *)

Theorem c48_crossing : forall (K : FloatOps) g bc p (dom : domain K) i c k fa pt b ex,
  built g bc p (d_mesh dom) -> local_to_global p i c -> facet_at (d_mesh dom) i k fa ->
  p_cell pt = N.of_nat i -> p_facet pt = N.of_nat k ->
  let at_boundary := on_boundary (g_dims g) (cell_idx_to_tuple (g_dims g) c) (k / 4) in
  (at_boundary = false -> exists j k' c' fa',
     on_facet dom pt b ex =
       Ok (true, set_last_event (set_facet (set_cell (set_domain pt 0) (N.of_nat j)) (N.of_nat k')) EvTransitExit, b, ex) /\
     local_to_global p j c' /\ cell_idx_to_tuple (g_dims g) c' = one_step (cell_idx_to_tuple (g_dims g) c) (k / 4) /\
     k' = paired k /\ facet_at (d_mesh dom) j k' fa' /\
     fa_adjacent fa' = mkLocation (Some 0%N) (Some (N.of_nat i)) (Some (N.of_nat k))) /\
  (at_boundary = true -> requested bc (k / 4) = Some BoundaryReflection -> exists planes pl,
     vec_get (me_geom (d_mesh dom)) (N.of_nat i) = Ok planes /\ vec_get planes (N.of_nat k) = Ok pl /\
     on_facet dom pt b ex = Ok (true, reflect_particle (set_last_event pt EvReflection) pl, b, ex)) /\
  (at_boundary = true -> requested bc (k / 4) = Some BoundaryEscape ->
     on_facet dom pt b ex = Ok (false, set_species (set_last_event pt EvEscape) Unknown, binc b EEscape 1, ex)).
Proof. exact @crossing. Qed.
Print Assumptions c48_crossing.

Example c48_example : exists p (dom : domain K64) i c k fa (pt : particle K64),
  built grid222 "octant" p (d_mesh dom) /\ local_to_global p i c /\ facet_at (d_mesh dom) i k fa /\
  p_cell pt = N.of_nat i /\ p_facet pt = N.of_nat k.
Proof.
  destruct c41_case as (p & m & i & c & k & fa & B & L & Fa & _).
  exists p, (mkDomain (K := K64) 0 [] m), i, c, k, fa, (set_facet (set_cell particle_default (N.of_nat i)) (N.of_nat k)). auto.
Qed.
