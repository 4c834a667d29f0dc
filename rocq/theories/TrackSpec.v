(** Vocabulary for the claims about one cycle: the history of a tracked particle and what each
    counter is meant to count. *)
From Coq Require Import NArith List Bool.
From Verif Require Import Float ParticleModel NuclearModel MeshTypes Balance TrackModel.
Import ListNotations.
Local Open Scope N_scope.

(** What can happen to a particle at the end of a segment: a collision of some kind with a
    number of outgoing particles, the crossing of a facet of some kind, or the end of the cycle. *)
Inductive seg_event : Set :=
| SegCollision : reaction_type -> N -> seg_event
| SegFacet : adj_event -> seg_event
| SegCensus : seg_event.

(** By how much an event should change each counter. *)
Definition counts (k : tallied_event) (e : seg_event) : N :=
  match k, e with
  | ENumSegments, _ => 1
  | ECensus, SegCensus => 1
  | EEscape, SegFacet BoundaryEscape => 1
  | ECollision, SegCollision _ _ => 1
  | EScatter, SegCollision Scatter _ => 1
  | EAbsorb, SegCollision Absorption _ => 1
  | EFission, SegCollision Fission _ => 1
  | EProduce, SegCollision Fission n => n
  | _, _ => 0
  end.

Fixpoint total (f : seg_event -> N) (evs : list seg_event) : N :=
  match evs with [] => 0 | e :: evs => f e + total f evs end.

Definition is_crossing (e : seg_event) : N := match e with SegFacet _ => 1 | _ => 0 end.

(** Number of valid particles in a list. *)
Definition valid_count {K : FloatOps} (ps : list (particle K)) : N :=
  N.of_nat (length (filter (fun p => match p_species p with Known => true | Unknown => false end) ps)).
Definition all_valid {K : FloatOps} (ps : list (particle K)) : Prop :=
  Forall (fun p => p_species p = Known) ps.

Section Path.
Context {K : FloatOps}.

(** A particle whose number of mean free paths is negative has to collide; it enters the segment
    with a small positive number instead (mc_segment_outcome.rs lines 114-117). *)
Definition out_of_paths (p : particle K) : bool := flt (p_num_mean_free_paths p) f0.
Definition entering (p : particle K) : particle K :=
  if out_of_paths p then set_num_mean_free_paths p fsmall else p.

(** One segment of a track, the value [xs] of the cross section being whatever was found:
    the particle [p] becomes [p'], creates [nx] and continues when [keep]. *)
Inductive seg_step (td : track_data K) (dom : domain K)
  : particle K -> seg_event -> bool -> particle K -> list (particle K) -> Prop :=
| ss_collision : forall p xs p1 cs cur p2 cfuel r mat n p3 nx g p',
    outcome_after dom (entering p) (get_speed p) (out_of_paths p) xs = Ok (OutCollision, p1) ->
    let p1' := set_num_segments p1 (fadd (p_num_segments p1) f1) in
    vec_get (d_cells dom) (p_cell p1) = Ok cs ->
    get_current_xs p1' = (cur, p2) ->
    pick_loop cfuel td (cs_material cs) (cs_number_density cs) (p_energy_group p2) cur = Ok r ->
    vec_get (td_mats td) (cs_material cs) = Ok mat ->
    sample_collision p2 r (mat_mass mat) = Ok (n, p3, nx) ->
    get_energy_groups (td_nuclear td) (p_kinetic_energy p3) = Ok g ->
    p' = (let p4 := set_energy_group p3 g in if 1 <=? n then p4 else set_species p4 Unknown) ->
    seg_step td dom p (SegCollision (r_type r) n) (1 <=? n) p' nx
| ss_facet : forall p xs p1 conn fa p2 p' ,
    outcome_after dom (entering p) (get_speed p) (out_of_paths p) xs = Ok (OutFacetCrossing, p1) ->
    let p1' := set_num_segments p1 (fadd (p_num_segments p1) f1) in
    vec_get (me_conn (d_mesh dom)) (p_cell p1) = Ok conn ->
    vec_get (cc_facet conn) (p_facet p1) = Ok fa ->
    facet_crossing_event p1' fa = Ok p2 ->
    match fa_event fa with
    | TransitOnProcessor => p' = p2
    | BoundaryReflection =>
        exists planes pl, vec_get (me_geom (d_mesh dom)) (p_cell p2) = Ok planes /\
          vec_get planes (p_facet p2) = Ok pl /\ p' = reflect_particle p2 pl
    | BoundaryEscape => p' = set_species (set_last_event p2 EvEscape) Unknown
    | _ => False
    end ->
    seg_step td dom p (SegFacet (fa_event fa))
      (match fa_event fa with BoundaryEscape => false | _ => true end) p' []
| ss_census : forall p xs p1,
    outcome_after dom (entering p) (get_speed p) (out_of_paths p) xs = Ok (OutCensus, p1) ->
    seg_step td dom p SegCensus false (set_num_segments p1 (fadd (p_num_segments p1) f1)) [].

(** A whole track: the events in order, the particle at the end and the particles created. *)
Inductive track_path (td : track_data K) (dom : domain K)
  : particle K -> list seg_event -> particle K -> list (particle K) -> Prop :=
| tp_last : forall p e p' nx,
    seg_step td dom p e false p' nx -> track_path td dom p [e] p' nx
| tp_more : forall p e p1 nx1 evs p' nx2,
    seg_step td dom p e true p1 nx1 -> track_path td dom p1 evs p' nx2 ->
    track_path td dom p (e :: evs) p' (nx1 ++ nx2).

End Path.
