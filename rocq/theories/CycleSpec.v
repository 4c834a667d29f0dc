(** Vocabulary for the claims about cycles and runs. *)
From Coq Require Import NArith List Bool Permutation.
From Verif Require Import Float ParticleModel NuclearModel MeshTypes Balance TrackModel CycleModel TrackSpec.
Import ListNotations.
Local Open Scope N_scope.

(** The conservation law of a cycle, as the benchmark report states it. *)
Definition conserved (b : balance) : Prop :=
  bget b EStart + bget b ESource + bget b EProduce + bget b ESplit
  = bget b EAbsorb + bget b ECensus + bget b EEscape + bget b EOverRr + bget b EWeightRr + bget b EFission.

Section Spec.
Context {K : FloatOps}.

(** Tracking the particles of a list, each independently: for each particle its preparation and
    its track; the final particles in order, the events of each track, the created particles. *)
Inductive slice_paths (td : track_data K) (dom : domain K)
  : list (particle K) -> list (particle K) -> list (list seg_event) -> list (particle K) -> Prop :=
| sp_nil : slice_paths td dom [] [] [] []
| sp_cons : forall p q p' ps ps' evs evss nx nxs,
    prepare_particle td p = Ok q -> track_path td dom q evs p' nx ->
    slice_paths td dom ps ps' evss nxs ->
    slice_paths td dom (p :: ps) (p' :: ps') (evs :: evss) (nx ++ nxs).

(** All the rounds of a cycle: a population is tracked, then the particles it created, and so
    on until no particle is created.  The events of the cycle and the particles that reached
    the end of the cycle, in the order in which they are kept. *)
Inductive rounds_paths (td : track_data K) (dom : domain K)
  : list (particle K) -> list seg_event -> list (particle K) -> Prop :=
| rp_done : rounds_paths td dom [] [] []
| rp_more : forall ps ps0 ps1 evss nxs next evs kept,
    Permutation ps ps0 -> slice_paths td dom ps0 ps1 evss nxs ->
    Permutation next nxs -> rounds_paths td dom next evs kept ->
    rounds_paths td dom ps (concat evss ++ evs) (filter is_valid ps1 ++ kept).

(** What a cycle did to the population: [start] particles were there, [sourced] were created by
    the source, population control removed and added some, which left [tracked]; tracking them
    produced the events [evs] and kept [kept]. *)
Record cycle_story (td : track_data K) (dom : domain K)
    (start sourced tracked : list (particle K)) (evs : list seg_event) (kept : list (particle K)) (b : balance) : Prop := {
  st_start : bget b EStart = N.of_nat (length start);
  st_source : bget b ESource = N.of_nat (length sourced);
  st_control : N.of_nat (length tracked) + bget b EOverRr + bget b EWeightRr
               = N.of_nat (length start) + N.of_nat (length sourced) + bget b ESplit;
  st_tracks : rounds_paths td dom tracked evs kept;
  st_valid : all_valid start /\ all_valid sourced /\ all_valid tracked /\ all_valid kept;
  st_counts : forall k, In k [EAbsorb; ECensus; EEscape; ECollision; EFission; EProduce; EScatter; ENumSegments] ->
                bget b k = total (counts k) evs;
  st_census : bget b ECensus = N.of_nat (length kept)
}.

(** The reported balances of a run tell what happened: cycle after cycle, the particles kept by
    one cycle are those the next one starts with, and the reported end is the number of particles kept. *)
Inductive run_story (td : track_data K) (m : mesh K) : list balance -> list (particle K) -> Prop :=
| rst_nil : run_story td m [] []
| rst_snoc : forall l start dom sourced tracked evs kept b,
    run_story td m l start ->
    d_mesh dom = m ->
    cycle_story td dom start sourced tracked evs kept b ->
    bget b EEnd = N.of_nat (length kept) ->
    run_story td m (l ++ [b]) kept.

(** The balances reported by a run, cycle after cycle: the first starts from nothing, each other
    starts with what the previous one left. *)
Fixpoint chained (start : N) (l : list balance) : Prop :=
  match l with
  | [] => True
  | b :: l => bget b EStart = start /\ chained (bget b EEnd) l
  end.

(** What every reported balance satisfies; [n] is the number of facet crossings. *)
Record good_balance (b : balance) (n : N) : Prop := {
  gb_conserved : conserved b;
  gb_end : bget b EEnd = bget b ECensus;
  gb_collision : bget b ECollision = bget b EScatter + bget b EAbsorb + bget b EFission;
  gb_segments : bget b ENumSegments = bget b ECollision + bget b ECensus + n
}.

(** One cycle of a run: synchronisation (end of the previous cycle, preparation of this one),
    then source, population control and tracking. *)
Inductive cycle (fuel cfuel : nat) (md : mcdata K) (step : N) : sim K -> sim K -> sim K -> Prop :=
| a_cycle : forall s s1 s2,
    cycle_sync md step s = Ok s1 -> cycle_process fuel cfuel md s1 (Ok s2) ->
    cycle fuel cfuel md step s s1 s2.

End Spec.
