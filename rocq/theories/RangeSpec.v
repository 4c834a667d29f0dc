(** Vocabulary for the claims about array indices and about comparing two runs. *)
From Coq Require Import NArith QArith List Bool Permutation.
From Verif Require Import Float RngModel ParticleModel NuclearModel MeshTypes Balance TrackModel CycleModel ScheduleSpec.
Import ListNotations.
Local Open Scope N_scope.
Local Open Scope float_scope.

Section Spec.
Context {K : FloatOps}.

Definition energies (md : mcdata K) : list (F K) := nd_energies (td_nuclear (mc_track md)).
Definition last_energy (md : mcdata K) : option (F K) :=
  nth_error (energies md) (length (energies md) - 1).

(** The energies in [ok] are not above the last energy boundary, and the three ways in which a
    particle gets an energy (source, scattering, fission) give energies in [ok], whatever
    number in the range of the generator is drawn.  This is a condition on the arithmetic and
    on the parameters only. *)
Record safe_energies (md : mcdata K) (ok : F K -> Prop) : Prop := {
  se_source : forall s, s < two64 ->
    ok (fsample s *. (sp_e_max (mc_params md) -. sp_e_min (mc_params md)) +. sp_e_min (mc_params md));
  se_scatter : forall e s mat, ok e -> s < two64 -> In mat (td_mats (mc_track md)) ->
    ok (e *. (f1 -. fsample s *. (f1 /. mat_mass mat)));
  se_fission : forall s, s < two64 ->
    ok (flit (20 # 1) *. ((fsample s +. f1) /. ftwo) *. ((fsample s +. f1) /. ftwo));
  se_last : forall e el, ok e -> last_energy md = Some el -> (el <. e) = false
}.
Definition energies_bounded (md : mcdata K) : Prop := exists ok, safe_energies md ok.

(** One more energy boundary than groups, at least one group, and crossing a facet inside of the
    domain leads to a cell of the domain. *)
Record sound_problem (md : mcdata K) (dom : domain K) : Prop := {
  sd_groups : 0 < sp_n_groups (mc_params md);
  sd_energies : N.of_nat (length (energies md)) = sp_n_groups (mc_params md) + 1;
  sd_mesh : forall conn fa c, In conn (me_conn (d_mesh dom)) -> In fa (cc_facet conn) ->
    fa_event fa = TransitOnProcessor -> loc_cell (fa_adjacent fa) = Some c -> c < n_cells dom
}.

(** A particle in a cell of the domain, with an energy that is fine. *)
Definition placed (ok : F K -> Prop) (dom : domain K) (p : particle K) : Prop :=
  p_cell p < n_cells dom /\ ok (p_kinetic_energy p).

(** Two outcomes that agree: both are values related by [R], or none is a value. *)
Definition agree {A B} (R : A -> B -> Prop) (r1 : result A) (r2 : result B) : Prop :=
  match r1, r2 with
  | Ok a, Ok b => R a b
  | Ok _, _ | _, Ok _ => False
  | _, _ => True
  end.

(** Two states of the same problem that differ only by the order of the particles and by the
    contents of the flux tally and of the cache. *)
Record same_state (s1 s2 : sim K) : Prop := {
  ss_domain : u_domain (s_unit s1) = u_domain (s_unit s2);
  ss_balance : u_balance (s_unit s1) = u_balance (s_unit s2);
  ss_weight : u_weight (s_unit s1) = u_weight (s_unit s2);
  ss_processing : Permutation (processing (s_cont s1)) (processing (s_cont s2));
  ss_processed : Permutation (processed (s_cont s1)) (processed (s_cont s2));
  ss_extra : Permutation (extra_particles (s_cont s1)) (extra_particles (s_cont s2));
  ss_results : rs_balance (s_results s1) = rs_balance (s_results s2) /\
               rs_fluence (s_results s1) = rs_fluence (s_results s2) /\
               rs_spectrum (s_results s1) = rs_spectrum (s_results s2);
  ss_source : s_source_weight s1 = s_source_weight s2 /\ s_global_n s1 = s_global_n s2;
  ss_reports : map (fun r => (rp_cycle r, rp_balance r)) (s_reports s1)
             = map (fun r => (rp_cycle r, rp_balance r)) (s_reports s2)
}.

(** Same tallies, same processed particles in the same order, same new particles. *)
Definition same_round (x1 x2 : unit_state K * container K) : Prop :=
  let '(u1, c1) := x1 in
  let '(u2, c2) := x2 in
  u_domain u1 = u_domain u2 /\ u_weight u1 = u_weight u2 /\ u_balance u1 = u_balance u2 /\
  processing c1 = processing c2 /\ processed c1 = processed c2 /\
  Permutation (extra_particles c1) (extra_particles c2).

(** The states at the start of the tracking rounds of a cycle (main.rs lines 328-341). *)
Inductive round_start (fuel cfuel : nat) (md : mcdata K) (u0 : unit_state K) (c0 : container K)
  : unit_state K -> container K -> Prop :=
| round_first : round_start fuel cfuel md u0 c0 u0 c0
| round_next : forall u c u' c', round_start fuel cfuel md u0 c0 u c ->
    is_done_processing c = false ->
    process_particles fuel cfuel md u (sort_processing c) (Ok (u', c')) ->
    round_start fuel cfuel md u0 c0 u' (clean_extra_vaults c').

(** The states at the start of the tracking rounds of a run on the domain [d]. *)
Definition tracked (fuel cfuel : nat) (md : mcdata K) (d : domain K) (u : unit_state K) (c : container K) : Prop :=
  exists n s s1 u0 c0, n < sp_n_steps (mc_params md) /\
    run_steps fuel cfuel md (initial_sim md d) n (Ok s) /\ cycle_sync md n s = Ok s1 /\
    population_phase md s1 = Ok (u0, c0) /\ round_start fuel cfuel md u0 c0 u c.

(** The tracks of all the particles of a cycle, each alone: those given, then those they create,
    and so on. *)
Inductive solo_rounds (fuel cfuel : nat) (td : track_data K) (dom : domain K)
  : list (particle K) -> list track_result -> Prop :=
| solo_none : solo_rounds fuel cfuel td dom [] []
| solo_round : forall ps ps' rs next rs',
    Permutation ps ps' -> rmap (solo fuel cfuel td dom) ps' = Ok rs ->
    Permutation next (created rs) -> solo_rounds fuel cfuel td dom next rs' ->
    solo_rounds fuel cfuel td dom ps (rs ++ rs').

(** The threads are used by a parallel policy: when no chunk size is given there is at least one
    ([rayon::current_num_threads] is at least one, main.rs line 100). *)
Definition threads_ok (md : mcdata K) : Prop :=
  ei_policy (mc_exec md) = Rayon \/ ei_policy (mc_exec md) = Hybrid ->
  ei_chunk_size (mc_exec md) = 0 -> ei_n_rayon_threads (mc_exec md) <> 0.
(** The policies for which the main loop is implemented. *)
Definition implemented (md : mcdata K) : Prop :=
  ei_policy (mc_exec md) = Sequential \/ ei_policy (mc_exec md) = Rayon.

(** What a (cell, group) entry of the flux array should hold: the contributions of the segments
    in that cell and group added to what was there, in the order of the list. *)
Definition entry_sum (c g : N) (l : list contribution) (start : F K) : F K :=
  fold_left (fun acc x => let '(c', g', v) := x in if (c' =? c) && (g' =? g) then acc +. v else acc) l start.

End Spec.
