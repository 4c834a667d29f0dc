(** Vocabulary for the claims about parallel tracking: what a particle does when it is tracked
    alone, with no shared array at all. *)
From Coq Require Import NArith List Bool Permutation.
From Verif Require Import Float ParticleModel NuclearModel MeshTypes Balance TrackModel CycleModel.
Import ListNotations.
Local Open Scope N_scope.
Local Open Scope float_scope.

Section Spec.
Context {K : FloatOps}.

(** A contribution to the scalar flux: cell, energy group, path length times weight. *)
Definition contribution : Type := N * N * F K.

(** One segment of a particle alone: the cross section is computed afresh, the counters start
    from zero.  (goes on, particle, counters, created particles, contribution to the flux). *)
Definition solo_segment (cfuel : nat) (td : track_data K) (dom : domain K) (p : particle K)
  : result (bool * particle K * balance * list (particle K) * contribution) :=
  do xs <- cell_cross_section td dom (p_cell p) (p_energy_group p) ;
  let force := p_num_mean_free_paths p <. f0 in
  do (o, q) <- outcome_after dom (if force then set_num_mean_free_paths p fsmall else p) (get_speed p) force xs ;
  let q := set_num_segments q (p_num_segments q +. f1) in
  do (keep, p', b, nx) <- after_segment cfuel td dom o q (binc balance_zero ENumSegments 1) [] ;
  Ok (keep, p', b, nx, (p_cell p, p_energy_group p, p_segment_path_length q *. p_weight q)).

(** A whole track alone: final particle, counters, created particles, contributions in order. *)
Fixpoint solo_track (fuel cfuel : nat) (td : track_data K) (dom : domain K) (p : particle K)
  : result (particle K * balance * list (particle K) * list contribution) :=
  match fuel with
  | O => NoFuel
  | S fuel =>
      do (keep, p', b, nx, x) <- solo_segment cfuel td dom p ;
      if (keep : bool) then
        do (p'', b', nx', xs) <- solo_track fuel cfuel td dom p' ;
        Ok (p'', badd b b', nx ++ nx', x :: xs)
      else Ok (p', b, nx, [x])
  end.
Definition solo (fuel cfuel : nat) (td : track_data K) (dom : domain K) (p : particle K)
  : result (particle K * balance * list (particle K) * list contribution) :=
  do p <- prepare_particle td p ; solo_track fuel cfuel td dom p.

(** The states at the start of the segments of a particle. *)
Inductive reaches (td : track_data K) (dom : domain K) : particle K -> particle K -> Prop :=
| reach_here : forall p, reaches td dom p p
| reach_next : forall cfuel p p1 b nx x q,
    solo_segment cfuel td dom p = Ok (true, p1, b, nx, x) ->
    reaches td dom p1 q -> reaches td dom p q.

Definition n_cells (dom : domain K) : N := N.of_nat (length (d_cells dom)).
Definition in_range (dom : domain K) (ng c g : N) : Prop := c < n_cells dom /\ g < ng.

(** During its whole track the particle is in a cell of the domain and in one of the [ng]
    energy groups. *)
Definition stays_in_range (td : track_data K) (dom : domain K) (ng : N) (p : particle K) : Prop :=
  forall p0 q, prepare_particle td p = Ok p0 -> reaches td dom p0 q ->
  in_range dom ng (p_cell q) (p_energy_group q).

(** An entry of the cross-section cache is right: empty, or what a computation would give. *)
Definition cached (td : track_data K) (dom : domain K) (c g : N) (v : F K) : Prop :=
  v = f0 \/ cell_cross_section td dom c g = Ok v.

(** The two arrays have one entry per cell and group, and the cache is right. *)
Record sound_mem (td : track_data K) (dom : domain K) (ng : N) (m : mem K) : Prop := {
  sm_cache_size : N.of_nat (length (m_cache m)) = n_cells dom * ng;
  sm_flux_size : N.of_nat (length (m_flux m)) = n_cells dom * ng;
  sm_cached : forall c g v, in_range dom ng c g ->
    nth_error (m_cache m) (N.to_nat (slot ng c g)) = Some v -> cached td dom c g v
}.

(** The flux array once the contributions of a list have been added one after the other. *)
Definition add_contribution (ng : N) (fl : list (F K)) (x : contribution) : list (F K) :=
  let '(c, g, v) := x in
  match nth_error fl (N.to_nat (slot ng c g)) with
  | Some old => list_set fl (N.to_nat (slot ng c g)) (old +. v)
  | None => fl
  end.
Definition flux_with (ng : N) (fl : list (F K)) (l : list contribution) : list (F K) :=
  fold_left (add_contribution ng) l fl.

(** The parts of a list of solo tracks. *)
Definition track_result : Type := particle K * balance * list (particle K) * list contribution.
Definition finals (rs : list track_result) : list (particle K) := map (fun '(p, _, _, _) => p) rs.
Definition counters (rs : list track_result) : balance := bsum (map (fun '(_, b, _, _) => b) rs).
Definition created (rs : list track_result) : list (particle K) := concat (map (fun '(_, _, nx, _) => nx) rs).
Definition contributions (rs : list track_result) : list contribution := concat (map (fun '(_, _, _, l) => l) rs).

(** The same problem run by another number of threads, chunk size or policy; one unit in both. *)
Definition same_problem (md1 md2 : mcdata K) : Prop :=
  mc_params md1 = mc_params md2 /\ mc_track md1 = mc_track md2 /\
  mc_material_params md1 = mc_material_params md2 /\
  ei_n_units (mc_exec md1) = ei_n_units (mc_exec md2).

End Spec.
