(** Vocabulary for the claims about the population: source, splitting and roulette, sorting, chunks. *)
From Coq Require Import NArith ZArith QArith List Bool Permutation Reals.
From Flocq Require Import Core.
From Verif Require Import Float RealOps RngModel RngSpec ParticleModel NuclearModel MeshTypes Balance TrackModel CycleModel.
Import ListNotations.
Local Open Scope N_scope.

Section Spec.
Context {K : FloatOps}.

(** ** Source *)

(** Every cell has its own range of 2^32 numbers for the particles it creates, and the ranges of
    different cells are different. *)
Definition ids_apart (cells : list (cell_state K)) : Prop :=
  Forall (fun cs => exists g, g < 2 ^ 32 /\ cs_id cs = g * 2 ^ 32) cells /\ NoDup (map cs_id cells).

(** The particles created by the source during the first [n] cycles of a run. *)
Inductive run_sourced (fuel cfuel : nat) (md : mcdata K) (d : domain K) : N -> sim K -> list (particle K) -> Prop :=
| so_start : run_sourced fuel cfuel md d 0 (initial_sim md d) []
| so_cycle : forall n s ps s1 u c new s2, run_sourced fuel cfuel md d n s ps ->
    cycle_sync md n s = Ok s1 ->
    source_now md (s_source_weight s1) (s_unit s1) (s_cont s1) = Ok (u, c) ->
    processing c = processing (s_cont s1) ++ new ->
    cycle_process fuel cfuel md s1 (Ok s2) ->
    run_sourced fuel cfuel md d (N.succ n) s2 (ps ++ new).

(** Every cell of the mesh has its 24 facets and every point used by a cell is a node of the mesh. *)
Definition complete_mesh (m : mesh K) : Prop :=
  Forall (fun cc => length (cc_facet cc) = 24%nat /\
    Forall (fun i => i < N.of_nat (length (me_node m))) (cc_point cc) /\
    Forall (fun fa => let '(a, b, c) := fa_point fa in
      Forall (fun i => i < N.of_nat (length (me_node m))) [a; b; c]) (cc_facet cc)) (me_conn m).

(** [x] is the weight that a cell emits during a time step: volume times source rate of its material
    times duration. *)
Definition emits (md : mcdata K) (cs : cell_state K) (x : F K) : Prop :=
  exists mat mp, nth_error (td_mats (mc_track md)) (N.to_nat (cs_material cs)) = Some mat /\
    map_index (mc_material_params md) (mat_name mat) = Ok mp /\
    x = fmul (fmul (cs_volume cs) (mp_source_rate mp)) (td_dt (mc_track md)).
(** Every material of the problem has parameters. *)
Definition materials_known (md : mcdata K) : Prop :=
  Forall (fun mat => exists mp, map_index (mc_material_params md) (mat_name mat) = Ok mp) (td_mats (mc_track md)).
(** [cs'] is [cs] after it has created [n] particles. *)
Definition has_emitted (n : N) (cs cs' : cell_state K) : Prop :=
  cs' = mkCellState (cs_material cs) (cs_volume cs) (cs_number_density cs) (cs_id cs) (cs_source_tally cs + n).

(** ** Population control *)

(** Two particles that differ at most by their weight, seed and identifier. *)
Definition same_but_weight (p q : particle K) : Prop :=
  set_weight (set_random_number_seed (set_identifier q (p_identifier p)) (p_random_number_seed p)) (p_weight p) = p.

(** The number drawn by a particle. *)
Definition next_draw (p : particle K) : F K := fsample (rng_next (p_random_number_seed p)).
(** [p] after a draw, with a new weight. *)
Definition reweighted (p : particle K) (w : F K) : particle K :=
  set_weight (set_random_number_seed p (rng_next (p_random_number_seed p))) w.

(** What a roulette with survival probability [f] leaves of a particle. *)
Definition roulette (f : F K) (p : particle K) : list (particle K) :=
  if flt f (next_draw p) then [] else [reweighted p (fdiv (p_weight p) f)].
(** What the roulette of light particles leaves of a particle. *)
Definition low_weight_roulette (cutoff source_weight : F K) (p : particle K) : list (particle K) :=
  if fle (p_weight p) (fmul cutoff source_weight)
  then if fle (next_draw p) cutoff then [reweighted p (fdiv (p_weight p) cutoff)] else []
  else [p].
(** [q] and its copies [l] are what splitting by [f] makes of [p]. *)
Definition is_split (f : F K) (p q : particle K) (l : list (particle K)) : Prop :=
  Forall (fun x => same_but_weight p x /\ p_weight x = fdiv (p_weight p) f) (q :: l) /\
  p_identifier q = p_identifier p /\
  p_random_number_seed q = seed_after (S (length l)) (p_random_number_seed p) /\
  map p_random_number_seed l = spawned_by (repeat true (length l)) (rng_next (p_random_number_seed p)) /\
  map p_identifier l = map p_random_number_seed l /\
  fto_usize (if flt (fsub f (ffloor f)) (next_draw p) then fsub (ffloor f) f1 else ffloor f) = Some (N.of_nat (length l)).

(** ** Sorting *)

(** The key: (cell, energy group), in lexicographic order. *)
Definition key (p : particle K) : N * N := (p_cell p, p_energy_group p).
Definition key_le (a b : N * N) : Prop := fst a < fst b \/ (fst a = fst b /\ snd a <= snd b).
Definition has_key (k : N * N) (p : particle K) : bool := (p_cell p =? fst k) && (p_energy_group p =? snd k).
(** [l'] is [l] sorted by the key, particles with the same key being in the same order as in [l]. *)
Definition stable_sort_of (l l' : list (particle K)) : Prop :=
  Permutation l l' /\
  (forall i j p q, (i < j)%nat -> nth_error l' i = Some p -> nth_error l' j = Some q -> key_le (key p) (key q)) /\
  (forall k, filter (has_key k) l' = filter (has_key k) l).

(** ** Current population *)

(** The number of particles the target is compared to: with load balance the size of the population,
    without it the number foreseen before the source. *)
Definition current_number (md : mcdata K) (s : sim K) (c : container K) : N :=
  if sp_load_balance (mc_params md) then N.of_nat (length (processing c)) else s_global_n s.

End Spec.

(** The real numbers with a fixed outcome [r] for every draw. *)
Definition Rops_at (r : R) : FloatOps := {|
  F := R; f0 := @f0 Rops; f1 := @f1 Rops;
  fadd := @fadd Rops; fsub := @fsub Rops; fmul := @fmul Rops; fdiv := @fdiv Rops; fneg := @fneg Rops; fabs := @fabs Rops;
  Float.fsqrt := @Float.fsqrt Rops; fcbrt := @fcbrt Rops; fsin := @fsin Rops; fcos := @fcos Rops; fln := @fln Rops;
  Float.fexp := @Float.fexp Rops; flog10 := @flog10 Rops; fpow10 := @fpow10 Rops; ffloor := @ffloor Rops; fceil := @fceil Rops;
  fmax := @fmax Rops; fmin := @fmin Rops; flt := @flt Rops; fle := @fle Rops; feq := @feq Rops;
  fto_usize := @fto_usize Rops; fof_N := @fof_N Rops; flit := @flit Rops;
  fsample := fun _ => r;
  fhuge := @fhuge Rops; fsmall := @fsmall Rops; ftiny := @ftiny Rops; fpi := @fpi Rops
|}.

(** Total weight of a list of particles. *)
Definition total_weight {r} (l : list (particle (Rops_at r))) : R := fold_right Rplus 0%R (map (fun p : particle (Rops_at r) => (p_weight p : F (Rops_at r))) l).
(** Weight left by the code: of a roulette (survival flag and particle), of a split. *)
Definition weight_left {r} (o : bool * particle (Rops_at r)) : R := if fst o then p_weight (snd o) else 0%R.
Definition weight_after_split {r} (o : result (particle (Rops_at r) * list (particle (Rops_at r)))) : R :=
  match o with Ok (p, l) => total_weight (p :: l) | _ => 0%R end.

Definition Rsum (l : list R) : R := fold_right Rplus 0%R l.
(** The share of a cell that emits [x] out of [total] when [n] particles are asked for: a tenth of
    them is distributed, rounded down. *)
Definition share (total : R) (n : N) (x : R) : Z := Zfloor (x * IZR (Z.of_N n) / (10 * total)).
