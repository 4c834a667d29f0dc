(** C04, C05, C23, C24, C50, C51, C56: the population. *)
From Coq Require Import NArith ZArith QArith List Bool String Permutation Reals Lra Lia.
From Flocq Require Import Core.
From Coquelicot Require Import Hierarchy RInt.
From Verif Require Import Float RealOps RngModel RngSpec ParticleModel NuclearModel MeshTypes Balance TrackModel CycleModel
  Ieee PopSpec SortLemmas SourceLemmas PopLemmas SourceCount PopDemo.
Import ListNotations.
Local Open Scope N_scope.

(** ** C04 *)
(** The particles created by the source during a run, in all cells and cycles, have different
    identifiers and different seeds. *)
Theorem c04_sourced_unique : forall (K : FloatOps) fuel cfuel (md : mcdata K) d n s ps,
  run_sourced fuel cfuel md d n s ps ->
  ids_apart (d_cells d) -> Forall (fun cs => cs_source_tally cs = 0) (d_cells d) ->
  Forall (fun cs => cs_source_tally cs <= 2 ^ 32) (d_cells (u_domain (s_unit s))) ->
  NoDup (map p_identifier ps) /\ NoDup (map p_random_number_seed ps).
Proof. exact @run_unique. Qed.
Print Assumptions c04_sourced_unique.

(** Every run that returns has such a list. *)
Theorem c04_every_run : forall (K : FloatOps) fuel cfuel (md : mcdata K) d n s,
  run_steps fuel cfuel md (initial_sim md d) n (Ok s) -> exists ps, run_sourced fuel cfuel md d n s ps.
Proof. exact (fun K fuel cfuel md d n s H => run_has_sourced fuel cfuel md d n (Ok s) H s eq_refl). Qed.
Print Assumptions c04_every_run.

Example c04_case : exists (md : mcdata K64) d s ps, run_sourced 200 20 md d 1 s ps /\
  ids_apart (d_cells d) /\ Forall (fun cs => cs_source_tally cs = 0) (d_cells d) /\
  Forall (fun cs => cs_source_tally cs <= 2 ^ 32) (d_cells (u_domain (s_unit s))) /\ List.length ps = 2%nat.
Proof. exact demo_sourced. Qed.

(** ** C05 *)
(** Each cell gets its share of a tenth of the requested number, rounded down: the total is at most
    that tenth and misses less than one particle per cell; it is what the Source counter, the
    counters of the cells and the population grow by. *)
Theorem c05_number_sourced : forall (md : mcdata Rops) (s s1 : sim Rops) (xs : list R) u c,
  prepare_cycle md s = Ok s1 -> source_now md (s_source_weight s1) (s_unit s1) (s_cont s1) = Ok (u, c) ->
  Forall2 (emits md) (d_cells (u_domain (s_unit s))) xs -> Forall (fun x => (0 <= x)%R) xs -> (0 < Rsum xs)%R ->
  0 < sp_n_particles (mc_params md) < 2 ^ 64 ->
  exists ns new, let total := fold_right N.add 0 ns in
    Forall2 (fun x n => Z.of_N n = share (Rsum xs) (sp_n_particles (mc_params md)) x) xs ns /\
    Forall2 (fun n cs => has_emitted n (fst cs) (snd cs)) ns (combine (d_cells (u_domain (s_unit s))) (d_cells (u_domain u))) /\
    List.length (d_cells (u_domain u)) = List.length (d_cells (u_domain (s_unit s))) /\
    processing c = processing (s_cont s1) ++ new /\ N.of_nat (List.length new) = total /\
    bget (u_balance u) ESource = bget (u_balance (s_unit s1)) ESource + total /\
    (IZR (Z.of_N total) <= IZR (Z.of_N (sp_n_particles (mc_params md))) / 10 < IZR (Z.of_N total) + INR (List.length xs))%R.
Proof. exact source_count. Qed.
Print Assumptions c05_number_sourced.

(** The source does not panic on a complete mesh with known materials, if something is emitted. *)
Theorem c05_source_defined : forall (md : mcdata Rops) (s s1 : sim Rops) (xs : list R),
  prepare_cycle md s = Ok s1 -> Forall2 (emits md) (d_cells (u_domain (s_unit s))) xs -> Forall (fun x => (0 <= x)%R) xs ->
  (0 < Rsum xs)%R -> 0 < sp_n_particles (mc_params md) < 2 ^ 64 -> materials_known md ->
  complete_mesh (d_mesh (u_domain (s_unit s))) ->
  List.length (me_conn (d_mesh (u_domain (s_unit s)))) = List.length (d_cells (u_domain (s_unit s))) ->
  exists u c, source_now md (s_source_weight s1) (s_unit s1) (s_cont s1) = Ok (u, c).
Proof. exact source_defined. Qed.
Print Assumptions c05_source_defined.

Example c05_case : exists s1 u c, prepare_cycle (tiny_md 100) (initial_sim (tiny_md 100) tiny_dom) = Ok s1 /\
  source_now (tiny_md 100) (s_source_weight s1) (s_unit s1) (s_cont s1) = Ok (u, c) /\
  Forall2 (emits (tiny_md 100)) (d_cells tiny_dom) [(1 * 1 * 1)%R] /\ materials_known (tiny_md 100) /\
  complete_mesh (d_mesh tiny_dom) /\ N.of_nat (List.length (processing c)) = 10.
Proof.
  destruct (tiny_source 100) as (s1 & u & c & H1 & H2 & H3); [lia|]. exists s1, u, c.
  exact (conj H1 (conj H2 (conj (tiny_emits 100) (conj (tiny_known 100) (conj tiny_complete H3))))).
Qed.

(** A problem in which no material emits anything is not run with an empty source: the weight is 0/0
    and the source panics (binary64). *)
Theorem c05_silent_source_panics_refuted : exists (md : mcdata K64) (s s1 : sim K64),
  prepare_cycle md s = Ok s1 /\ List.length (d_cells (u_domain (s_unit s1))) = 1%nat /\
  source_now md (s_source_weight s1) (s_unit s1) (s_cont s1) = Panic.
Proof. exact silent_refuted. Qed.
Print Assumptions c05_silent_source_panics_refuted.

(** ** C23 *)
(** Roulette of the whole population: a particle is lost or goes on with weight w/f, then light
    particles are lost or go on with weight w/cutoff; the draws decide, nothing else changes. *)
Theorem c23_roulette : forall (K : FloatOps) (c : container K) f cutoff w b,
  processing (fst (regulate_population c f cutoff w b)) =
    flat_map (low_weight_roulette cutoff w) (flat_map (roulette f) (processing c)).
Proof. exact @regulate_outcome. Qed.
Print Assumptions c23_roulette.

Theorem c23_roulette_keeps_the_rest : forall (K : FloatOps) (p : particle K) w,
  same_but_weight p (reweighted p w) /\ p_weight (reweighted p w) = w /\ p_identifier (reweighted p w) = p_identifier p.
Proof. exact (fun K p w => conj (same_reweighted p w) (conj eq_refl eq_refl)). Qed.
Print Assumptions c23_roulette_keeps_the_rest.

(** Splitting of the whole population: every particle is replaced by itself and its copies, each of
    weight w/f; then light particles play roulette. *)
Theorem c23_split : forall (K : FloatOps) (c : container K) f cutoff w b c' b',
  split_population c f cutoff w b = Ok (c', b') ->
  exists ps ll, Forall2 (fun p ql => is_split f p (fst ql) (snd ql)) (processing c) (combine ps ll) /\
    List.length ps = List.length (processing c) /\ List.length ll = List.length (processing c) /\
    processing c' = flat_map (low_weight_roulette cutoff w) (ps ++ extra_particles c ++ List.concat ll) /\
    processed c' = processed c /\ extra_particles c' = [] /\
    b' = bset (bset b ESplit (N.of_nat (List.length (extra_particles c ++ List.concat ll)))) EWeightRr
           (N.of_nat (List.length (ps ++ extra_particles c ++ List.concat ll) - List.length (processing c'))).
Proof. exact @split_population_outcome. Qed.
Print Assumptions c23_split.

(** The copies have different seeds and identifiers. *)
Theorem c23_copies_distinct : forall (K : FloatOps) (p : particle K) f q l, is_split f p q l -> N.of_nat (List.length l) <= 2 ^ 64 ->
  NoDup (map p_random_number_seed l) /\ NoDup (map p_identifier l).
Proof. exact @split_seeds_distinct. Qed.
Print Assumptions c23_copies_distinct.

(** In real arithmetic splitting succeeds and leaves floor(f) or floor(f)+1 particles, the larger
    number when the draw is at most the fractional part. *)
Theorem c23_number_after_split : forall (p : particle Rops) (f : R), (1 <= f < IZR (2 ^ 64))%R ->
  exists q l, under_populated_split p f = Ok (q, l) /\ is_split (K := Rops) f p q l /\
    Z.of_nat (List.length (q :: l)) = (if Rlt_dec (f - IZR (Zfloor f)) (next_draw p) then Zfloor f else Zfloor f + 1)%Z.
Proof. exact split_real. Qed.
Print Assumptions c23_number_after_split.

(** Splitting by 5/2 with binary64 numbers, from several seeds: 2 or 3 particles in place of one. *)
Example c23_case : map (fun seed =>
    match under_populated_split (set_weight (set_random_number_seed (particle_default (K := K64)) seed) f1) (flit (5 # 2)) with
    | Ok (q, l) => Some (List.length (q :: l)) | _ => None end) [1; 2; 3; 4; 5; 6]
  = [Some 3; Some 3; Some 3; Some 2; Some 2; Some 2]%nat.
Proof. vm_compute. reflexivity. Qed.

(** ** C24 *)
(** The weight left, as a function of the number drawn, has the weight before as its mean over
    [0, 1]: here the code is run on the real numbers with [r] as the outcome of the draw. *)
Theorem c24_roulette_unbiased : forall (w f : R) (p : forall r, particle (Rops_at r)),
  (forall r, p_weight (p r) = w) -> (0 < f <= 1)%R ->
  is_RInt (fun r => weight_left (over_populated_rr (p r) f)) 0 1 w.
Proof. exact roulette_unbiased. Qed.
Print Assumptions c24_roulette_unbiased.

Theorem c24_low_weight_unbiased : forall (w cutoff source_weight : R) (p : forall r, particle (Rops_at r)),
  (forall r, p_weight (p r) = w) -> (0 < cutoff <= 1)%R ->
  is_RInt (fun r => weight_left (low_weight_rr (p r) cutoff source_weight)) 0 1 w.
Proof. exact low_weight_unbiased. Qed.
Print Assumptions c24_low_weight_unbiased.

Theorem c24_split_unbiased : forall (w f : R) (p : forall r, particle (Rops_at r)),
  (forall r, p_weight (p r) = w) -> (1 <= f < IZR (2 ^ 64))%R ->
  is_RInt (fun r => weight_after_split (under_populated_split (p r) f)) 0 1 w.
Proof. exact split_unbiased. Qed.
Print Assumptions c24_split_unbiased.

Example c24_case : exists p : forall r, particle (Rops_at r), (forall r, p_weight (p r) = 3%R) /\
  is_RInt (fun r => weight_after_split (under_populated_split (p r) (5 / 2)%R)) 0 1 3%R.
Proof.
  exists (fun r => set_weight (particle_default (K := Rops_at r)) 3%R). split; [reflexivity|].
  apply (c24_split_unbiased 3 (5 / 2) (fun r => set_weight (particle_default (K := Rops_at r)) 3%R)); [reflexivity|].
  split; [lra|]. apply Rlt_trans with (IZR 3); [lra|apply IZR_lt; reflexivity].
Qed.

(** ** C50 *)
(** The chunks put together are the population, none is empty, and only the last may be short. *)
Theorem c50_chunks_partition : forall (A : Type) n (l : list A), (0 < n)%nat ->
  List.concat (chunks n l) = l /\ Forall (fun x => (0 < List.length x <= n)%nat) (chunks n l) /\
  (forall i x, nth_error (chunks n l) i = Some x -> (S i < List.length (chunks n l))%nat -> List.length x = n).
Proof. exact @chunks_parts. Qed.
Print Assumptions c50_chunks_partition.

(** The size chosen when none is given is positive and gives at most one chunk per thread. *)
Theorem c50_dynamic_size : forall (ei : exec_info) (A : Type) (l : list A), ei_chunk_size ei = 0 -> ei_n_rayon_threads ei <> 0 ->
  exists n, chunk_size ei (N.of_nat (List.length l)) = Ok n /\ 0 < n /\
    List.concat (chunks (N.to_nat n) l) = l /\ N.of_nat (List.length (chunks (N.to_nat n) l)) <= ei_n_rayon_threads ei.
Proof. exact (fun ei A l => @dynamic_chunks ei A l). Qed.
Print Assumptions c50_dynamic_size.

Example c50_case : chunk_size (mkExecInfo Rayon 4 0 1) 10 = Ok 3 /\ chunks 3 [1;2;3;4;5;6;7;8;9;10] = [[1;2;3];[4;5;6];[7;8;9];[10]].
Proof. split; vm_compute; reflexivity. Qed.

(** ** C51 *)
Theorem c51_sort_stable : forall (K : FloatOps) (l : list (particle K)), stable_sort_of l (sort_particles l).
Proof. exact @sort_is_stable. Qed.
Print Assumptions c51_sort_stable.

(** There is only one stable sort: whatever the algorithm, the result is this one. *)
Theorem c51_sort_unique : forall (K : FloatOps) (l l1 l2 : list (particle K)), stable_sort_of l l1 -> stable_sort_of l l2 -> l1 = l2.
Proof. exact @stable_sort_unique. Qed.
Print Assumptions c51_sort_unique.

Example c51_case :
  let p id cell group := set_energy_group (set_cell (set_identifier (particle_default (K := K64)) id) cell) group in
  map p_identifier (sort_particles [p 1 2 0; p 2 1 5; p 3 1 4; p 4 2 0; p 5 1 5]) = [3; 2; 5; 1; 4].
Proof. vm_compute. reflexivity. Qed.

(** ** C56 *)
(** The target is compared with the current number (the size of the population with load balance, the
    number foreseen before the source without it).  Below the target the population is split by the
    ratio, above it plays roulette with the ratio, and at the target nothing at all is changed. *)
Theorem c56_split_factor : forall (md : mcdata Rops) (s : sim Rops) u c u0 c0,
  ei_n_units (mc_exec md) = 1 -> sp_n_particles (mc_params md) < 2 ^ 64 ->
  source_now md (s_source_weight s) (s_unit s) (s_cont s) = Ok (u0, c0) -> 0 < current_number md s c0 ->
  population_phase md s = Ok (u, c) ->
  let target := sp_n_particles (mc_params md) in let now := current_number md s c0 in
  let f := fdiv (fof_N target) (fof_N now) : F Rops in
  let cutoff := sp_low_weight_cutoff (mc_params md) in let sw := s_source_weight s in
  (now < target -> exists b, split_population c0 f cutoff sw (u_balance u0) = Ok (c, b) /\
     u = mkUnit (u_domain u0) b (u_mem u0) (u_weight u0)) /\
  (target < now -> exists b, regulate_population c0 f cutoff sw (u_balance u0) = (c, b) /\
     u = mkUnit (u_domain u0) b (u_mem u0) (u_weight u0)) /\
  (target = now -> u = u0 /\ c = c0).
Proof. exact population_cases. Qed.
Print Assumptions c56_split_factor.

(** Without load balance the foreseen number is the population at the start of the cycle plus a tenth
    of the target. *)
Theorem c56_foreseen_number : forall (md : mcdata Rops) (s s1 : sim Rops), prepare_cycle md s = Ok s1 ->
  s_global_n s1 = N.of_nat (List.length (processing (s_cont s)) + List.length (processed (s_cont s))) +
    sp_n_particles (mc_params md) / 10.
Proof. exact foreseen. Qed.
Print Assumptions c56_foreseen_number.

Example c56_case : exists s1 u0 c0 u c, prepare_cycle (tiny_md 100) (initial_sim (tiny_md 100) tiny_dom) = Ok s1 /\
  source_now (tiny_md 100) (s_source_weight s1) (s_unit s1) (s_cont s1) = Ok (u0, c0) /\
  population_phase (tiny_md 100) s1 = Ok (u, c) /\ current_number (tiny_md 100) s1 c0 = 10.
Proof. exact tiny_population. Qed.
