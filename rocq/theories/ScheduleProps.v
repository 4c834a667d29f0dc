(** C12-C15: parallel schedules, reproducibility, the cross-section cache and the flux tally. *)
From Coq Require Import NArith ZArith QArith List Bool String Permutation Reals.
From Verif Require Import Float RngIeee ParticleModel NuclearModel MeshTypes Balance TrackModel CycleModel Ieee GridModel
  AssignModel MeshModel Demo DemoRun CycleSpec CycleFacts ScheduleSpec ScheduleLemmas ScheduleFacts RangeSpec RangeFacts
  RunAgree RealOps ParRun ScheduleRun DemoSound.
Import ListNotations.
Local Open Scope N_scope.

(** ** C12 *)
(** Whatever the policies, chunk sizes, thread counts and interleavings of two executions on the same
    particles, both return and give the same result, or none returns. *)
Theorem c12_schedule_independent : forall (K : FloatOps) fuel cfuel (md1 md2 : mcdata K) u c r1 r2,
  flt (f0 : F K) f0 = false ->
  sound_mem (mc_track md1) (u_domain u) (sp_n_groups (mc_params md1)) (u_mem u) ->
  Forall (stays_in_range (mc_track md1) (u_domain u) (sp_n_groups (mc_params md1))) (processing c) ->
  threads_ok md1 -> threads_ok md2 -> same_problem md1 md2 ->
  process_particles fuel cfuel md1 u c r1 -> process_particles fuel cfuel md2 u c r2 ->
  agree same_round r1 r2.
Proof. exact @schedule_independent. Qed.
Print Assumptions c12_schedule_independent.

(** What that result is: the sum of what each particle does when it is tracked alone. *)
Theorem c12_sum_of_solo_tracks : forall (K : FloatOps) fuel cfuel (md : mcdata K) u c r,
  flt (f0 : F K) f0 = false ->
  sound_mem (mc_track md) (u_domain u) (sp_n_groups (mc_params md)) (u_mem u) ->
  Forall (stays_in_range (mc_track md) (u_domain u) (sp_n_groups (mc_params md))) (processing c) ->
  threads_ok md -> process_particles fuel cfuel md u c r ->
  match rmap (solo fuel cfuel (mc_track md) (u_domain u)) (processing c) with
  | Ok rs => exists u' c', r = Ok (u', c') /\
      u_balance u' = badd (u_balance u) (counters rs) /\ processing c' = [] /\
      processed c' = processed c ++ filter is_valid (finals rs) /\
      Permutation (extra_particles c') (extra_particles c ++ created rs)
  | _ => r = Panic \/ r = NoFuel
  end.
Proof. exact @round_outcome. Qed.
Print Assumptions c12_sum_of_solo_tracks.

(** An execution that returns exists under every policy as soon as it does under one. *)
Theorem c12_every_policy_returns : forall (K : FloatOps) fuel cfuel (md1 md2 : mcdata K) u c x1,
  flt (f0 : F K) f0 = false ->
  sound_mem (mc_track md1) (u_domain u) (sp_n_groups (mc_params md1)) (u_mem u) ->
  Forall (stays_in_range (mc_track md1) (u_domain u) (sp_n_groups (mc_params md1))) (processing c) ->
  threads_ok md1 -> threads_ok md2 -> same_problem md1 md2 ->
  process_particles fuel cfuel md1 u c (Ok x1) -> exists x2, process_particles fuel cfuel md2 u c (Ok x2).
Proof. exact @round_exists. Qed.
Print Assumptions c12_every_policy_returns.

(** The conditions hold at every round of every cycle of a run. *)
Theorem c12_conditions_hold_during_runs : forall (K : FloatOps) fuel cfuel (md : mcdata K) d u c,
  flt (f0 : F K) f0 = false -> energies_bounded md -> threads_ok md -> implemented md -> sound_problem md d ->
  tracked fuel cfuel md d u c ->
  sound_mem (mc_track md) (u_domain u) (sp_n_groups (mc_params md)) (u_mem u) /\
  Forall (stays_in_range (mc_track md) (u_domain u) (sp_n_groups (mc_params md))) (processing c).
Proof. exact @tracked_conditions. Qed.
Print Assumptions c12_conditions_hold_during_runs.

Theorem c12_every_round_of_a_run : forall (K : FloatOps) fuel cfuel (md1 md2 : mcdata K) d u c r1 r2,
  flt (f0 : F K) f0 = false -> energies_bounded md1 -> threads_ok md1 -> implemented md1 -> sound_problem md1 d ->
  threads_ok md2 -> same_problem md1 md2 -> tracked fuel cfuel md1 d u c ->
  process_particles fuel cfuel md1 u (sort_processing c) r1 -> process_particles fuel cfuel md2 u (sort_processing c) r2 ->
  agree same_round r1 r2.
Proof. exact @round_of_run. Qed.
Print Assumptions c12_every_round_of_a_run.

(** ** C13 *)
Theorem c13_run_reproducible : forall (K : FloatOps) fuel cfuel (md1 md2 : mcdata K) d r1 r2,
  flt (f0 : F K) f0 = false -> energies_bounded md1 -> same_problem md1 md2 -> sound_problem md1 d ->
  threads_ok md1 -> threads_ok md2 -> implemented md1 -> implemented md2 ->
  core_loop fuel cfuel md1 (initial_sim md1 d) r1 -> core_loop fuel cfuel md2 (initial_sim md2 d) r2 ->
  agree same_state r1 r2.
Proof. exact @run_reproducible. Qed.
Print Assumptions c13_run_reproducible.

Theorem c13_run_under_other_policy : forall (K : FloatOps) fuel cfuel (md1 md2 : mcdata K) d s1,
  flt (f0 : F K) f0 = false -> energies_bounded md1 -> same_problem md1 md2 -> sound_problem md1 d ->
  threads_ok md1 -> threads_ok md2 -> implemented md1 -> implemented md2 ->
  core_loop fuel cfuel md1 (initial_sim md1 d) (Ok s1) ->
  exists s2, core_loop fuel cfuel md2 (initial_sim md2 d) (Ok s2) /\ same_state s1 s2.
Proof. exact @run_under_other_policy. Qed.
Print Assumptions c13_run_under_other_policy.

(** The problem of DemoRun: the sequential run computed there, and a parallel one with the same reports. *)
Example c13_case : exists md1 md2 dom s1 s2,
  demo_data Sequential 10 2 = Ok md1 /\ demo_data Rayon 10 2 = Ok md2 /\ demo_domain (mkDims 1 1 1) "octant" = Ok dom /\
  same_problem md1 md2 /\ energies_bounded md1 /\ sound_problem md1 dom /\ threads_ok md1 /\ threads_ok md2 /\
  implemented md1 /\ implemented md2 /\
  core_loop 200 20 md1 (initial_sim md1 dom) (Ok s1) /\ core_loop 200 20 md2 (initial_sim md2 dom) (Ok s2) /\
  List.length (s_reports s2) = 2%nat /\ map (fun r => bget (rp_balance r) ECollision) (s_reports s2) = [33; 38].
Proof.
  destruct demo_exists as (md & dom & s & Hd & Hm & Hr & Hv).
  destruct (demo_both _ _ _ _ _ _ _ (proj1 demo_checked) Hd Hm Hr Hv) as
    (md' & s' & Hd' & Hs & He & Hp & T1 & T2 & I1 & I2 & Hr' & Hst).
  exists md, md', dom, s, s'. repeat (split; [assumption|]).
  pose proof (ss_reports _ _ Hst) as E. unfold demo_view in Hv. apply (f_equal (option_map fst)) in Hv. cbn [option_map fst] in Hv.
  assert (EL : map (fun r => bget (rp_balance r) ECollision) (s_reports s') = [33; 38]).
  { transitivity (map (fun x : N * balance => bget (snd x) ECollision) (map (fun r => (rp_cycle r, rp_balance r)) (s_reports s'))).
    { rewrite map_map. reflexivity. }
    rewrite <- E, map_map. cbn [snd]. injection Hv as Hv. clear - Hv.
    destruct (s_reports s) as [|a [|b [|]]]; try discriminate. cbn [map] in * . injection Hv; intros.
    congruence. }
  split; [|exact EL]. apply (f_equal (@List.length N)) in EL. rewrite map_length in EL. exact EL.
Qed.

(** The conditions of C12 at the first round of that run. *)
Example c12_case : exists md1 md2 dom u c,
  demo_data Sequential 10 2 = Ok md1 /\ demo_data Rayon 10 2 = Ok md2 /\
  same_problem md1 md2 /\ energies_bounded md1 /\ sound_problem md1 dom /\ threads_ok md1 /\ threads_ok md2 /\
  implemented md1 /\ tracked 200 20 md1 dom u c /\ processing c <> [] /\
  exists x1 x2, process_particles 200 20 md1 u (sort_processing c) (Ok x1) /\
    process_particles 200 20 md2 u (sort_processing c) (Ok x2).
Proof.
  destruct demo_exists as (md & dom & s & Hd & Hm & Hr & Hv).
  destruct (demo_both _ _ _ _ _ _ _ (proj1 demo_checked) Hd Hm Hr Hv) as
    (md' & s' & Hd' & Hs & He & Hp & T1 & T2 & I1 & I2 & Hr' & Hst).
  destruct (demo_first_round _ _ _ _ Hd Hm Hr Hv) as (u & c & Ht & Hne & x1 & P1).
  exists md, md', dom, u, c. repeat (split; [assumption|]). exists x1.
  destruct (tracked_sorted _ _ _ _ _ _ zero_not_positive64 He T1 I1 Hp Ht) as (M & R).
  destruct (round_exists _ _ _ _ _ _ _ zero_not_positive64 M R T1 T2 Hs P1) as (x2 & P2).
  exists x2. auto.
Qed.

(** ** C14 *)
(** A lookup in a cache that is right returns the value of a fresh computation, panics when that computation
    does, and leaves a cache that is right. *)
Theorem c14_lookup_transparent : forall (K : FloatOps) (td : track_data K) dom ng c g (m : mem K),
  flt (f0 : F K) f0 = false -> sound_mem td dom ng m -> in_range dom ng c g ->
  match cell_cross_section td dom c g with
  | Ok x => exists m', run_seq ng (get_xs td dom c g) m = Ok (x, m') /\ sound_mem td dom ng m' /\ m_flux m' = m_flux m
  | Panic => run_seq ng (get_xs td dom c g) m = Panic
  | NoFuel => run_seq ng (get_xs td dom c g) m = NoFuel
  end.
Proof. intros K td dom ng c g m Hz. exact (lookup_seq Hz td dom ng c g m). Qed.
Print Assumptions c14_lookup_transparent.

(** The same for a lookup among concurrent ones: the only shared read is that of the entry itself, and for any
    value that is right the lookup returns the fresh value, writing at most that value to that entry. *)
Theorem c14_lookup_any_read : forall (K : FloatOps) (td : track_data K) dom c g, flt (f0 : F K) f0 = false ->
  exists k, get_xs td dom c g = LoadXs c g k /\
    forall v, cached td dom c g v ->
      match cell_cross_section td dom c g with
      | Ok x => k v = Ret x \/ k v = StoreXs c g x (Ret x)
      | Panic => k v = Fail
      | NoFuel => k v = Stuck
      end.
Proof. exact @lookup_any_read. Qed.
Print Assumptions c14_lookup_any_read.

(** In every parallel region of a run, at any moment of any interleaving, all the values an entry has had since the start
    of the region are right. *)
Theorem c14_cache_right_at_all_times : forall (K : FloatOps) fuel cfuel (md : mcdata K) d u c n conf,
  flt (f0 : F K) f0 = false -> energies_bounded md -> threads_ok md -> implemented md -> sound_problem md d ->
  tracked fuel cfuel md d u c -> n <> 0%nat ->
  csteps (sp_n_groups (mc_params md))
    (mkConf (map (fun l => Running (track_slice fuel cfuel (mc_track md) (u_domain u) l balance_zero []))
                 (chunks n (processing (sort_processing c))))
       (map (fun v => [v]) (m_cache (u_mem u))) (m_flux (u_mem u)) (extra_particles c)) conf ->
  forall cell g vs v, in_range (u_domain u) (sp_n_groups (mc_params md)) cell g ->
    nth_error (cf_hist conf) (N.to_nat (slot (sp_n_groups (mc_params md)) cell g)) = Some vs -> In v vs ->
    cached (mc_track md) (u_domain u) cell g v.
Proof. exact @cache_of_run. Qed.
Print Assumptions c14_cache_right_at_all_times.

(** ** C15 *)
(** During a cycle, under any policy and schedule, each entry of the flux array receives the contributions of
    the segments in its cell and group, each once and no other, in some order. *)
Theorem c15_no_lost_update : forall (K : FloatOps) fuel cfuel (md : mcdata K) d n s s1 u0 c0 u' c',
  flt (f0 : F K) f0 = false -> energies_bounded md -> threads_ok md -> implemented md -> sound_problem md d ->
  n < sp_n_steps (mc_params md) -> run_steps fuel cfuel md (initial_sim md d) n (Ok s) -> cycle_sync md n s = Ok s1 ->
  population_phase md s1 = Ok (u0, c0) -> tracking_rounds fuel cfuel md u0 c0 (Ok (u', c')) ->
  exists rs l, solo_rounds fuel cfuel (mc_track md) (u_domain u0) (processing c0) rs /\ Permutation l (contributions rs) /\
    forall cell g, in_range (u_domain u0) (sp_n_groups (mc_params md)) cell g ->
      nth_error (m_flux (u_mem u')) (N.to_nat (slot (sp_n_groups (mc_params md)) cell g)) = Some (entry_sum cell g l f0).
Proof. exact @cycle_flux. Qed.
Print Assumptions c15_no_lost_update.

(** Distinct pairs have distinct entries. *)
Theorem c15_distinct_entries : forall ng c g c' g', g < ng -> g' < ng -> slot ng c g = slot ng c' g' -> c = c' /\ g = g'.
Proof. exact slot_inj. Qed.
Print Assumptions c15_distinct_entries.

(** With exact arithmetic the order does not matter. *)
Theorem c15_order_free : forall c g (l1 l2 : list (@contribution Rops)) (start : F Rops), Permutation l1 l2 ->
  entry_sum c g l1 start = entry_sum c g l2 start /\
  entry_sum c g l1 start = (start + fold_right Rplus 0 (map snd (filter (fun x => (fst (fst x) =? c) && (snd (fst x) =? g)) l1)))%R.
Proof. exact entry_sum_exact. Qed.
Print Assumptions c15_order_free.

(** With binary64 numbers it does: 2^53 + 1 + 1 from the left is 2^53, from the right 2^53 + 2. *)
Theorem c15_order_matters_in_binary64_refuted : exists c g (l1 l2 : list (@contribution K64)) start,
  Permutation l1 l2 /\ entry_sum c g l1 start <> entry_sum c g l2 start.
Proof. exact entry_sum_binary64. Qed.
Print Assumptions c15_order_matters_in_binary64_refuted.

(** A cycle of the run of DemoRun. *)
Example c15_case : exists md dom s1 u0 c0 x,
  demo_data Sequential 10 2 = Ok md /\ energies_bounded md /\ sound_problem md dom /\ threads_ok md /\
  implemented md /\ 0 < sp_n_steps (mc_params md) /\ cycle_sync md 0 (initial_sim md dom) = Ok s1 /\
  population_phase md s1 = Ok (u0, c0) /\ processing c0 <> [] /\ tracking_rounds 200 20 md u0 c0 (Ok x).
Proof.
  destruct demo_exists as (md & dom & s & Hd & Hm & Hr & Hv).
  destruct (demo_both _ _ _ _ _ _ _ (proj1 demo_checked) Hd Hm Hr Hv) as
    (md' & s' & Hd' & Hs & He & Hp & T1 & T2 & I1 & I2 & Hr' & Hst).
  destruct (demo_first_cycle _ _ _ _ Hd Hm Hr Hv) as (s1 & u0 & c0 & x & H0 & H1 & H2 & H3 & H4).
  exists md, dom, s1, u0, c0, x. auto 20.
Qed.
