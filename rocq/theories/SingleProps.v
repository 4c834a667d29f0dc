(** C72: the program in single precision; C70 and C71 there. *)
From Coq Require Import String NArith ZArith QArith Reals Lra Lia List Bool.
From Flocq Require Import Core IEEE754.BinarySingleNaN.
From Verif Require Import Float RngModel RngIeee Ieee ParticleModel NuclearModel MeshTypes Balance TrackModel CycleModel TrackSpec PopSpec SourceCount LawSpec RealOps Demo SegmentDemo ClockIeee SeqRun SingleModel SingleFacts SegmentCount SegmentSingle
  SilentSpec32 SilentFacts32 IdleFacts32 EmptySpec FewSingle DemoSingle LifeDemo GridModel.
Import ListNotations.
Local Open Scope N_scope.

(** Samples in f32 are finite and between zero and one; zero for the new seed zero only, one for all new seeds from 2^64 - 2^39 - 1024 on. *)
Theorem c72_sample_range : forall seed,
  let '(value, new_seed) := rng_sample_f32 seed in
  new_seed = rng_next seed /\ is_finite value = true /\ (0 <= B2R value <= 1)%R /\
  (B2R value = 0%R <-> new_seed = 0) /\
  (B2R value = 1%R <-> 2 ^ 64 - 2 ^ 39 - 1024 <= new_seed).
Proof. exact sample_range32. Qed.
(** A seed whose sample is one in f32 and not in f64. *)
Example c72_sample_case : exists seed, B2SF (fst (rng_sample_f32 seed)) = SpecFloat.S754_finite false 8388608 (-23) /\
  B2SF (fst (rng_sample_f64 seed)) <> SpecFloat.S754_finite false 4503599627370496 (-52).
Proof.
  exists 2418428388189521423. split; [vm_compute; reflexivity|vm_compute; discriminate].
Qed.
Print Assumptions c72_sample_range.

(** What the model of the program in f32 draws is this sample. *)
Theorem c72_sample_model : forall lm seed, fsample (f := f32ops lm) (rng_next seed) = fst (rng_sample_f32 seed).
Proof. exact sample32_is. Qed.
Example c72_sample_model_case : B2SF (fsample (f := K32) (rng_next 1029384756)) <> SpecFloat.S754_zero false.
Proof. vm_compute. discriminate. Qed.
Print Assumptions c72_sample_model.

(** One is drawn by exactly 2^39 + 1024 of the 2^64 seeds in f32 (one in 33 millions), by 1024 of them in f64. *)
Theorem c72_ones_single : counts (fun seed => B2R (fst (rng_sample_f32 seed)) = 1%R) (2 ^ 39 + 1024).
Proof. exact ones32. Qed.
Print Assumptions c72_ones_single.
Theorem c72_ones_double : counts (fun seed => B2R (fst (rng_sample_f64 seed)) = 1%R) 1024.
Proof. exact ones64. Qed.
Print Assumptions c72_ones_double.

(** The number of segments of a particle is exact up to 2^24 and stays there. *)
Theorem c72_segments : forall lm n,
  is_finite (count_segments (f32ops lm) n : f32) = true /\ B2R (count_segments (f32ops lm) n : f32) = IZR (Z.min (Z.of_nat n) (2 ^ 24)).
Proof. exact count32. Qed.
Example c72_segments_case : B2SF (count_segments K32 5) = SpecFloat.S754_finite false 10485760 (-21).
Proof. vm_compute. reflexivity. Qed.
Print Assumptions c72_segments.

(** The limit on segments that puts a stuck particle back (mct.rs line 257) is passed when it is. *)
Theorem c72_segment_limit : forall lm n, flt (max_segments (f32ops lm)) (count_segments (f32ops lm) n) = true <-> 10000000 < N.of_nat n.
Proof. exact count32_limit. Qed.
Example c72_segment_limit_case : flt (max_segments K32) (count_segments K32 5) = false.
Proof. vm_compute. reflexivity. Qed.
Print Assumptions c72_segment_limit.

(** C70 in f32. *)
Theorem c70_silent_run_single : forall lm fuel cfuel (md : mcdata (f32ops lm)) dom r,
  materials_named md -> Forall (emits_nothing md) (d_cells dom) -> d_cells dom <> [] -> sp_n_steps (mc_params md) <> 0 ->
  (core_loop fuel cfuel md (initial_sim md dom) r <-> r = Panic).
Proof. exact silent_run. Qed.
Definition silent_mat32 : material_params K32 := mkMatParams "fuel" f1 f1 0 3 f0 "flat" "flat" "flat" f1 f1 f1.
Definition silent_md32 : mcdata K32 :=
  mkMcData (mkSimParams 100 3 1 f0 f1 f1 true false true) (mkExecInfo Sequential 1 0 1)
    (mkTrackData f1 (mkNuclear 3 [] []) [mkMaterial "fuel" f1 []]) [("fuel"%string, silent_mat32)].
Definition silent_dom32 : domain K32 := mkDomain 0 [mkCellState 0 f1 f1 0 0] (mkMesh 0 [] [] []).
Example c70_silent_single_case : materials_named silent_md32 /\ Forall (emits_nothing silent_md32) (d_cells silent_dom32) /\ d_cells silent_dom32 <> [] /\
  sp_n_steps (mc_params silent_md32) <> 0.
Proof.
  split; [repeat constructor; exists silent_mat32; reflexivity|]. split; [|split; discriminate].
  constructor; [|constructor]. exists (mkMaterial (K := K32) "fuel" f1 []), silent_mat32. repeat split; try reflexivity. left. reflexivity.
Qed.
Print Assumptions c70_silent_run_single.

Theorem c70_idle_run_single : forall lm fuel cfuel (md : mcdata (f32ops lm)) dom,
  (ei_policy (mc_exec md) = Sequential \/ ei_policy (mc_exec md) = Rayon) ->
  sp_standard (mc_params md) = true \/ sp_n_groups (mc_params md) <> 0 -> has_source md dom -> sp_n_particles (mc_params md) = 0 ->
  exists s, idle md dom (N.to_nat (sp_n_steps (mc_params md))) s /\ forall r, core_loop fuel cfuel md (initial_sim md dom) r <-> r = Ok s.
Proof. exact idle_run. Qed.
Definition some_mat32 : material_params K32 := mkMatParams "fuel" f1 f1 0 3 f1 "flat" "flat" "flat" f1 f1 f1.
Definition some_md32 (n : N) : mcdata K32 :=
  mkMcData (mkSimParams n 3 1 f0 f1 f1 true false true) (mkExecInfo Sequential 1 0 1)
    (mkTrackData f1 (mkNuclear 3 [] []) [mkMaterial "fuel" f1 []]) [("fuel"%string, some_mat32)].
Example c70_idle_single_case : ei_policy (mc_exec (some_md32 0)) = Sequential /\ sp_n_groups (mc_params (some_md32 0)) <> 0 /\ has_source (some_md32 0) silent_dom32 /\
  sp_n_particles (mc_params (some_md32 0)) = 0 /\ sp_n_steps (mc_params (some_md32 0)) <> 0.
Proof.
  split; [reflexivity|]. split; [vm_compute; discriminate|]. split; [|split; [reflexivity|vm_compute; discriminate]].
  exists [f1], (fsum [fmul (fmul f1 f1) f1]). split; [reflexivity|]. split; [reflexivity|]. split; [vm_compute; reflexivity|].
  constructor; [|constructor]. exists f1. split; [reflexivity|]. vm_compute. reflexivity.
Qed.
Print Assumptions c70_idle_run_single.

(** C71 in f32. *)
Theorem c71_fewer_than_ten_single : forall lm fuel cfuel (md : mcdata (f32ops lm)) dom (xs : list f32),
  (ei_policy (mc_exec md) = Sequential \/ ei_policy (mc_exec md) = Rayon) ->
  sp_standard (mc_params md) = true \/ sp_n_groups (mc_params md) <> 0 -> materials_known md -> Forall2 (emits md) (d_cells dom) xs ->
  Forall (fun x => is_finite x = true /\ (0 <= B2R x)%R) xs ->
  is_finite (fsum (K := f32ops lm) xs : f32) = true -> (bpow radix2 (-100) <= B2R (fsum (K := f32ops lm) xs : f32) <= bpow radix2 100)%R ->
  0 < sp_n_particles (mc_params md) < 10 ->
  exists s, empty_after md dom (N.to_nat (sp_n_steps (mc_params md))) s /\ forall r, core_loop fuel cfuel md (initial_sim md dom) r <-> r = Ok s.
Proof. exact few_run32. Qed.
Definition nine_weights32 : list f32 := [fmul32 (fmul32 (f32_of_Z 1) (f32_of_Z 1)) (f32_of_Z 1)].
Example c71_few_case_single : materials_known (some_md32 9) /\ Forall2 (emits (some_md32 9)) (d_cells silent_dom32) nine_weights32 /\
  Forall (fun x => is_finite x = true /\ (0 <= B2R x)%R) nine_weights32 /\ is_finite (fsum (K := K32) nine_weights32 : f32) = true /\
  (bpow radix2 (-100) <= B2R (fsum (K := K32) nine_weights32 : f32) <= bpow radix2 100)%R.
Proof.
  assert (P : forall x : f32, B2SF x = SpecFloat.S754_finite false 8388608 (-23) -> is_finite x = true /\ B2R x = 1%R).
  { intros x H. destruct (finite_value32 x _ _ _ H) as (A & B). split; [exact A|]. rewrite B. unfold F2R. cbn. lra. }
  assert (B1 : (bpow radix2 (-100) <= 1 <= bpow radix2 100)%R) by (change 1%R with (bpow radix2 0); split; apply bpow_le; discriminate).
  split; [constructor; [eexists; reflexivity|constructor]|]. split.
  { constructor; [|constructor]. eexists. eexists. split; [reflexivity|]. split; reflexivity. }
  destruct (P (fmul32 (fmul32 (f32_of_Z 1) (f32_of_Z 1)) (f32_of_Z 1))) as (A1 & A2); [vm_compute; reflexivity|].
  destruct (P (fsum (K := K32) nine_weights32 : f32)) as (A3 & A4); [vm_compute; reflexivity|].
  split; [constructor; [split; [exact A1|rewrite A2; lra]|constructor]|]. split; [exact A3|]. rewrite A4. exact B1.
Qed.
Print Assumptions c71_fewer_than_ten_single.

(** In any arithmetic, the number of segments of a particle counts the segments of its track; a particle created on the way takes over the count so far. *)
Theorem c72_track_segments : forall (K : FloatOps) td dom (p : particle K) evs p' nx, track_path td dom p evs p' nx ->
  forall n, p_num_segments p = count_segments K n ->
  p_num_segments p' = count_segments K (n + List.length evs) /\
  Forall (fun q => exists k, (1 <= k <= List.length evs)%nat /\ p_num_segments q = count_segments K (n + k)) nx.
Proof. exact @track_segs. Qed.
Example c72_track_segments_case : (exists p', track_path room_td room_dom start [SegFacet BoundaryReflection; SegCensus] p' []) /\
  p_num_segments start = count_segments Rops 0.
Proof. split; [exact demo_track|reflexivity]. Qed.
Print Assumptions c72_track_segments.

(** In any arithmetic, a particle of the source has counted nothing, and the count is kept from cycle to cycle. *)
Theorem c72_source_segments : forall (K : FloatOps) (md : mcdata K) w dom c v x p, source_particle md w dom c v x = Ok p -> p_num_segments p = count_segments K 0.
Proof. exact @sourced_segs. Qed.
(** Whether the code returned, without a panic. *)
Definition is_ok {A} (r : result A) : bool := match r with Ok _ => true | _ => false end.
Lemma is_ok_inv {A} (r : result A) : is_ok r = true -> exists x, r = Ok x.
Proof. destruct r as [x| |]; intros H; [exists x; reflexivity|discriminate|discriminate]. Qed.
(** A particle of the source of the small problem of DemoSingle.v. *)
Definition single_sourced : result (particle K32) :=
  do md <- single_data Sequential 10 2 ; do dom <- single_domain (mkDims 1 1 1) "octant" ; source_particle md f1 dom 0 f1 7.
Lemma sourced_inv r : single_sourced = Ok r -> exists (md : mcdata K32) dom, source_particle md f1 dom 0 f1 7 = Ok r.
Proof. unfold single_sourced. generalize (single_data Sequential 10 2) (single_domain (mkDims 1 1 1) "octant"). intros [md| |] [dom| |] H; try discriminate H. exists md, dom. exact H. Qed.
Example c72_source_segments_case : exists (md : mcdata K32) dom p, source_particle md f1 dom 0 f1 7 = Ok p.
Proof.
  assert (H : is_ok single_sourced = true) by (vm_compute; reflexivity). apply is_ok_inv in H. destruct H as (p & H). apply sourced_inv in H. destruct H as (md & dom & H).
  exists md, dom, p. exact H.
Qed.
Print Assumptions c72_source_segments.
Theorem c72_next_cycle : forall (K : FloatOps) (td : track_data K) (p q : particle K), prepare_particle td p = Ok q -> p_num_segments q = p_num_segments p.
Proof. exact @prepared_segs. Qed.
Example c72_next_cycle_case : exists q q' : particle Rops, prepare_particle late_td q = Ok q'.
Proof. destruct late_fission as (_ & _ & _ & _ & _ & _ & q & _ & q' & _ & _ & _ & _ & _ & _ & _ & H & _). exists q, q'. exact H. Qed.
Print Assumptions c72_next_cycle.

(** In any arithmetic, particles start from zero in the source, and after each cycle of a run every particle has counted one segment or more. *)
Theorem c72_run_segments : forall (K : FloatOps) fuel cf (md : mcdata K) d n s,
  run_steps fuel cf md (initial_sim md d) n (Ok s) -> n <= sp_n_steps (mc_params md) ->
  Forall (fun p => exists k, (1 <= k)%nat /\ p_num_segments p = count_segments K k) (processed (s_cont s)).
Proof. exact @run_segs. Qed.
Example c72_run_segments_case : exists (md : mcdata K64) d s, run_steps 200 20 md (initial_sim md d) 2 (Ok s) /\ 2 <= sp_n_steps (mc_params md).
Proof. destruct demo_census_run as (md & d & s & _ & _ & _ & H). exists md, d, s. exact H. Qed.
Print Assumptions c72_run_segments.

(** In f32 the number of segments of every particle of a run is an integer from 1 to 2^24. *)
Theorem c72_run_segments_single : forall lm fuel cf (md : mcdata (f32ops lm)) d n s,
  run_steps fuel cf md (initial_sim md d) n (Ok s) -> n <= sp_n_steps (mc_params md) ->
  Forall (fun p : particle (f32ops lm) => is_finite (p_num_segments p : f32) = true /\ exists k : Z, (1 <= k <= 2 ^ 24)%Z /\ B2R (p_num_segments p : f32) = IZR k)
    (processed (s_cont s)).
Proof. exact run_segs32. Qed.
(** A run in f32 with 51 segments in its first cycle and 66 in its second. *)
Example c72_run_single_case : exists (md : mcdata K32) d s, run_steps 200 20 md (initial_sim md d) 2 (Ok s) /\ sp_n_steps (mc_params md) = 2 /\
  exists s', core_loop 200 20 md (initial_sim md d) (Ok s') /\ map (fun rep => bget (rp_balance rep) ENumSegments) (s_reports s') = [51; 66].
Proof.
  destruct single_exists as (md & d & s & A & B & s' & C & V). exists md, d, s. split; [exact A|]. split; [exact B|]. exists s'. split; [exact C|].
  unfold single_view in V. injection V; intros _ M. revert M. destruct (s_reports s') as [|r1 [|r2 [|r3 l]]]; cbn [map]; intros M; try discriminate M. injection M; intros. congruence.
Qed.
Print Assumptions c72_run_segments_single.

(** In f64 it is exact up to 2^53. *)
Theorem c72_segments_double : forall lm n,
  is_finite (count_segments (f64ops lm) n : f64) = true /\ B2R (count_segments (f64ops lm) n : f64) = IZR (Z.min (Z.of_nat n) (2 ^ 53)).
Proof. exact count64. Qed.
Example c72_segments_double_case : B2SF (count_segments K64 5) = SpecFloat.S754_finite false 5629499534213120 (-50).
Proof. vm_compute. reflexivity. Qed.
Print Assumptions c72_segments_double.
