(** C71: runs whose source rounds down to nothing are empty. *)
From Coq Require Import String NArith ZArith QArith Reals Lra Lia List Bool.
From Flocq Require Import Core IEEE754.BinarySingleNaN.
From Verif Require Import Float RngModel RngIeee Ieee RealOps ParticleModel NuclearModel MeshTypes Balance TrackModel CycleModel PopSpec SourceCount PopDemo IeeeEnergy EmptySpec EmptyFacts FewFacts FewIeee.
Import ListNotations.
Local Open Scope N_scope.

(** In any arithmetic: when the number of particles of every cell rounds down to zero in the first cycle, it does so in all, and every run returns the same state
    with all cycles reported and all counters zero. *)
Theorem c71_empty_run : forall (K : FloatOps) fuel cfuel (md : mcdata K) dom,
  (ei_policy (mc_exec md) = Sequential \/ ei_policy (mc_exec md) = Rayon) ->
  sp_standard (mc_params md) = true \/ sp_n_groups (mc_params md) <> 0 -> sources_nobody md dom ->
  exists s, empty_after md dom (N.to_nat (sp_n_steps (mc_params md))) s /\ forall r, core_loop fuel cfuel md (initial_sim md dom) r <-> r = Ok s.
Proof. exact @empty_run. Qed.
(** In binary64, nine particles requested. *)
Definition nine_mat : material_params K64 := mkMatParams "fuel" f1 f1 0 3 f1 "flat" "flat" "flat" f1 f1 f1.
Definition nine_md : mcdata K64 :=
  mkMcData (mkSimParams 9 3 5 f0 f1 f1 true false true) (mkExecInfo Rayon 1 0 1)
    (mkTrackData f1 (mkNuclear 3 [] []) [mkMaterial "fuel" f1 []]) [("fuel"%string, nine_mat)].
Example c71_empty_case : ei_policy (mc_exec nine_md) = Rayon /\ sp_n_groups (mc_params nine_md) <> 0 /\ sources_nobody nine_md silent_dom.
Proof.
  split; [reflexivity|]. split; [vm_compute; discriminate|].
  exists [f1], (fsum [fmul (fmul f1 f1) f1]), 0. split; [reflexivity|]. split; [reflexivity|]. split; [vm_compute; reflexivity|].
  constructor; [vm_compute; reflexivity|constructor].
Qed.
Print Assumptions c71_empty_run.

(** In exact arithmetic: this is so when each cell's share of a tenth of the requested number is below one, however many particles are requested in all. *)
Theorem c71_thin_source : forall fuel cfuel (md : mcdata Rops) dom (xs : list R),
  (ei_policy (mc_exec md) = Sequential \/ ei_policy (mc_exec md) = Rayon) ->
  sp_standard (mc_params md) = true \/ sp_n_groups (mc_params md) <> 0 -> materials_known md ->
  Forall2 (emits md) (d_cells dom) xs -> Forall (fun x => (0 <= x)%R) xs -> (0 < Rsum xs)%R -> 0 < sp_n_particles (mc_params md) < 2 ^ 64 ->
  Forall (fun x => (x * IZR (Z.of_N (sp_n_particles (mc_params md))) < 10 * Rsum xs)%R) xs ->
  exists s, empty_after md dom (N.to_nat (sp_n_steps (mc_params md))) s /\ forall r, core_loop fuel cfuel md (initial_sim md dom) r <-> r = Ok s.
Proof. exact thin_run. Qed.
(** Two equal cells and nineteen particles: the share of each is 0.95. *)
Definition two_cells : domain Rops :=
  mkDomain (K := Rops) 0 [mkCellState (K := Rops) 0 (1 : R)%R (1 : R)%R 0 0; mkCellState (K := Rops) 0 (1 : R)%R (1 : R)%R 1 0] (d_mesh tiny_dom).
Example c71_thin_case : materials_known (tiny_md 19) /\ Forall2 (emits (tiny_md 19)) (d_cells two_cells) [(1 * 1 * 1)%R; (1 * 1 * 1)%R] /\
  (0 < Rsum [1 * 1 * 1; 1 * 1 * 1])%R /\ 0 < sp_n_particles (mc_params (tiny_md 19)) < 2 ^ 64 /\
  Forall (fun x => (x * IZR (Z.of_N (sp_n_particles (mc_params (tiny_md 19)))) < 10 * Rsum [1 * 1 * 1; 1 * 1 * 1])%R) [(1 * 1 * 1)%R; (1 * 1 * 1)%R].
Proof.
  split; [apply tiny_known|]. split.
  { constructor; [|constructor; [|constructor]]; eexists; eexists; (split; [reflexivity|]; split; reflexivity). }
  assert (E : Rsum [1 * 1 * 1; 1 * 1 * 1]%R = 2%R) by (unfold Rsum; cbn [fold_right]; lra). rewrite E.
  split; [lra|]. split; [cbn [mc_params tiny_md sp_n_particles]; lia|].
  cbn [mc_params tiny_md sp_n_particles]. change (Z.of_N 19) with 19%Z. constructor; [lra|]. constructor; [lra|constructor].
Qed.
Print Assumptions c71_thin_source.

(** When all cells emit the same, ten times their number is needed for a run that is not empty: fewer requested particles create none. *)
Theorem c71_equal_cells : forall fuel cfuel (md : mcdata Rops) dom (x : R),
  (ei_policy (mc_exec md) = Sequential \/ ei_policy (mc_exec md) = Rayon) ->
  sp_standard (mc_params md) = true \/ sp_n_groups (mc_params md) <> 0 -> materials_known md -> Forall (fun cs => emits md cs x) (d_cells dom) -> (0 < x)%R ->
  0 < sp_n_particles (mc_params md) < 10 * N.of_nat (List.length (d_cells dom)) -> sp_n_particles (mc_params md) < 2 ^ 64 ->
  exists s, empty_after md dom (N.to_nat (sp_n_steps (mc_params md))) s /\ forall r, core_loop fuel cfuel md (initial_sim md dom) r <-> r = Ok s.
Proof. exact equal_run. Qed.
Example c71_equal_case : materials_known (tiny_md 19) /\ Forall (fun cs => emits (tiny_md 19) cs (1 * 1 * 1)%R) (d_cells two_cells) /\
  0 < sp_n_particles (mc_params (tiny_md 19)) < 10 * N.of_nat (List.length (d_cells two_cells)).
Proof.
  split; [apply tiny_known|]. split; [|split; reflexivity]. repeat constructor; eexists; eexists; (split; [reflexivity|]; split; reflexivity).
Qed.
Print Assumptions c71_equal_cells.

(** So every run for which fewer than ten particles are requested is empty, on every mesh. *)
Theorem c71_fewer_than_ten : forall fuel cfuel (md : mcdata Rops) dom (xs : list R),
  (ei_policy (mc_exec md) = Sequential \/ ei_policy (mc_exec md) = Rayon) ->
  sp_standard (mc_params md) = true \/ sp_n_groups (mc_params md) <> 0 -> materials_known md ->
  Forall2 (emits md) (d_cells dom) xs -> Forall (fun x => (0 <= x)%R) xs -> (0 < Rsum xs)%R -> 0 < sp_n_particles (mc_params md) < 10 ->
  exists s, empty_after md dom (N.to_nat (sp_n_steps (mc_params md))) s /\ forall r, core_loop fuel cfuel md (initial_sim md dom) r <-> r = Ok s.
Proof. exact few_run. Qed.
Example c71_few_case : ei_policy (mc_exec (tiny_md 9)) = Sequential /\ sp_n_groups (mc_params (tiny_md 9)) <> 0 /\ materials_known (tiny_md 9) /\
  Forall2 (emits (tiny_md 9)) (d_cells tiny_dom) [(1 * 1 * 1)%R] /\ (0 < Rsum [1 * 1 * 1])%R.
Proof.
  split; [reflexivity|]. split; [discriminate|]. split; [apply tiny_known|]. split; [apply tiny_emits|]. unfold Rsum. cbn [fold_right]. lra.
Qed.
Print Assumptions c71_fewer_than_ten.

(** The same in binary64, when the sum of the weights of the cells is not close to the smallest or largest numbers. *)
Theorem c71_fewer_than_ten_binary64 : forall lm fuel cfuel (md : mcdata (f64ops lm)) dom (xs : list f64),
  (ei_policy (mc_exec md) = Sequential \/ ei_policy (mc_exec md) = Rayon) ->
  sp_standard (mc_params md) = true \/ sp_n_groups (mc_params md) <> 0 -> materials_known md ->
  Forall2 (emits md) (d_cells dom) xs -> Forall (fun x => is_finite x = true /\ (0 <= B2R x)%R) xs ->
  is_finite (fsum (K := f64ops lm) xs : f64) = true -> (bpow radix2 (-1000) <= B2R (fsum (K := f64ops lm) xs : f64) <= bpow radix2 1000)%R ->
  0 < sp_n_particles (mc_params md) < 10 ->
  exists s, empty_after md dom (N.to_nat (sp_n_steps (mc_params md))) s /\ forall r, core_loop fuel cfuel md (initial_sim md dom) r <-> r = Ok s.
Proof. exact few_run64. Qed.
Definition nine_weights : list f64 := [fmul64 (fmul64 (f64_of_Z 1) (f64_of_Z 1)) (f64_of_Z 1)].
Example c71_few_case_binary64 : materials_known nine_md /\ Forall2 (emits nine_md) (d_cells silent_dom) nine_weights /\
  Forall (fun x => is_finite x = true /\ (0 <= B2R x)%R) nine_weights /\ is_finite (fsum (K := K64) nine_weights : f64) = true /\
  (bpow radix2 (-1000) <= B2R (fsum (K := K64) nine_weights : f64) <= bpow radix2 1000)%R.
Proof.
  assert (P : forall x : f64, B2SF x = SpecFloat.S754_finite false 4503599627370496 (-52) -> is_finite x = true /\ B2R x = 1%R).
  { intros x H. destruct (finite_value x _ _ _ H) as (A & B). split; [exact A|]. rewrite B. unfold F2R. cbn. lra. }
  assert (B1 : (bpow radix2 (-1000) <= 1 <= bpow radix2 1000)%R) by (change 1%R with (bpow radix2 0); split; apply bpow_le; discriminate).
  split; [constructor; [eexists; reflexivity|constructor]|]. split.
  { constructor; [|constructor]. eexists. eexists. split; [reflexivity|]. split; reflexivity. }
  destruct (P (fmul64 (fmul64 (f64_of_Z 1) (f64_of_Z 1)) (f64_of_Z 1))) as (A1 & A2); [vm_compute; reflexivity|].
  destruct (P (fsum (K := K64) nine_weights : f64)) as (A3 & A4); [vm_compute; reflexivity|].
  split; [constructor; [split; [exact A1|rewrite A2; lra]|constructor]|]. split; [exact A3|]. rewrite A4. exact B1.
Qed.
(** The condition is needed: with the smallest positive number as the only weight, the weight of a particle rounds to it and nine requested particles create one. *)
Definition smallest64 : f64 := @B754_finite prec53 emax1024 false 1 (-1074) eq_refl.
Example c71_few_tiny_weight :
  fto_usize64 (Bnearbyint mode_DN (fdiv64 (smallest64) (fdiv64 (smallest64) (fmul64 (f64_lit (1 # 10)) (f64_of_Z 9))))) = Some 1.
Proof. vm_compute. reflexivity. Qed.
Print Assumptions c71_fewer_than_ten_binary64.
