(** C70: a problem without a source does not run; a problem with a source and no particles requested runs and shows zeros. *)
From Coq Require Import String NArith ZArith Reals List Bool.
From Flocq Require Import Core IEEE754.BinarySingleNaN.
From Verif Require Import Float RngModel RngIeee Ieee ParticleModel NuclearModel MeshTypes Balance TrackModel CycleModel PopDemo SilentSpec SilentFacts IdleFacts.
Import ListNotations.
Local Open Scope N_scope.

(** If no cell emits anything, by a source rate or a time step of zero, the run panics, whatever the numbers of particles and cycles, the policy and the schedule:
    the weight of a particle is then a zero or not a number, and the number of particles of the first cell is not a number. *)
Theorem c70_silent_run : forall lm fuel cfuel (md : mcdata (f64ops lm)) dom r,
  materials_named md -> Forall (emits_nothing md) (d_cells dom) -> d_cells dom <> [] -> sp_n_steps (mc_params md) <> 0 ->
  (core_loop fuel cfuel md (initial_sim md dom) r <-> r = Panic).
Proof. exact silent_run. Qed.
Example c70_silent_case : materials_named silent_md /\ Forall (emits_nothing silent_md) (d_cells silent_dom) /\ d_cells silent_dom <> [] /\
  sp_n_steps (mc_params silent_md) <> 0.
Proof.
  split; [repeat constructor; exists silent_mat; reflexivity|]. split; [|split; discriminate].
  constructor; [|constructor]. exists (mkMaterial (K := K64) "fuel" f1 []), silent_mat. repeat split; try reflexivity. left. reflexivity.
Qed.
Print Assumptions c70_silent_run.

(** With a source and no particles requested, every run returns the same state: all cycles are reported, all counters and fluxes are zero, and the factor 0/0 of the
    population control changes nothing. *)
Theorem c70_idle_run : forall lm fuel cfuel (md : mcdata (f64ops lm)) dom,
  (ei_policy (mc_exec md) = Sequential \/ ei_policy (mc_exec md) = Rayon) ->
  sp_standard (mc_params md) = true \/ sp_n_groups (mc_params md) <> 0 -> has_source md dom -> sp_n_particles (mc_params md) = 0 ->
  exists s, idle md dom (N.to_nat (sp_n_steps (mc_params md))) s /\ forall r, core_loop fuel cfuel md (initial_sim md dom) r <-> r = Ok s.
Proof. exact idle_run. Qed.
Definition idle_mat : material_params K64 := mkMatParams "fuel" f1 f1 0 3 f1 "flat" "flat" "flat" f1 f1 f1.
Definition idle_md : mcdata K64 :=
  mkMcData (mkSimParams 0 3 1 f0 f1 f1 true false true) (mkExecInfo Sequential 1 0 1)
    (mkTrackData f1 (mkNuclear 3 [] []) [mkMaterial "fuel" f1 []]) [("fuel"%string, idle_mat)].
Example c70_idle_case : ei_policy (mc_exec idle_md) = Sequential /\ sp_n_groups (mc_params idle_md) <> 0 /\ has_source idle_md silent_dom /\
  sp_n_particles (mc_params idle_md) = 0 /\ sp_n_steps (mc_params idle_md) <> 0.
Proof.
  split; [reflexivity|]. split; [vm_compute; discriminate|]. split; [|split; [reflexivity|vm_compute; discriminate]].
  exists [f1], (fsum [fmul (fmul f1 f1) f1]). split; [reflexivity|]. split; [reflexivity|]. split; [vm_compute; reflexivity|].
  constructor; [|constructor]. exists f1. split; [reflexivity|]. vm_compute. reflexivity.
Qed.
Print Assumptions c70_idle_run.
