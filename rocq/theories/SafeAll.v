(** The statements of claim C49, put together. *)
From Coq Require Import String NArith QArith Reals Lra List Bool Permutation.
From Verif Require Import Float RealOps RngModel Ieee ParticleModel NuclearModel MeshTypes Balance TrackModel CycleModel GridModel AssignModel MeshModel GridSpec MeshSpec GeomSpec
  ScheduleSpec ScheduleFacts RangeSpec RangeFacts RunAgree ScheduleRun IeeeEnergy PopSpec ParamModel ParamSpec SetUpSpec SetUpReal SafeSpec SafeRun SafeBuilt SafeReal SafeIeee.
Import ListNotations.
Local Open Scope N_scope.

Lemma never_panics (K : FloatOps) (good ok : F K -> Prop) (md : mcdata K) dom fuel cfuel r :
  sign_laws good -> safe_energies md ok -> threads_ok md -> implemented md -> sound_problem md dom -> indexed md dom -> safe_values good md dom ->
  core_loop fuel cfuel md (initial_sim md dom) r -> r <> Panic.
Proof.
  intros SL Hs Ht Hi Hp Hx Hv H. eapply (run_never_panics good SL ok md Hs); [exact Ht|exact Hi| |exact H]. constructor; assumption.
Qed.

Lemma never_panics64 lm (md : mcdata (f64ops lm)) dom fuel cfuel r :
  ln_sign lm -> bounded_params lm md -> threads_ok md -> implemented md -> sound_problem md dom -> indexed md dom -> fine_numbers lm md dom ->
  core_loop fuel cfuel md (initial_sim md dom) r -> r <> Panic.
Proof.
  intros Hl Hb Ht Hi Hp Hx Hf H.
  exact (never_panics (f64ops lm) good64 (below lm md) md dom fuel cfuel r (sign_laws64 lm Hl) (bounded_safe lm md Hb) Ht Hi Hp Hx (safe_values64 lm md dom Hf) H).
Qed.

(** At any moment of a parallel region of a run, whatever the schedule and the slices, the entries of the flux tally and of the cross-section cache that are used exist. *)
Lemma accesses_in_range (K : FloatOps) fuel cfuel (md : mcdata K) d u c slices ex cf t :
  flt (f0 : F K) f0 = false -> energies_bounded md -> threads_ok md -> implemented md -> sound_problem md d -> tracked fuel cfuel md d u c ->
  Permutation (concat slices) (processing c) ->
  csteps (sp_n_groups (mc_params md))
    (mkConf (map (fun l => Running (track_slice fuel cfuel (mc_track md) (u_domain u) l balance_zero [])) slices)
       (map (fun v => [v]) (m_cache (u_mem u))) (m_flux (u_mem u)) ex) cf ->
  In t (cf_tasks cf) ->
  match t with
  | Running (LoadXs c g _) | Running (StoreXs c g _ _) => exists v, nth_error (cf_hist cf) (N.to_nat (slot (sp_n_groups (mc_params md)) c g)) = Some v
  | Running (AddFlux c g _ _) => exists v, nth_error (cf_flux cf) (N.to_nat (slot (sp_n_groups (mc_params md)) c g)) = Some v
  | _ => True
  end.
Proof.
  intros Hz He Ht Hi Hp Htr Hs Hc Hin. destruct (tracked_sound Hz fuel cfuel md d u c He Ht Hi Hp Htr) as (Hm & Hr).
  assert (Hr' : Forall (stays_in_range (mc_track md) (u_domain u) (sp_n_groups (mc_params md))) (concat slices)) by (eapply Permutation_Forall; [symmetry; exact Hs|exact Hr]).
  assert (X := tasks_in_range Hz fuel cfuel md u slices ex cf Hm Hr' Hc t Hin). destruct t as [p| |]; try exact I.
  destruct p; try exact I; match goal with |- exists v, ?e = Some v => destruct e as [v|] eqn:E; [exists v; reflexivity|exfalso] end.
  - discriminate X. constructor. exact E.
  - discriminate X. constructor. exact E.
  - discriminate X. constructor. exact E.
Qed.
