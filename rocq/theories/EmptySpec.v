(** Problems whose source rounds down to no particles: specification. *)
From Coq Require Import String NArith List Bool.
From Verif Require Import Float ParticleModel NuclearModel MeshTypes Balance TrackModel CycleModel.
Import ListNotations.
Local Open Scope N_scope.

Section Any.
Context {K : FloatOps}.

(** The number of particles that every cell is to create (population_control.rs lines 94-98) rounds down to zero, with the weight of a particle of main.rs lines
    264-284. *)
Definition sources_nobody (md : mcdata K) (dom : domain K) : Prop :=
  exists rates w n, source_rates md = Ok rates /\ unit_weight md dom = Ok w /\ fto_usize (fmul (src_fraction (K := K)) (fof_N (sp_n_particles (mc_params md)))) = Some n /\
    Forall (fun cs => cell_n_particles md (fdiv (fadd f0 w) (fmul src_fraction (fof_N (sp_n_particles (mc_params md))))) rates cs = Ok 0) (d_cells dom).

(** Nothing has happened in [k] reported cycles: the mesh and its cells are as they were, all counters are zero, the fluxes are as they were initialised, there are
    no particles. *)
Definition empty_after (md : mcdata K) (dom : domain K) (k : nat) (s : sim K) : Prop :=
  let zeros : list (F K) := repeat f0 (N.to_nat (N.of_nat (List.length (d_cells dom)) * sp_n_groups (mc_params md))) in
  u_domain (s_unit s) = dom /\ u_balance (s_unit s) = balance_zero /\ m_flux (u_mem (s_unit s)) = zeros /\
  s_cont s = mkContainer [] [] [] /\ rs_balance (s_results s) = balance_zero /\ List.length (s_reports s) = k /\
  Forall (fun rep => rp_balance rep = balance_zero /\ rp_flux rep = fsum zeros) (s_reports s).
End Any.
