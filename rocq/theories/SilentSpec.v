(** Problems without a source: specification. *)
From Coq Require Import String NArith List Bool.
From Flocq Require Import Core IEEE754.BinarySingleNaN.
From Verif Require Import Float RngModel RngIeee Ieee ParticleModel NuclearModel MeshTypes Balance TrackModel CycleModel.
Import ListNotations.
Local Open Scope N_scope.

Definition is_zero64 (x : f64) : bool := match x with B754_zero _ => true | _ => false end.

(** The cell emits nothing in a time step: the source rate of its material (parameters.rs line 156) or the time step is a zero, of either sign; nothing in the
    product of montecarlo.rs line 101 overflows. *)
Definition emits_nothing {lm} (md : mcdata (f64ops lm)) (cs : cell_state (f64ops lm)) : Prop :=
  exists mat mp, nth_error (td_mats (mc_track md)) (N.to_nat (cs_material cs)) = Some mat /\ map_index (mc_material_params md) (mat_name mat) = Ok mp /\
    is_finite (cs_volume cs : f64) = true /\ is_finite (mp_source_rate mp : f64) = true /\ is_finite (td_dt (mc_track md) : f64) = true /\
    is_finite (fmul (cs_volume cs) (mp_source_rate mp) : F (f64ops lm)) = true /\
    (is_zero64 (mp_source_rate mp) = true \/ is_zero64 (td_dt (mc_track md)) = true).

(** Every material of the simulation has parameters. *)
Definition materials_named {lm} (md : mcdata (f64ops lm)) : Prop :=
  Forall (fun mat => exists mp, map_index (mc_material_params md) (mat_name mat) = Ok mp) (td_mats (mc_track md)).

(** The source emits: the weight of every cell (montecarlo.rs lines 94-103) is finite and their sum, as the code computes it, is positive. *)
Definition has_source {lm} (md : mcdata (f64ops lm)) (dom : domain (f64ops lm)) : Prop :=
  exists rates w, source_rates md = Ok rates /\ unit_weight md dom = Ok w /\ flt f0 w = true /\
    Forall (fun cs => exists rate, vec_get rates (cs_material cs) = Ok rate /\
      is_finite (fmul (fmul (cs_volume cs) rate) (td_dt (mc_track md)) : F (f64ops lm)) = true) (d_cells dom).

(** Nothing has happened in [k] reported cycles: the mesh and its cells are as they were, all counters and fluxes are zero, there are no particles. *)
Definition idle {lm} (md : mcdata (f64ops lm)) dom (k : nat) (s : sim (f64ops lm)) : Prop :=
  u_domain (s_unit s) = dom /\ u_balance (s_unit s) = balance_zero /\ Forall (fun x => x = f0) (m_flux (u_mem (s_unit s))) /\
  s_cont s = mkContainer [] [] [] /\ rs_balance (s_results s) = balance_zero /\ List.length (s_reports s) = k /\
  Forall (fun rep => rp_balance rep = balance_zero /\ rp_flux rep = f0) (s_reports s).
