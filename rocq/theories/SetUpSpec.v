(** Conditions under which a run can start: vocabulary of claims C41 to C43. *)
From Coq Require Import NArith List Reals String.
From Verif Require Import Float RealOps RngModel ParticleModel NuclearModel MeshTypes GridModel MeshModel GridSpec MeshSpec GeomSpec MaterialFacts ParamModel ParamSpec.
Import ListNotations.
Local Open Scope R_scope.

Definition dims_of {K : FloatOps} (s : simulation_params K) : dims := mkDims (si_nx s) (si_ny s) (si_nz s).

(** Sizes the program can deal with: a positive number of cells that fits in the integer types, sides of the box in the range of usize,
    at least ten particles per cell, one unit and a seed for which the center of the domain is in the grid. *)
Definition sane_sizes (s : simulation_params Rops) : Prop :=
  positive (dims_of s) /\ small (dims_of s) /\ (total_cells (dims_of s) < two64)%N /\
  box_ok (si_lx s) /\ box_ok (si_ly s) /\ box_ok (si_lz s) /\
  (10 <= si_n_particles s / total_cells (dims_of s))%N /\ (4 * si_n_particles s < two64)%N /\ si_n_units s = 1%N /\
  (si_seed s + 1 < two64)%N /\ center_draws_below_1 (si_seed s).
(** Every cell is in a geometry. *)
Definition geometry_everywhere (s : simulation_params Rops) (geoms : list (geometry_params Rops)) : Prop :=
  forall t, cell_in (dims_of s) t -> Exists (fun g => contains g (middle_of (grid_new (K := Rops) (dims_of s) (si_lx s) (si_ly s) (si_lz s)) t)) geoms.
Definition nu_bars_small (p : params Rops) : Prop := Forall (fun e : string * xs_params Rops => 0 <= (xp_nu_bar (snd e) : R) <= 4) (pa_xs p).

