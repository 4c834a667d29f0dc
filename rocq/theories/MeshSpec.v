(** Vocabulary for the claims about the mesh of one processor. *)
From Coq Require Import NArith ZArith List Bool String Permutation.
From Verif Require Import Float ParticleModel MeshTypes GridModel AssignModel MeshModel GridSpec.
Import ListNotations.
Local Open Scope N_scope.

(** The three corner nodes (global numbers) of facet [k] of a cell. *)
Definition corners_of (d : dims) (cell : N) (k : nat) : N * N * N :=
  let '(a, b, c) := nth k NODE_INDIRECT (0, 0, 0) in
  let g i := nth (N.to_nat i) (get_node_gids d cell) 0 in (g a, g b, g c).
(** The same triangle seen from the other side. *)
Definition reversed (t : N * N * N) : N * N * N := let '(a, b, c) := t in (b, a, c).
(** The facet that the code pairs with facet [k]. *)
Definition paired (k : nat) : nat := N.to_nat (nth k OPPOSING_FACET 0).

(** The hash map iterates over its entries in some order. *)
Definition any_order (order : list (N * N) -> list (N * N)) : Prop := forall l, Permutation (order l) l.

(** The event asked for on a boundary face. *)
Definition requested (bc : string) (f : nat) : option adj_event :=
  if String.eqb bc "reflect" then Some BoundaryReflection
  else if String.eqb bc "escape" then Some BoundaryEscape
  else if String.eqb bc "octant" then Some (if face_up f then BoundaryEscape else BoundaryReflection)
  else None.

Section Built.
Context {K : FloatOps}.

(** A center in a cell of the grid. *)
Definition center_inside (g : grid K) (c : vec K) : Prop :=
  exists root, which_cell g c = Ok root /\ root < total_cells (g_dims g).

(** A partition built for one processor. *)
Definition partitioned (g : grid K) (p : partition) : Prop :=
  positive (g_dims g) /\ small (g_dims g) /\
  exists order c, any_order order /\ center_inside g c /\ build_mesh_partition order 0 0 g [c] = Ok p.

(** A mesh built for one processor. *)
Definition built (g : grid K) (bc : string) (p : partition) (m : mesh K) : Prop :=
  partitioned g p /\ exists boundary, get_boundary_conditions bc = Ok boundary /\ mesh_new p g boundary = Ok m.

(** Cell [i] of the mesh is cell [c] of the grid. *)
Definition local_to_global (p : partition) (i : nat) (c : N) : Prop := nth_error (map fst (pt_cells p)) i = Some c.

(** The facet [k] of cell [i]. *)
Definition facet_at (m : mesh K) (i k : nat) (fa : facet_adj) : Prop :=
  exists cc, nth_error (me_conn m) i = Some cc /\ nth_error (cc_facet cc) k = Some fa.

End Built.
