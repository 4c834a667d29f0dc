(** Vocabulary for the claims about the grid, independent of the index arithmetic. *)
From Coq Require Import NArith ZArith List Bool.
From Verif Require Import GridModel.
Import ListNotations.
Local Open Scope N_scope.

(** The cells and the nodes of a grid, by coordinates.  A cell has three coordinates; a node has the
    coordinates of a cell corner (one more along each axis) and a kind: 0 for a corner, 1, 2, 3 for the
    center of a face orthogonal to x, y, z. *)
Definition cell_in (d : dims) (t : N * N * N) : Prop :=
  let '(x, y, z) := t in x < nx d /\ y < ny d /\ z < nz d.
Definition node_in (d : dims) (t : N * N * N * N) : Prop :=
  let '(x, y, z, b) := t in x < nx d + 1 /\ y < ny d + 1 /\ z < nz d + 1 /\ b < 4.

Definition positive (d : dims) : Prop := 0 < nx d /\ 0 < ny d /\ 0 < nz d.
(** Sizes that fit in the i32 used for the neighbours. *)
Definition small (d : dims) : Prop := nx d < 2 ^ 31 /\ ny d < 2 ^ 31 /\ nz d < 2 ^ 31.

Definition total_cells (d : dims) : N := nx d * ny d * nz d.
Definition total_nodes (d : dims) : N := (nx d + 1) * (ny d + 1) * (nz d + 1) * 4.

(** The six faces: upper x, lower x, upper y, lower y, upper z, lower z. *)
Inductive axis : Set := AX | AY | AZ.
Definition face_axis (f : nat) : axis := match f with 0 | 1 => AX | 2 | 3 => AY | _ => AZ end%nat.
Definition face_up (f : nat) : bool := match f with 0 | 2 | 4 => true | _ => false end%nat.
Definition opposite_face (f : nat) : nat := match f with 0 => 1 | 1 => 0 | 2 => 3 | 3 => 2 | 4 => 5 | _ => 4 end%nat.

Definition coord (a : axis) (t : N * N * N) : N := let '(x, y, z) := t in match a with AX => x | AY => y | AZ => z end.
Definition size (a : axis) (d : dims) : N := match a with AX => nx d | AY => ny d | AZ => nz d end.
Definition set_coord (a : axis) (t : N * N * N) (v : N) : N * N * N :=
  let '(x, y, z) := t in match a with AX => (v, y, z) | AY => (x, v, z) | AZ => (x, y, v) end.

(** The face lies on the boundary of the problem. *)
Definition on_boundary (d : dims) (t : N * N * N) (f : nat) : bool :=
  let a := face_axis f in
  if face_up f then coord a t + 1 =? size a d else coord a t =? 0.
(** One step across a face that is not on the boundary. *)
Definition one_step (t : N * N * N) (f : nat) : N * N * N :=
  let a := face_axis f in
  set_coord a t (if face_up f then coord a t + 1 else coord a t - 1).
