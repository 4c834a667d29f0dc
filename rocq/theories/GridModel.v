(** Model of /repo/fastiron/src/geometry/global_fcc_grid.rs and of the mesh constants of
    geometry/mod.rs. *)
From Coq Require Import NArith ZArith QArith List Bool.
From Verif Require Import Float ParticleModel.
Import ListNotations.
Local Open Scope N_scope.
Local Open Scope float_scope.

(** mod.rs lines 36-51, [CORNER_OFFSET]. *)
Definition CORNER_OFFSET : list (N * N * N * N) :=
  [(0, 0, 0, 0); (1, 0, 0, 0); (0, 1, 0, 0); (1, 1, 0, 0); (0, 0, 1, 0); (1, 0, 1, 0); (0, 1, 1, 0);
   (1, 1, 1, 0); (1, 0, 0, 1); (0, 0, 0, 1); (0, 1, 0, 2); (0, 0, 0, 2); (0, 0, 1, 3); (0, 0, 0, 3)].

(** mod.rs lines 55-62, [FACE_OFFSET]. *)
Definition FACE_OFFSET : list (Z * Z * Z) :=
  [(1, 0, 0); (-1, 0, 0); (0, 1, 0); (0, -1, 0); (0, 0, 1); (0, 0, -1)]%Z.

(** [n as i32] for a usize: the 32 low bits, as a two's complement number. *)
Definition as_i32 (n : N) : Z :=
  let m := (Z.of_N n mod 2 ^ 32)%Z in if (m <? 2 ^ 31)%Z then m else (m - 2 ^ 32)%Z.
(** [a + b] on i32: a panic on overflow (debug build). *)
Definition add_i32 (a b : Z) : result Z :=
  if ((- 2 ^ 31 <=? a + b) && (a + b <? 2 ^ 31))%Z then Ok (a + b)%Z else Panic.
(** [x.clamp(lo, hi) as usize]: [Ord::clamp] panics when [lo > hi]. *)
Definition clamp_i32 (x lo hi : Z) : result N :=
  if (lo <=? hi)%Z then Ok (Z.to_N (Z.max lo (Z.min x hi))) else Panic.

(** The integer part of [GlobalFccGrid] (global_fcc_grid.rs lines 12-18). *)
Record dims : Set := mkDims { nx : N; ny : N; nz : N }.

(** Numbers of cells and nodes are usize in the code; the products are not bounded here (an
    overflow of 64 bits is not modelled).  Division by a zero dimension, a panic in the code, is
    not modelled either: the claims are for positive dimensions. *)

(** global_fcc_grid.rs lines 80-86, [cell_idx_to_tuple]. *)
Definition cell_idx_to_tuple (d : dims) (idx : N) : N * N * N :=
  let x := idx mod nx d in
  let tmp := idx / nx d in
  let y := tmp mod ny d in
  let z := tmp / ny d in
  (x, y, z).

(** lines 89-91, [cell_tuple_to_idx]. *)
Definition cell_tuple_to_idx (d : dims) (t : N * N * N) : N :=
  let '(x, y, z) := t in x + nx d * (y + ny d * z).

(** lines 94-98, [node_tuple_to_idx]. *)
Definition node_tuple_to_idx (d : dims) (t : N * N * N * N) : N :=
  let '(x, y, z, b) := t in x + (nx d + 1) * (y + (ny d + 1) * (z + (nz d + 1) * b)).

(** lines 101-111, [node_idx_to_tuple]. *)
Definition node_idx_to_tuple (d : dims) (idx : N) : N * N * N * N :=
  let x := idx mod (nx d + 1) in
  let qx := idx / (nx d + 1) in
  let y := qx mod (ny d + 1) in
  let qy := qx / (ny d + 1) in
  let z := qy mod (nz d + 1) in
  let b := qy / (nz d + 1) in
  (x, y, z, b).

(** lines 114-130, [get_node_gids]. *)
Definition get_node_gids (d : dims) (cell_gid : N) : list N :=
  let '(x, y, z) := cell_idx_to_tuple d cell_gid in
  map (fun o => let '(ox, oy, oz, b) := o in node_tuple_to_idx d (x + ox, y + oy, z + oz, b)) CORNER_OFFSET.

(** lines 189-196, [snap_turtle]. *)
Definition snap_turtle (d : dims) (t : Z * Z * Z) : result (N * N * N) :=
  let '(x, y, z) := t in
  do mx <- usub (nx d) 1 ; do x <- clamp_i32 x 0 (as_i32 mx) ;
  do my <- usub (ny d) 1 ; do y <- clamp_i32 y 0 (as_i32 my) ;
  do mz <- usub (nz d) 1 ; do z <- clamp_i32 z 0 (as_i32 mz) ;
  Ok (x, y, z).

(** The neighbour of a cell at some offset: lines 139-146, and mesh_partition.rs lines 194-201. *)
Definition offset_cell (d : dims) (t : N * N * N) (offset : Z * Z * Z) : result N :=
  let '(x, y, z) := t in
  let '(ox, oy, oz) := offset in
  do x <- add_i32 (as_i32 x) ox ;
  do y <- add_i32 (as_i32 y) oy ;
  do z <- add_i32 (as_i32 z) oz ;
  do s <- snap_turtle d (x, y, z) ;
  Ok (cell_tuple_to_idx d s).

(** lines 133-149, [get_face_nbr_gids]. *)
Definition get_face_nbr_gids (d : dims) (cell_gid : N) : result (list N) :=
  rmap (offset_cell d (cell_idx_to_tuple d cell_gid)) FACE_OFFSET.

Section Grid.
Context {K : FloatOps}.

(** lines 12-32, [GlobalFccGrid]. *)
Record grid : Type := mkGrid {
  g_dims : dims;
  g_lx : F K; g_ly : F K; g_lz : F K;
  g_dx : F K; g_dy : F K; g_dz : F K
}.

(** lines 37-53, [new]. *)
Definition grid_new (n : dims) (lx ly lz : F K) : grid :=
  mkGrid n lx ly lz (lx /. fof_N (nx n)) (ly /. fof_N (ny n)) (lz /. fof_N (nz n)).

(** lines 56-65, [which_cell]. *)
Definition which_cell (g : grid) (r : vec K) : result N :=
  do ix <- unwrap (fto_usize (vx r /. g_dx g)) ;
  do iy <- unwrap (fto_usize (vy r /. g_dy g)) ;
  do iz <- unwrap (fto_usize (vz r /. g_dz g)) ;
  Ok (cell_tuple_to_idx (g_dims g) (ix, iy, iz)).

(** lines 159-178: the offset of a node inside its cell, by basis number; the index
    panics above 3. *)
Definition basis_offset (g : grid) (b : N) : result (vec K) :=
  vec_get [vzero;
           mkVec f0 (g_dy g /. ftwo) (g_dz g /. ftwo);
           mkVec (g_dx g /. ftwo) f0 (g_dz g /. ftwo);
           mkVec (g_dx g /. ftwo) (g_dy g /. ftwo) f0] b.

(** lines 157-186, [node_coord_from_tuple]. *)
Definition node_coord_from_tuple (g : grid) (t : N * N * N * N) : result (vec K) :=
  let '(x, y, z, b) := t in
  do o <- basis_offset g b ;
  Ok (vadd (mkVec (fof_N x *. g_dx g) (fof_N y *. g_dy g) (fof_N z *. g_dz g)) o).

(** lines 152-154, [node_coord_from_idx]. *)
Definition node_coord_from_idx (g : grid) (idx : N) : result (vec K) :=
  node_coord_from_tuple g (node_idx_to_tuple (g_dims g) idx).

(** lines 68-77, [cell_center]. *)
Definition cell_center (g : grid) (idx_cell : N) : result (vec K) :=
  let '(x, y, z) := cell_idx_to_tuple (g_dims g) idx_cell in
  do r <- node_coord_from_tuple g (x, y, z, 0) ;
  Ok (vadd r (mkVec (g_dx g /. ftwo) (g_dy g /. ftwo) (g_dz g /. ftwo))).

End Grid.
Arguments grid : clear implicits.
