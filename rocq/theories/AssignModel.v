(** Model of /repo/fastiron/src/geometry/grid_assignment_object.rs: search of the nearest center. *)
From Coq Require Import NArith QArith List Bool.
From Verif Require Import Float ParticleModel NuclearModel CycleModel.
Import ListNotations.
Local Open Scope N_scope.
Local Open Scope float_scope.

Section Assign.
Context {K : FloatOps}.

(** grid_assignment_object.rs lines 24-49, [GridAssignmentObject], without the two queues
    (empty between two searches); the vector of cells is split in its two fields,
    [burned] and [my_centers] (lines 18-21). *)
Record gao : Type := mkGao {
  ga_nx : N; ga_ny : N; ga_nz : N;
  ga_dx : F K; ga_dy : F K; ga_dz : F K;
  ga_corner : vec K;
  ga_centers : list (vec K);
  ga_my_centers : list (list N);
  ga_burned : list bool
}.

(** lines 59-68: componentwise extrema, from the first center. *)
Definition fold_min (l : list (vec K)) (v : vec K) : vec K :=
  fold_left (fun m v => mkVec (fmin (vx m) (vx v)) (fmin (vy m) (vy v)) (fmin (vz m) (vz v))) l v.
Definition fold_max (l : list (vec K)) (v : vec K) : vec K :=
  fold_left (fun m v => mkVec (fmax (vx m) (vx v)) (fmax (vy m) (vy v)) (fmax (vz m) (vz v))) l v.

(** lines 149-151 and its copies: index along one axis, before the upper clamp. *)
Definition axis_index (x corner d : F K) (n : N) : result N :=
  do i <- unwrap (fto_usize (fmax (ffloor ((x -. corner) /. d)) f0)) ;
  do m <- usub n 1 ;
  Ok (N.min i m).

(** lines 147-168, [which_cell_tuple]. *)
Definition which_cell_tuple (g : gao) (r : vec K) : result (N * N * N) :=
  do ix <- axis_index (vx r) (vx (ga_corner g)) (ga_dx g) (ga_nx g) ;
  do iy <- axis_index (vy r) (vy (ga_corner g)) (ga_dy g) (ga_ny g) ;
  do iz <- axis_index (vz r) (vz (ga_corner g)) (ga_dz g) (ga_nz g) ;
  Ok (ix, iy, iz).

(** lines 176-178, [tuple_to_index]. *)
Definition tuple_to_index (g : gao) (t : N * N * N) : N :=
  let '(x, y, z) := t in x + ga_nx g * (y + ga_ny g * z).
(** lines 181-187, [index_to_tuple]. *)
Definition index_to_tuple (g : gao) (idx : N) : N * N * N :=
  let ix := idx mod ga_nx g in
  let tmp := idx / ga_nx g in
  (ix, tmp mod ga_ny g, tmp / ga_ny g).

(** lines 98-101: each center is recorded in its cell. *)
Fixpoint record_centers (g : gao) (i : N) (l : list (vec K)) : result gao :=
  match l with
  | [] => Ok g
  | c :: l =>
      do t <- which_cell_tuple g c ;
      let idx := tuple_to_index g t in
      do mine <- vec_get (ga_my_centers g) idx ;
      record_centers
        (mkGao (ga_nx g) (ga_ny g) (ga_nz g) (ga_dx g) (ga_dy g) (ga_dz g) (ga_corner g) (ga_centers g)
               (list_set (ga_my_centers g) (N.to_nat idx) (mine ++ [i])) (ga_burned g))
        (N.succ i) l
  end.

(** lines 53-104, [new]. *)
Definition gao_new (centers : list (vec K)) : result gao :=
  let centers_per_cell : F K := fof_N 5 in
  let n_centers : F K := fof_N (N.of_nat (List.length centers)) in
  do c0 <- vec_get centers 0 ;
  let min_coords := fold_min centers c0 in
  let max_coords := fold_max centers c0 in
  let one := flit (1 # 1) in
  let lx := fmax one (vx max_coords -. vx min_coords) in
  let ly := fmax one (vy max_coords -. vy min_coords) in
  let lz := fmax one (vz max_coords -. vz min_coords) in
  let dim := fcbrt (n_centers /. (centers_per_cell *. lx *. ly *. lz)) in
  let nx := fmax one (ffloor (dim *. lx)) in
  let ny := fmax one (ffloor (dim *. ly)) in
  let nz := fmax one (ffloor (dim *. lz)) in
  do n_cells <- unwrap (fto_usize (nx *. ny *. nz)) ;
  do inx <- unwrap (fto_usize nx) ;
  do iny <- unwrap (fto_usize ny) ;
  do inz <- unwrap (fto_usize nz) ;
  record_centers
    (mkGao inx iny inz (lx /. nx) (ly /. ny) (lz /. nz) min_coords centers
           (repeat [] (N.to_nat n_cells)) (repeat false (N.to_nat n_cells)))
    0 centers.

(** lines 195-202: [abs_diff(..).saturating_sub(1)] converted to T. *)
Definition axis_gap (a b : N) (d : F K) : F K :=
  d *. fof_N (if a <? b then b - a - 1 else a - b - 1).
(** lines 191-205, [min_dist2]. *)
Definition min_dist2 (g : gao) (r : vec K) (cell_idx : N) : result (F K) :=
  do rt <- which_cell_tuple g r ;
  let '(rx, ry, rz) := rt in
  let '(tx, ty, tz) := index_to_tuple g cell_idx in
  let x := axis_gap tx rx (ga_dx g) in
  let y := axis_gap ty ry (ga_dy g) in
  let z := axis_gap tz rz (ga_dz g) in
  do _ <- rassert ((f0 <=. x) && (f0 <=. y) && (f0 <=. z)) ;
  Ok (x *. x +. y *. y +. z *. z).

(** The state of a search: flags, [flood_queue] and [wet_list]. *)
Record search : Type := mkSearch { se_burned : list bool; se_queue : list N; se_wet : list N }.

(** lines 208-216, [add_tuple_to_queue]. *)
Definition add_tuple_to_queue (g : gao) (s : search) (t : N * N * N) : result search :=
  let idx := tuple_to_index g t in
  do b <- vec_get (se_burned s) idx ;
  if (b : bool) then Ok s
  else Ok (mkSearch (list_set (se_burned s) (N.to_nat idx) true) (se_queue s ++ [idx]) (se_wet s ++ [idx])).

(** lines 219-256, [add_nbrs_to_queue]: the neighbours that exist, in that order. *)
Definition axis_nbrs (g : gao) (t : N * N * N) : list (N * N * N) :=
  let '(x, y, z) := t in
  (if x + 1 <? ga_nx g then [(x + 1, y, z)] else []) ++ (if 0 <? x then [(x - 1, y, z)] else [])
  ++ (if y + 1 <? ga_ny g then [(x, y + 1, z)] else []) ++ (if 0 <? y then [(x, y - 1, z)] else [])
  ++ (if z + 1 <? ga_nz g then [(x, y, z + 1)] else []) ++ (if 0 <? z then [(x, y, z - 1)] else []).
Definition add_nbrs_to_queue (g : gao) (s : search) (cell_idx : N) : result search :=
  rfold (add_tuple_to_queue g) (axis_nbrs g (index_to_tuple g cell_idx)) s.

(** lines 124-134: the centers of one cell; the result of line 128 is discarded
    by the code, so nothing is done for equal distances. *)
Fixpoint scan_centers (g : gao) (rr : vec K) (l : list N) (best : F K * option N) : result (F K * option N) :=
  match l with
  | [] => Ok best
  | i :: l =>
      do c <- vec_get (ga_centers g) i ;
      let r2 := vdot (vsub rr c) (vsub rr c) in
      scan_centers g rr l (if r2 <. fst best then (r2, Some i) else best)
  end.

(** lines 117-136: the main loop. *)
Fixpoint search_loop (fuel : nat) (g : gao) (rr : vec K) (s : search) (best : F K * option N)
  : result (search * (F K * option N)) :=
  match se_queue s with
  | [] => Ok (s, best)
  | cell_idx :: q =>
      match fuel with
      | O => NoFuel
      | S fuel =>
          let s := mkSearch (se_burned s) q (se_wet s) in
          do d <- min_dist2 g rr cell_idx ;
          if d >. fst best then search_loop fuel g rr s best
          else
            do mine <- vec_get (ga_my_centers g) cell_idx ;
            do best <- scan_centers g rr mine best ;
            do s <- add_nbrs_to_queue g s cell_idx ;
            search_loop fuel g rr s best
      end
  end.

(** lines 138-140: the flags of the visited cells are cleared. *)
Definition clear_burned (burned : list bool) (wet : list N) : list bool :=
  fold_left (fun b i => list_set b (N.to_nat i) false) wet burned.

(** lines 111-144, [nearest_center]: the index and the flags left behind.  The
    fuel is one more than the number of cells; [AssignLemmas.nearest_center_fuel] shows that it is
    always enough. *)
Definition nearest_center (g : gao) (rr : vec K) : result (N * list bool) :=
  do t <- which_cell_tuple g rr ;
  do s <- add_tuple_to_queue g (mkSearch (ga_burned g) [] []) t ;
  do (s, best) <- search_loop (S (List.length (ga_burned g))) g rr s
                    (flit (inject_Z (10 ^ 300)), None) ;
  do i <- unwrap (snd best) ;
  Ok (i, clear_burned (se_burned s) (se_wet s)).

End Assign.
Arguments gao : clear implicits.
