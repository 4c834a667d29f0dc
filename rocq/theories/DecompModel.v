(** Model of /repo/fastiron/src/utils/decomposition_object.rs and comm_object.rs. *)
From Coq Require Import NArith List Bool.
From Verif Require Import Float NuclearModel CycleModel.
Import ListNotations.
Local Open Scope N_scope.

(** decomposition_object.rs lines 16-23, [DecompositionObject]. *)
Record decomposition : Set := mkDecomp { dc_assigned : list N; dc_rank : list N; dc_index : list N }.

(** decomposition_object.rs lines 27-48, [new].  The division of line 34 is reached only if
    there is a domain, hence with a positive divisor.  The product of line 28 is not checked for overflow
    here. *)
Definition decomposition_new (my_rank n_ranks dom_per_rank : N) : result decomposition :=
  let n_domains := n_ranks * dom_per_rank in
  let all := nrange 0 (N.to_nat n_domains) in
  let rank := map (fun i => i / dom_per_rank) all in
  let index := map (fun i => i mod dom_per_rank) all in
  do assigned <- rmap (fun ii =>
                   let idx := dom_per_rank * my_rank + ii in
                   do r <- vec_get rank idx ;
                   do i <- vec_get index idx ;
                   Ok (dom_per_rank * r + i)) (nrange 0 (N.to_nat dom_per_rank)) ;
  Ok (mkDecomp assigned rank index).

(** comm_object.rs lines 14-27, [CommObject::new]: the table [gid_to_idx], from the global
    identifiers of the partitions. *)
Definition gid_step (n : N) (table : list N) (e : N * N) : result (list N) :=
  do _ <- rassert (snd e <? n) ;
  Ok (list_set table (N.to_nat (snd e)) (fst e)).
Definition gid_to_idx (gids : list N) : result (list N) :=
  rfold (gid_step (N.of_nat (length gids))) (combine (nrange 0 (length gids)) gids) (repeat 0 (length gids)).
