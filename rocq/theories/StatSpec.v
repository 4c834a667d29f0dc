(** Statistics of finite series of reals. *)
From Coq Require Import Reals List.
Import ListNotations.
Local Open Scope R_scope.

Definition total (l : list R) : R := fold_right Rplus 0 l.
Definition average (l : list R) : R := total l / INR (length l).
(** The mean square distance to the average. *)
Definition spread (l : list R) : R := average (map (fun x => (x - average l) ^ 2) l).
(** The mean product of the distances to the averages. *)
Definition joint_spread (l m : list R) : R := average (map (fun '(x, y) => (x - average l) * (y - average m)) (combine l m)).
Definition constant (l : list R) : Prop := exists c, forall x, In x l -> x = c.
