(** Vocabulary for the claims about the energy spectrum. *)
From Coq Require Import NArith List Bool Reals.
From Verif Require Import Float ParticleModel NuclearModel MeshTypes TrackModel CycleModel NuclearSpec.
Import ListNotations.
Local Open Scope N_scope.

(** [n] of the elements have the property. *)
Inductive counted {A} (P : A -> Prop) : list A -> N -> Prop :=
| co_nil : counted P [] 0
| co_yes : forall x l n, P x -> counted P l n -> counted P (x :: l) (N.succ n)
| co_no : forall x l n, ~ P x -> counted P l n -> counted P (x :: l) n.

(** The particles left at the end of each of the first [n] cycles of a run. *)
Inductive run_kept {K : FloatOps} (fuel cfuel : nat) (md : mcdata K) (d : domain K) : N -> sim K -> list (list (particle K)) -> Prop :=
| rk_start : run_kept fuel cfuel md d 0 (initial_sim md d) []
| rk_cycle : forall n s ks s1 s2, run_kept fuel cfuel md d n s ks ->
    cycle_sync md n s = Ok s1 -> cycle_process fuel cfuel md s1 (Ok s2) ->
    run_kept fuel cfuel md d (N.succ n) s2 (ks ++ [processed (s_cont s2)]).

(** The level of an energy: the group it lies in, the first group below all boundaries, and one more level above all of them. *)
Definition on_level (es : list R) (g : nat) (e : R) : Prop :=
  in_group (fun x : R => x) es e (N.of_nat g) \/
  (g = 0%nat /\ exists first, nth_error es 0 = Some first /\ (e < first)%R) \/
  (S g = List.length es /\ exists last, nth_error es g = Some last /\ (last < e)%R).
