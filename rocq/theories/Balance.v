(** Model of the event counters of /repo/fastiron/src/data/tallies.rs. *)
From Coq Require Import NArith List.
Import ListNotations.
Local Open Scope N_scope.

(** tallies.rs lines 77-92, [TalliedEvent]. *)
Inductive tallied_event : Set :=
| EAbsorb | ECensus | EEscape | ECollision | EEnd | EFission | EProduce | EScatter | EStart | ESource | EOverRr | EWeightRr | ESplit | ENumSegments.

(** tallies.rs lines 100-103, [Balance]: an array of 14 u64 indexed by the
    position of the event in the enum; here one field per event.  The counters are
    unbounded (overflow of u64 is not modelled). *)
Record balance : Set := mkBalance {
  b_absorb : N;
  b_census : N;
  b_escape : N;
  b_collision : N;
  b_end : N;
  b_fission : N;
  b_produce : N;
  b_scatter : N;
  b_start : N;
  b_source : N;
  b_overrr : N;
  b_weightrr : N;
  b_split : N;
  b_numsegments : N
}.

(** derived [Default] and [reset], lines 99 and 107-109. *)
Definition balance_zero : balance := mkBalance 0 0 0 0 0 0 0 0 0 0 0 0 0 0.

(** lines 122-130, [balance[event]]. *)
Definition bget (b : balance) (e : tallied_event) : N :=
  match e with
  | EAbsorb => b_absorb b
  | ECensus => b_census b
  | EEscape => b_escape b
  | ECollision => b_collision b
  | EEnd => b_end b
  | EFission => b_fission b
  | EProduce => b_produce b
  | EScatter => b_scatter b
  | EStart => b_start b
  | ESource => b_source b
  | EOverRr => b_overrr b
  | EWeightRr => b_weightrr b
  | ESplit => b_split b
  | ENumSegments => b_numsegments b
  end.

(** lines 132-138, [balance[event] = x]. *)
Definition bset (b : balance) (e : tallied_event) (x : N) : balance :=
  match e with
  | EAbsorb => mkBalance x (b_census b) (b_escape b) (b_collision b) (b_end b) (b_fission b) (b_produce b) (b_scatter b) (b_start b) (b_source b) (b_overrr b) (b_weightrr b) (b_split b) (b_numsegments b)
  | ECensus => mkBalance (b_absorb b) x (b_escape b) (b_collision b) (b_end b) (b_fission b) (b_produce b) (b_scatter b) (b_start b) (b_source b) (b_overrr b) (b_weightrr b) (b_split b) (b_numsegments b)
  | EEscape => mkBalance (b_absorb b) (b_census b) x (b_collision b) (b_end b) (b_fission b) (b_produce b) (b_scatter b) (b_start b) (b_source b) (b_overrr b) (b_weightrr b) (b_split b) (b_numsegments b)
  | ECollision => mkBalance (b_absorb b) (b_census b) (b_escape b) x (b_end b) (b_fission b) (b_produce b) (b_scatter b) (b_start b) (b_source b) (b_overrr b) (b_weightrr b) (b_split b) (b_numsegments b)
  | EEnd => mkBalance (b_absorb b) (b_census b) (b_escape b) (b_collision b) x (b_fission b) (b_produce b) (b_scatter b) (b_start b) (b_source b) (b_overrr b) (b_weightrr b) (b_split b) (b_numsegments b)
  | EFission => mkBalance (b_absorb b) (b_census b) (b_escape b) (b_collision b) (b_end b) x (b_produce b) (b_scatter b) (b_start b) (b_source b) (b_overrr b) (b_weightrr b) (b_split b) (b_numsegments b)
  | EProduce => mkBalance (b_absorb b) (b_census b) (b_escape b) (b_collision b) (b_end b) (b_fission b) x (b_scatter b) (b_start b) (b_source b) (b_overrr b) (b_weightrr b) (b_split b) (b_numsegments b)
  | EScatter => mkBalance (b_absorb b) (b_census b) (b_escape b) (b_collision b) (b_end b) (b_fission b) (b_produce b) x (b_start b) (b_source b) (b_overrr b) (b_weightrr b) (b_split b) (b_numsegments b)
  | EStart => mkBalance (b_absorb b) (b_census b) (b_escape b) (b_collision b) (b_end b) (b_fission b) (b_produce b) (b_scatter b) x (b_source b) (b_overrr b) (b_weightrr b) (b_split b) (b_numsegments b)
  | ESource => mkBalance (b_absorb b) (b_census b) (b_escape b) (b_collision b) (b_end b) (b_fission b) (b_produce b) (b_scatter b) (b_start b) x (b_overrr b) (b_weightrr b) (b_split b) (b_numsegments b)
  | EOverRr => mkBalance (b_absorb b) (b_census b) (b_escape b) (b_collision b) (b_end b) (b_fission b) (b_produce b) (b_scatter b) (b_start b) (b_source b) x (b_weightrr b) (b_split b) (b_numsegments b)
  | EWeightRr => mkBalance (b_absorb b) (b_census b) (b_escape b) (b_collision b) (b_end b) (b_fission b) (b_produce b) (b_scatter b) (b_start b) (b_source b) (b_overrr b) x (b_split b) (b_numsegments b)
  | ESplit => mkBalance (b_absorb b) (b_census b) (b_escape b) (b_collision b) (b_end b) (b_fission b) (b_produce b) (b_scatter b) (b_start b) (b_source b) (b_overrr b) (b_weightrr b) x (b_numsegments b)
  | ENumSegments => mkBalance (b_absorb b) (b_census b) (b_escape b) (b_collision b) (b_end b) (b_fission b) (b_produce b) (b_scatter b) (b_start b) (b_source b) (b_overrr b) (b_weightrr b) (b_split b) x
  end.

(** [balance[event] += x]. *)
Definition binc (b : balance) (e : tallied_event) (x : N) : balance := bset b e (bget b e + x).

(** lines 112-117, [add_to_self], and 142-150, [Add]. *)
Definition badd (a b : balance) : balance :=
  mkBalance (b_absorb a + b_absorb b) (b_census a + b_census b) (b_escape a + b_escape b) (b_collision a + b_collision b) (b_end a + b_end b) (b_fission a + b_fission b) (b_produce a + b_produce b) (b_scatter a + b_scatter b) (b_start a + b_start b) (b_source a + b_source b) (b_overrr a + b_overrr b) (b_weightrr a + b_weightrr b) (b_split a + b_split b) (b_numsegments a + b_numsegments b).

(** lines 152-156, [Sum]. *)
Definition bsum (l : list balance) : balance := fold_left badd l balance_zero.

Lemma balance_eq a b : (forall e, bget a e = bget b e) -> a = b.
Proof.
  intros H.
  pose proof (H EAbsorb) as H0.
  pose proof (H ECensus) as H1.
  pose proof (H EEscape) as H2.
  pose proof (H ECollision) as H3.
  pose proof (H EEnd) as H4.
  pose proof (H EFission) as H5.
  pose proof (H EProduce) as H6.
  pose proof (H EScatter) as H7.
  pose proof (H EStart) as H8.
  pose proof (H ESource) as H9.
  pose proof (H EOverRr) as H10.
  pose proof (H EWeightRr) as H11.
  pose proof (H ESplit) as H12.
  pose proof (H ENumSegments) as H13.
  destruct a, b. cbn in *. subst. reflexivity.
Qed.

Lemma bget_bset_same b e x : bget (bset b e x) e = x.
Proof. destruct e; reflexivity. Qed.
Lemma bget_bset_other b e e' x : e <> e' -> bget (bset b e x) e' = bget b e'.
Proof. destruct e, e'; intros H; try reflexivity; exfalso; apply H; reflexivity. Qed.
Lemma bget_badd a b e : bget (badd a b) e = bget a e + bget b e.
Proof. destruct e; reflexivity. Qed.
Lemma bget_zero e : bget balance_zero e = 0.
Proof. destruct e; reflexivity. Qed.
Lemma tallied_event_eq_dec (a b : tallied_event) : {a = b} + {a <> b}.
Proof. decide equality. Defined.
Lemma bget_binc_same b e x : bget (binc b e x) e = bget b e + x.
Proof. unfold binc. apply bget_bset_same. Qed.
Lemma bget_binc_other b e e' x : e <> e' -> bget (binc b e x) e' = bget b e'.
Proof. intros H. unfold binc. apply bget_bset_other. exact H. Qed.
Lemma badd_assoc a b c : badd a (badd b c) = badd (badd a b) c.
Proof. apply balance_eq. intros e. rewrite !bget_badd. apply N.add_assoc. Qed.
Lemma badd_comm a b : badd a b = badd b a.
Proof. apply balance_eq. intros e. rewrite !bget_badd. apply N.add_comm. Qed.
Lemma badd_zero_l a : badd balance_zero a = a.
Proof. apply balance_eq. intros e. rewrite bget_badd, bget_zero. apply N.add_0_l. Qed.
Lemma badd_zero_r a : badd a balance_zero = a.
Proof. rewrite badd_comm. apply badd_zero_l. Qed.
Lemma binc_badd a b e x : binc (badd a b) e x = badd a (binc b e x).
Proof.
  apply balance_eq. intros e'. rewrite bget_badd.
  destruct (tallied_event_eq_dec e e') as [E|E].
  - rewrite <- E, !bget_binc_same, bget_badd. symmetry. apply N.add_assoc.
  - rewrite !bget_binc_other, bget_badd by exact E. reflexivity.
Qed.
Lemma bsum_cons a l : bsum (a :: l) = badd a (bsum l).
Proof.
  unfold bsum. cbn [fold_left]. rewrite badd_zero_l.
  assert (H : forall l x, fold_left badd l x = badd x (fold_left badd l balance_zero)).
  { clear. induction l as [|b l IH]; intros x; cbn [fold_left].
    - symmetry. apply badd_zero_r.
    - rewrite (IH (badd x b)), (IH (badd balance_zero b)), badd_zero_l. symmetry. apply badd_assoc. }
  apply H.
Qed.
Lemma bsum_app l1 l2 : bsum (l1 ++ l2) = badd (bsum l1) (bsum l2).
Proof.
  induction l1 as [|a l1 IH]; cbn [app].
  - symmetry. apply badd_zero_l.
  - rewrite !bsum_cons, IH. apply badd_assoc.
Qed.
Arguments bget : simpl never.
Arguments bset : simpl never.
Arguments badd : simpl never.
Arguments binc : simpl never.
