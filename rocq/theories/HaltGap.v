(** The way to the next face along an axis (C67). *)
From Coq Require Import NArith ZArith List Bool Reals Lra Lia Psatz.
From Verif Require Import Float RealOps RngModel ParticleModel NuclearModel MeshTypes TrackModel GridModel MeshModel GridSpec MeshSpec SegmentSpec GeomSpec GeomLemmas
  PlaneLemmas StaySpec StayLemmas StaySteps.
Import ListNotations.
Local Open Scope R_scope.

Definition up_face (a : axis) : nat := match a with AX => 0 | AY => 2 | AZ => 4 end%nat.
Definition down_face (a : axis) : nat := match a with AX => 1 | AY => 3 | AZ => 5 end%nat.
Definition side (g : grid Rops) (a : axis) : R := match a with AX => g_dx g | AY => g_dy g | AZ => g_dz g end.

(** The distance, measured along the axis, to the face of the cell towards which the particle flies. *)
Definition gap (g : grid Rops) (t : N * N * N) (a : axis) (x u : vec Rops) : R :=
  if Rlt_dec 0 (dot u (outward (up_face a))) then - beyond g t (up_face a) x else - beyond g t (down_face a) x.

Ltac parts t a := destruct t as [[? ?] ?]; destruct a; unfold gap, in_cell, beyond, side, dot, along in * ; cbn [up_face down_face outward vx vy vz] in * .

Lemma gap_range g t a x u : in_cell g t x -> 0 <= gap g t a x u <= side g a.
Proof. intros H. parts t a; destruct (Rlt_dec _ _); change (F Rops) with R in * ; lra. Qed.

Lemma unit_parts (u : vec Rops) : unit_vec u -> -1 <= vx u <= 1 /\ -1 <= vy u <= 1 /\ -1 <= vz u <= 1.
Proof. unfold unit_vec, dot. intros H. change (F Rops) with R in * . nra. Qed.

Lemma gap_flown g t a x u L : unit_vec u -> 0 <= L -> gap g t a x u - L <= gap g t a (along x u L) u.
Proof.
  intros U HL. destruct (unit_parts u U) as (Ux & Uy & Uz). clear U.
  parts t a; destruct (Rlt_dec _ _); change (F Rops) with R in * ; nra.
Qed.

Lemma gap_reached g t f x u L : (f < 6)%nat -> unit_vec u -> 0 <= L -> 0 < dot u (outward f) -> beyond g t f (along x u L) = 0 ->
  gap g t (face_axis f) x u <= L.
Proof.
  intros Hf U HL Ho Hb. destruct (unit_parts u U) as (Ux & Uy & Uz). clear U. destruct t as [[a b] c]. unfold gap, beyond, dot, along in * .
  do 6 (destruct f as [|f]; [cbn [face_axis up_face down_face outward vx vy vz] in * ; destruct (Rlt_dec _ _); change (F Rops) with R in * ; nra|]). lia.
Qed.

Lemma gap_crossed g d t f a x u : sized g -> (f < 6)%nat -> on_boundary d t f = false -> 0 < dot u (outward f) -> beyond g t f x = 0 ->
  gap g (one_step t f) a x u = (if match a, face_axis f with AX, AX | AY, AY | AZ, AZ => true | _, _ => false end then side g a else gap g t a x u).
Proof.
  intros (Sx & Sy & Sz) Hf Hb Ho H. destruct t as [[m n] k]. unfold on_boundary in Hb. unfold one_step, gap, beyond, dot, side in * .
  assert (P : forall i, i <> 0%N -> real_of (i - 1) = real_of i - 1) by (intros i Hi; pose proof (real_succ (i - 1)) as E; replace (i - 1 + 1)%N with i in E by lia; lra).
  do 6 (destruct f as [|f]; [cbn [face_axis face_up coord size set_coord outward vx vy vz up_face down_face] in * ; try apply N.eqb_neq in Hb;
    destruct a; cbn [up_face down_face outward vx vy vz] in * ; try reflexivity; rewrite <- ?real_succ, ?(P _ Hb); destruct (Rlt_dec _ _); change (F Rops) with R in * ; lra|]). lia.
Qed.

Lemma gap_turned g t f a x u u' : sized g -> (f < 6)%nat -> 0 < dot u (outward f) -> beyond g t f x = 0 ->
  dot u' u' = dot u u -> tangential (outward f) u' = tangential (outward f) u -> dot u' (outward f) <= 0 ->
  gap g t a x u' = (if match a, face_axis f with AX, AX | AY, AY | AZ, AZ => true | _, _ => false end then side g a else gap g t a x u).
Proof.
  intros (Sx & Sy & Sz) Hf Ho H Hn Ht Hd. unfold tangential in Ht.
  pose proof (f_equal (@vx Rops) Ht) as Tx. pose proof (f_equal (@vy Rops) Ht) as Ty. pose proof (f_equal (@vz Rops) Ht) as Tz. clear Ht.
  destruct t as [[m n] k]. unfold gap, beyond, dot, side in * .
  do 6 (destruct f as [|f]; [cbn [face_axis outward vx vy vz] in * ; change (F Rops) with R in * ;
    destruct a; cbn [up_face down_face outward vx vy vz] in * ; change (F Rops) with R in * ;
    repeat match goal with |- context [Rlt_dec ?p ?q] => destruct (Rlt_dec p q) end; nra|]). lia.
Qed.
