(** Where a segment ends (C59). *)
From Coq Require Import NArith ZArith QArith Qreals List Bool Reals Lra Lia Psatz.
From Verif Require Import Float RealOps RngModel ParticleModel NuclearModel MeshTypes Balance TrackModel CycleModel GridModel MeshModel GridSpec GridLemmas
  FloodLemmas MeshFacts MeshSpec MeshTheorems TrackSpec TrackAccount CycleSpec PopSpec SegmentSpec NearestLemmas FacetLemmas SegmentFacts CrossingLemmas GeomSpec GeomLemmas PlaneLemmas StaySpec.
Import ListNotations.
Local Open Scope R_scope.

(** ** The way out of a cell *)

Lemma beyond_along (g : grid Rops) t f x u d : beyond g t f (along x u d) = beyond g t f x + d * dot u (outward f).
Proof.
  destruct t as [[a b] c]. unfold beyond, along, dot. do 5 (destruct f as [|f]; [cbn [outward vx vy vz]; ring|]). cbn [outward vx vy vz]. ring.
Qed.

Lemma first_exit (b s : nat -> R) n : (exists f, (f < n)%nat /\ 0 < s f) ->
  exists f, (f < n)%nat /\ 0 < s f /\ forall f', (f' < n)%nat -> 0 < s f' -> - b f / s f <= - b f' / s f'.
Proof.
  induction n as [|n IH]; intros (f & Hf & Hs); [lia|].
  destruct (Rlt_dec 0 (s n)) as [Hn|Hn].
  - destruct (Nat.eq_dec f n) as [->|Hne].
    + assert (D : (exists f, (f < n)%nat /\ 0 < s f) \/ ~ (exists f, (f < n)%nat /\ 0 < s f)).
      { clear. induction n as [|n [IH|IH]]; [right; intros (? & ? & _); lia|left; destruct IH as (f & A & B); exists f; split; [lia|exact B]|].
        destruct (Rlt_dec 0 (s n)) as [H|H]; [left; exists n; split; [lia|exact H]|].
        right. intros (f & A & B). destruct (Nat.eq_dec f n) as [->|]; [contradiction|]. apply IH. exists f. split; [lia|exact B]. }
      destruct D as [D|D].
      * destruct (IH D) as (f0 & A & B & C). destruct (Rle_dec (- b f0 / s f0) (- b n / s n)) as [L|L].
        { exists f0. split; [lia|]. split; [exact B|]. intros f' Hf' Hs'. destruct (Nat.eq_dec f' n) as [->|]; [exact L|apply C; [lia|exact Hs']]. }
        { exists n. split; [lia|]. split; [exact Hn|]. intros f' Hf' Hs'. destruct (Nat.eq_dec f' n) as [->|]; [lra|].
          assert (- b f0 / s f0 <= - b f' / s f') by (apply C; [lia|exact Hs']). lra. }
      * exists n. split; [lia|]. split; [exact Hn|]. intros f' Hf' Hs'. destruct (Nat.eq_dec f' n) as [->|]; [lra|].
        exfalso. apply D. exists f'. split; [lia|exact Hs'].
    + assert (Hfn : (f < n)%nat) by lia. destruct (IH (ex_intro _ f (conj Hfn Hs))) as (f0 & A & B & C). destruct (Rle_dec (- b f0 / s f0) (- b n / s n)) as [L|L].
      { exists f0. split; [lia|]. split; [exact B|]. intros f' Hf' Hs'. destruct (Nat.eq_dec f' n) as [->|]; [exact L|apply C; [lia|exact Hs']]. }
      { exists n. split; [lia|]. split; [exact Hn|]. intros f' Hf' Hs'. destruct (Nat.eq_dec f' n) as [->|]; [lra|].
        assert (- b f0 / s f0 <= - b f' / s f') by (apply C; [lia|exact Hs']). lra. }
  - assert (Hne : f <> n) by (intros ->; contradiction).
    assert (Hfn : (f < n)%nat) by lia. destruct (IH (ex_intro _ f (conj Hfn Hs))) as (f0 & A & B & C). exists f0. split; [lia|]. split; [exact B|].
    intros f' Hf' Hs'. destruct (Nat.eq_dec f' n) as [->|]; [contradiction|]. apply C; [lia|exact Hs'].
Qed.

Lemma some_way_out (u : vec Rops) : unit_vec u -> exists f, (f < 6)%nat /\ 0 < dot u (outward f).
Proof.
  unfold unit_vec. intros H. destruct u as [a b c]. unfold dot in H. cbn [vx vy vz] in H.
  destruct (Rtotal_order a 0) as [A|[A|A]]; [exists 1%nat| |exists 0%nat]; [split; [lia|unfold dot; cbn [outward vx vy vz]; lra]| |split; [lia|unfold dot; cbn [outward vx vy vz]; lra]].
  destruct (Rtotal_order b 0) as [B|[B|B]]; [exists 3%nat| |exists 2%nat]; [split; [lia|unfold dot; cbn [outward vx vy vz]; lra]| |split; [lia|unfold dot; cbn [outward vx vy vz]; lra]].
  destruct (Rtotal_order c 0) as [C|[C|C]]; [exists 5%nat| |exists 4%nat]; [split; [lia|unfold dot; cbn [outward vx vy vz]; lra]| |split; [lia|unfold dot; cbn [outward vx vy vz]; lra]].
  exfalso. change (@eq R (a * a + b * b + c * c) 1) in H. change (F Rops) with R in * . subst. lra.
Qed.

Lemma exit_face (g : grid Rops) t (x u : vec Rops) : in_cell g t x -> unit_vec u ->
  exists f d, leaves_by g t x u f d /\ 0 <= d /\
    forall f' d', (f' < 6)%nat -> 0 < dot u (outward f') -> beyond g t f' (along x u d') = 0 -> d <= d'.
Proof.
  intros Hx Hu. pose proof (proj1 (inside_beyond g t x) Hx) as Hb.
  destruct (first_exit (fun f => beyond g t f x) (fun f => dot u (outward f)) 6 (some_way_out u Hu)) as (f & Hf & Hs & Hmin).
  set (d := - beyond g t f x / dot u (outward f)) in * .
  assert (Hd : 0 <= d).
  { unfold d. pose proof (Hb f Hf). apply Rmult_le_pos; [lra|]. apply Rlt_le, Rinv_0_lt_compat. exact Hs. }
  assert (Hle : forall f' d', 0 < dot u (outward f') -> d' <= - beyond g t f' x / dot u (outward f') -> beyond g t f' x + d' * dot u (outward f') <= 0).
  { intros f' d' P Q. apply Rmult_le_compat_r with (r := dot u (outward f')) in Q; [|lra]. unfold Rdiv in Q. rewrite Rmult_assoc, Rinv_l, Rmult_1_r in Q by lra. lra. }
  exists f, d. split; [|split; [exact Hd|]].
  - split; [exact Hf|]. split; [exact Hs|]. split; [rewrite beyond_along; unfold d; field; lra|].
    intros d' (H0 & H1). apply inside_beyond. intros f' Hf'. rewrite beyond_along. destruct (Rlt_dec 0 (dot u (outward f'))) as [P|P].
    + apply Hle; [exact P|]. eapply Rle_trans; [exact H1|]. apply Hmin; assumption.
    + pose proof (Hb f' Hf'). assert (d' * dot u (outward f') <= 0) by nra. lra.
  - intros f' d' Hf' P E. rewrite beyond_along in E. eapply Rle_trans; [apply (Hmin f' Hf' P)|]. right. field_simplify_eq; [|lra]. lra.
Qed.

(** The distance is that of two points of the cell. *)
Lemma exit_distance (g : grid Rops) t (x u : vec Rops) d : sized g -> unit_vec u -> in_cell g t x -> in_cell g t (along x u d) -> 0 <= d ->
  d <= g_dx g + g_dy g + g_dz g.
Proof.
  intros (Sx & Sy & Sz) Hu Hx Hy Hd. destruct t as [[a b] c]. destruct x as [x y z]. destruct u as [ux uy uz]. unfold in_cell, along in * . cbn [vx vy vz] in * .
  unfold unit_vec, dot in Hu. cbn [vx vy vz] in Hu. change (F Rops) with R in * .
  assert (Ax : - g_dx g <= ux * d <= g_dx g) by lra. assert (Ay : - g_dy g <= uy * d <= g_dy g) by lra. assert (Az : - g_dz g <= uz * d <= g_dz g) by lra.
  assert (E : d * d = (ux * d) * (ux * d) + (uy * d) * (uy * d) + (uz * d) * (uz * d)).
  { replace ((ux * d) * (ux * d) + (uy * d) * (uy * d) + (uz * d) * (uz * d)) with (d * d * (ux * ux + uy * uy + uz * uz)) by ring. rewrite Hu. ring. }
  assert (S : forall l w, - l <= w <= l -> w * w <= l * l) by (intros l w (A & B); nra).
  pose proof (S _ _ Ax). pose proof (S _ _ Ay). pose proof (S _ _ Az).
  assert (d * d <= (g_dx g + g_dy g + g_dz g) * (g_dx g + g_dy g + g_dz g)) by nra.
  apply Rnot_lt_le. intros C. assert ((g_dx g + g_dy g + g_dz g) * (g_dx g + g_dy g + g_dz g) < d * d) by nra. lra.
Qed.

(** ** The facets cover the faces *)

Definition covered_by (g : grid Rops) t f (r : vec Rops) : Prop :=
  exists k, (k < 24)%nat /\ (k / 4)%nat = f /\
    let '(a, b, e) := indirect k in
    let q j := cell_point g t (N.to_nat j) in
    exists l0 l1 l2, barycentric (q a) (q b) (q e) r l0 l1 l2 /\ 0 <= l0 /\ 0 <= l1 /\ 0 <= l2.

Lemma normal_axis n d v : 0 < d -> n * d <= v <= (n + 1) * d -> exists X, 0 <= X <= 1 /\ v = (n + X) * d.
Proof.
  intros Hd H. exists (v / d - n). split; [|field; lra].
  assert (E : v / d * d = v) by (field; lra). split; apply Rmult_le_reg_r with d; try exact Hd; rewrite Rmult_minus_distr_r, E; lra.
Qed.

Lemma normal_cell (g : grid Rops) x y z (r : vec Rops) : sized g -> in_cell g (x, y, z) r ->
  exists X Y Z, 0 <= X <= 1 /\ 0 <= Y <= 1 /\ 0 <= Z <= 1 /\
    vx r = (real_of x + X) * g_dx g /\ vy r = (real_of y + Y) * g_dy g /\ vz r = (real_of z + Z) * g_dz g.
Proof.
  intros (Sx & Sy & Sz) (Hx & Hy & Hz). destruct (normal_axis _ _ _ Sx Hx) as (X & HX & EX).
  destruct (normal_axis _ _ _ Sy Hy) as (Y & HY & EY). destruct (normal_axis _ _ _ Sz Hz) as (Z & HZ & EZ).
  exists X, Y, Z. auto 10.
Qed.

Ltac facet_covers k l0 l1 l2 Ex Ey Ez E0 :=
  exists k; split; [lia|]; split; [reflexivity|]; unfold indirect; cbn [nth NODE_INDIRECT]; cbv zeta; literal_indices;
  exists l0, l1, l2; split; [|split; [lra|split; lra]];
  unfold barycentric; rewrite Ex, Ey, Ez, E0; unfold cell_point, cell_halves, grid_point; cbn [nth vx vy vz]; rewrite ?real_0, ?real_1, ?real_2;
  split; [ring|]; split; [|split]; rfield.

Lemma covered_0 (g : grid Rops) (x y z : N) (r : vec Rops) : sized g -> in_cell g (x, y, z) r -> beyond g (x, y, z) 0 r = 0 -> covered_by g (x, y, z) 0 r.
Proof.
  intros S H E. destruct (normal_cell g x y z r S H) as (X & Y & Z & HX & HY & HZ & Ex & Ey & Ez).
  unfold beyond in E. pose proof S as (Sx & Sy & Sz).
  assert (E0 : X = 1) by (rewrite ?Ex, ?Ey, ?Ez in E; nra).
  set (P := Y) in * . set (Q := Z) in * .
  destruct (Rle_dec P Q) as [A|A]; destruct (Rle_dec (P + Q) 1) as [B|B].
  - facet_covers 3%nat (1 - (1 - Q) - P) ((1 - Q) - P) (2 * P) Ex Ey Ez E0.
  - facet_covers 2%nat (1 - (1 - P) - (1 - Q)) ((1 - P) - (1 - Q)) (2 * (1 - Q)) Ex Ey Ez E0.
  - facet_covers 0%nat (1 - P - Q) (P - Q) (2 * Q) Ex Ey Ez E0.
  - facet_covers 1%nat (1 - Q - (1 - P)) (Q - (1 - P)) (2 * (1 - P)) Ex Ey Ez E0.
Qed.

Lemma covered_1 (g : grid Rops) (x y z : N) (r : vec Rops) : sized g -> in_cell g (x, y, z) r -> beyond g (x, y, z) 1 r = 0 -> covered_by g (x, y, z) 1 r.
Proof.
  intros S H E. destruct (normal_cell g x y z r S H) as (X & Y & Z & HX & HY & HZ & Ex & Ey & Ez).
  unfold beyond in E. pose proof S as (Sx & Sy & Sz).
  assert (E0 : X = 0) by (rewrite ?Ex, ?Ey, ?Ez in E; nra).
  set (P := Y) in * . set (Q := Z) in * .
  destruct (Rle_dec P Q) as [A|A]; destruct (Rle_dec (P + Q) 1) as [B|B].
  - facet_covers 4%nat (1 - Q - P) (Q - P) (2 * P) Ex Ey Ez E0.
  - facet_covers 5%nat (1 - P - (1 - Q)) (P - (1 - Q)) (2 * (1 - Q)) Ex Ey Ez E0.
  - facet_covers 7%nat (1 - (1 - P) - Q) ((1 - P) - Q) (2 * Q) Ex Ey Ez E0.
  - facet_covers 6%nat (1 - (1 - Q) - (1 - P)) ((1 - Q) - (1 - P)) (2 * (1 - P)) Ex Ey Ez E0.
Qed.

Lemma covered_2 (g : grid Rops) (x y z : N) (r : vec Rops) : sized g -> in_cell g (x, y, z) r -> beyond g (x, y, z) 2 r = 0 -> covered_by g (x, y, z) 2 r.
Proof.
  intros S H E. destruct (normal_cell g x y z r S H) as (X & Y & Z & HX & HY & HZ & Ex & Ey & Ez).
  unfold beyond in E. pose proof S as (Sx & Sy & Sz).
  assert (E0 : Y = 1) by (rewrite ?Ex, ?Ey, ?Ez in E; nra).
  set (P := X) in * . set (Q := Z) in * .
  destruct (Rle_dec P Q) as [A|A]; destruct (Rle_dec (P + Q) 1) as [B|B].
  - facet_covers 9%nat (1 - Q - P) (Q - P) (2 * P) Ex Ey Ez E0.
  - facet_covers 10%nat (1 - P - (1 - Q)) (P - (1 - Q)) (2 * (1 - Q)) Ex Ey Ez E0.
  - facet_covers 8%nat (1 - (1 - P) - Q) ((1 - P) - Q) (2 * Q) Ex Ey Ez E0.
  - facet_covers 11%nat (1 - (1 - Q) - (1 - P)) ((1 - Q) - (1 - P)) (2 * (1 - P)) Ex Ey Ez E0.
Qed.

Lemma covered_3 (g : grid Rops) (x y z : N) (r : vec Rops) : sized g -> in_cell g (x, y, z) r -> beyond g (x, y, z) 3 r = 0 -> covered_by g (x, y, z) 3 r.
Proof.
  intros S H E. destruct (normal_cell g x y z r S H) as (X & Y & Z & HX & HY & HZ & Ex & Ey & Ez).
  unfold beyond in E. pose proof S as (Sx & Sy & Sz).
  assert (E0 : Y = 0) by (rewrite ?Ex, ?Ey, ?Ez in E; nra).
  set (P := X) in * . set (Q := Z) in * .
  destruct (Rle_dec P Q) as [A|A]; destruct (Rle_dec (P + Q) 1) as [B|B].
  - facet_covers 15%nat (1 - (1 - Q) - P) ((1 - Q) - P) (2 * P) Ex Ey Ez E0.
  - facet_covers 14%nat (1 - (1 - P) - (1 - Q)) ((1 - P) - (1 - Q)) (2 * (1 - Q)) Ex Ey Ez E0.
  - facet_covers 12%nat (1 - P - Q) (P - Q) (2 * Q) Ex Ey Ez E0.
  - facet_covers 13%nat (1 - Q - (1 - P)) (Q - (1 - P)) (2 * (1 - P)) Ex Ey Ez E0.
Qed.

Lemma covered_4 (g : grid Rops) (x y z : N) (r : vec Rops) : sized g -> in_cell g (x, y, z) r -> beyond g (x, y, z) 4 r = 0 -> covered_by g (x, y, z) 4 r.
Proof.
  intros S H E. destruct (normal_cell g x y z r S H) as (X & Y & Z & HX & HY & HZ & Ex & Ey & Ez).
  unfold beyond in E. pose proof S as (Sx & Sy & Sz).
  assert (E0 : Z = 1) by (rewrite ?Ex, ?Ey, ?Ez in E; nra).
  set (P := X) in * . set (Q := Y) in * .
  destruct (Rle_dec P Q) as [A|A]; destruct (Rle_dec (P + Q) 1) as [B|B].
  - facet_covers 19%nat (1 - (1 - Q) - P) ((1 - Q) - P) (2 * P) Ex Ey Ez E0.
  - facet_covers 18%nat (1 - (1 - P) - (1 - Q)) ((1 - P) - (1 - Q)) (2 * (1 - Q)) Ex Ey Ez E0.
  - facet_covers 16%nat (1 - P - Q) (P - Q) (2 * Q) Ex Ey Ez E0.
  - facet_covers 17%nat (1 - Q - (1 - P)) (Q - (1 - P)) (2 * (1 - P)) Ex Ey Ez E0.
Qed.

Lemma covered_5 (g : grid Rops) (x y z : N) (r : vec Rops) : sized g -> in_cell g (x, y, z) r -> beyond g (x, y, z) 5 r = 0 -> covered_by g (x, y, z) 5 r.
Proof.
  intros S H E. destruct (normal_cell g x y z r S H) as (X & Y & Z & HX & HY & HZ & Ex & Ey & Ez).
  unfold beyond in E. pose proof S as (Sx & Sy & Sz).
  assert (E0 : Z = 0) by (rewrite ?Ex, ?Ey, ?Ez in E; nra).
  set (P := X) in * . set (Q := Y) in * .
  destruct (Rle_dec P Q) as [A|A]; destruct (Rle_dec (P + Q) 1) as [B|B].
  - facet_covers 20%nat (1 - Q - P) (Q - P) (2 * P) Ex Ey Ez E0.
  - facet_covers 21%nat (1 - P - (1 - Q)) (P - (1 - Q)) (2 * (1 - Q)) Ex Ey Ez E0.
  - facet_covers 23%nat (1 - (1 - P) - Q) ((1 - P) - Q) (2 * Q) Ex Ey Ez E0.
  - facet_covers 22%nat (1 - (1 - Q) - (1 - P)) ((1 - Q) - (1 - P)) (2 * (1 - P)) Ex Ey Ez E0.
Qed.

Lemma covered (g : grid Rops) t f (r : vec Rops) : sized g -> (f < 6)%nat -> in_cell g t r -> beyond g t f r = 0 -> covered_by g t f r.
Proof.
  intros S Hf H E. destruct t as [[x y] z].
  destruct f as [|f]; [apply covered_0; assumption|]. destruct f as [|f]; [apply covered_1; assumption|].
  destruct f as [|f]; [apply covered_2; assumption|]. destruct f as [|f]; [apply covered_3; assumption|].
  destruct f as [|f]; [apply covered_4; assumption|]. destruct f as [|f]; [apply covered_5; assumption|]. lia.
Qed.

Lemma facet_cross (g : grid Rops) (t : N * N * N) k (pl : plane Rops) : sized g -> (k < 24)%nat ->
  mkVec (K := Rops) (pl_a pl) (pl_b pl) (pl_c pl) = outward (k / 4) ->
  let '(a, b, e) := indirect k in
  let q j := cell_point g t (N.to_nat j) in plane_of pl (q a) (q b) (q e).
Proof.
  intros (Hx & Hy & Hz) Hk E. pose proof (outward_unit (k / 4)) as U. rewrite <- E in U. unfold unit_vec, dot in U. cbn [vx vy vz] in U.
  destruct t as [[x y] z].
  do 24 (destruct k as [|k]; [
    match type of E with context [outward (?kk / 4)] => let v := eval vm_compute in (kk / 4)%nat in change (kk / 4)%nat with v in E;
      let w := match v with 0%nat => constr:(g_dy g * g_dz g / 2) | 1%nat => constr:(g_dy g * g_dz g / 2)
               | 2%nat => constr:(g_dx g * g_dz g / 2) | 3%nat => constr:(g_dx g * g_dz g / 2)
               | _ => constr:(g_dx g * g_dy g / 2) end in
      unfold indirect; cbn [nth NODE_INDIRECT]; cbv zeta; literal_indices;
      assert (Hw : 0 < w) by nra; exists w
    end;
    cbn [outward] in E; injection E as Ea Eb Ec; rewrite Ea, Eb, Ec in * ;
    unfold cell_point, cell_halves, grid_point; cbn [nth vx vy vz]; rewrite ?real_0, ?real_1, ?real_2;
    split; [lra|]; split; [rfield|]; split; [rfield|]; split; [rfield|exact U]
  |]). lia.
Qed.

(** ** The nearest facet is on the way out *)

Lemma distances_length (m : mesh Rops) cell (x u : vec Rops) tol pls : forall i ds, facet_distances m cell x u tol i pls = Ok ds -> length ds = length pls.
Proof.
  induction pls as [|pl pls IH]; intros i ds H; cbn [facet_distances] in H.
  - injection H; intros; subst. reflexivity.
  - rb H as d0 E0. rb H as ds0 E1. injection H; intros; subst. cbn [length]. f_equal. eapply IH; eauto.
Qed.

Section Cell.
Variables (g : grid Rops) (bc : String.string) (pt : partition) (m : mesh Rops) (i : nat) (c : N).
Hypothesis B : built g bc pt m.
Hypothesis Hs : sized g.
Hypothesis Hfit : fits g.
Hypothesis L : local_to_global pt i c.
Let t := cell_idx_to_tuple (g_dims g) c.

Lemma nearest_exit (p : particle Rops) ds k df : p_cell p = N.of_nat i -> in_cell g t (p_coordinate p) ->
  stays_a_while g t (p_coordinate p) (p_direction p) -> unit_vec (p_direction p) ->
  distances_now m p ds -> facet_choice ds k df ->
  (N.to_nat k < 24)%nat /\ 0 < df < huge /\ leaves_by g t (p_coordinate p) (p_direction p) (N.to_nat k / 4) df.
Proof.
  intros Hc Hin Hst Hu (planes & Epl & Eds) Hch. set (x := p_coordinate p) in * . set (u := p_direction p) in * .
  destruct (exit_face g t x u Hin Hu) as (f & d & Hlv & Hd0 & Hmin). pose proof Hlv as (Hf & Hout & Hz & Hway).
  assert (Hd : 0 < d).
  { destruct (Rle_lt_or_eq_dec _ _ Hd0) as [P|P]; [exact P|]. exfalso. subst d. rewrite beyond_along in Hz.
    specialize (Hst f Hf ltac:(lra)). lra. }
  assert (Hdh : d < huge).
  { eapply Rle_lt_trans; [|exact Hfit]. eapply (exit_distance g t x u d); try assumption. apply Hway. lra. }
  rewrite Hc in Epl, Eds. apply vec_get_nth in Epl. rewrite Nat2N.id in Epl.
  destruct (behind_planes _ _ _ _ _ _ _ B Hs L Epl) as (L24 & _ & _).
  assert (Lds : length ds = 24%nat) by (rewrite (distances_length _ _ _ _ _ _ _ _ Eds); exact L24).
  (* every entry *)
  assert (Each : forall j y, nth_error ds j = Some y -> (j < 24)%nat /\
    ((0 < dot u (outward (j / 4)) /\ beyond g t (j / 4) (along x u y) = 0) \/ y = huge) /\
    ((j / 4)%nat = f -> let '(a, b, e) := indirect j in let q n := cell_point g t (N.to_nat n) in
       forall l0 l1 l2, barycentric (q a) (q b) (q e) (along x u d) l0 l1 l2 -> 0 <= l0 -> 0 <= l1 -> 0 <= l2 -> y = d)).
  { intros j y Ej. destruct (distances_each _ _ _ _ _ _ _ _ Eds _ _ Ej) as (pl & Epj & Ed). rewrite N.add_0_l in Ed.
    destruct (mesh_planes _ _ _ _ _ _ _ _ _ B Hs L Epl Epj) as (Hj & Hn & Hv & _). fold t in Hv.
    assert (Sp : normal_speed pl u = dot u (outward (j / 4))).
    { rewrite <- Hn. unfold normal_speed, dot. cbn [vx vy vz]. rring. }
    pose proof (mesh_facet_coords _ _ _ _ B i c j L Hj) as Efc. fold t in Efc.
    destruct (facet_distance_right _ _ _ _ _ _ _ _ Ed) as [(fc & Ef & H1 & H2 & H3 & H4)|(Hy & Hno)].
    - rewrite Sp in H1. rewrite Hv in H3. split; [exact Hj|]. split; [left; split; assumption|].
      intros Ejf. destruct (indirect j) as [[a b] e]. cbv zeta. intros l0 l1 l2 _ _ _ _.
      rewrite Ejf in H3, H1. rewrite beyond_along in H3, Hz. apply Rmult_eq_reg_r with (dot u (outward f)); lra.
    - split; [exact Hj|]. split; [right; exact Hy|]. intros Ejf.
      pose proof (facet_cross g t j pl Hs Hj Hn) as Hpo. destruct (indirect j) as [[a b] e]. cbv zeta in Hpo, Efc |- * .
      intros l0 l1 l2 Hb B0 B1 B2. exfalso. apply (Hno _ d Efc). split; [rewrite Sp, Ejf; exact Hout|]. split.
      { left. rewrite Hv. apply inside_beyond; [exact Hin|]. rewrite Ejf. exact Hf. }
      split; [rewrite Hv, Ejf; exact Hz|]. apply (proj1 (triangle_test _ _ _ _ _ _ _ _ Hpo Hb)); assumption. }
  assert (Hc0 : covered_by g t f (along x u d)) by (apply covered; try assumption; apply Hway; lra).
  assert (Hex : exists j, (j < 24)%nat /\ nth_error ds j = Some d).
  { pose proof Hc0 as (j & Hj & Ejf & Hbary). exists j. split; [exact Hj|].
    destruct (nth_error ds j) as [y|] eqn:Ey; [|exfalso; apply nth_error_None in Ey; lia].
    destruct (Each j y Ey) as (_ & _ & Hy). specialize (Hy Ejf). destruct (indirect j) as [[a b] e]. cbv zeta in Hy, Hbary.
    destruct Hbary as (l0 & l1 & l2 & Hb & B0 & B1 & B2). rewrite (Hy _ _ _ Hb B0 B1 B2). reflexivity. }
  assert (Hge : forall j y, nth_error ds j = Some y -> 0 < y -> d <= y).
  { intros j y Ej _. destruct (Each j y Ej) as (Hj & [(H1 & H2)| ->] & _); [|lra]. eapply Hmin; [|exact H1|exact H2]. apply Nat.div_lt_upper_bound; lia. }
  destruct Hex as (j & Hj & Ej). cbv zeta in Hch. unfold facet_choice in Hch.
  destruct Hch as [(H1 & H2 & H3 & H4)|[(H1 & _)|(H1 & _)]].
  - specialize (H3 (N.of_nat j) d). rewrite Nat2N.id in H3. specialize (H3 Ej Hd).
    pose proof (Hge _ _ H1 (proj1 H2)) as H5. assert (E : df = d) by lra. subst df.
    destruct (Each _ _ H1) as (Hk & [(K1 & K2)|K1] & _); [|lra]. split; [exact Hk|]. split; [exact H2|].
    split; [apply Nat.div_lt_upper_bound; lia|]. split; [exact K1|]. split; [exact K2|exact Hway].
  - specialize (H1 (N.of_nat j) d). rewrite Nat2N.id in H1. specialize (H1 Ej Hd). lra.
  - specialize (H1 (N.of_nat j) d). rewrite Nat2N.id in H1. specialize (H1 Ej). pose proof huge_pos. lra.
Qed.

End Cell.
