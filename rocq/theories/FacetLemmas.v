(** The nearest facet in exact arithmetic. *)
From Coq Require Import NArith ZArith QArith Qreals List Bool Lia Reals Lra.
From Verif Require Import Float RealOps RngModel ParticleModel NuclearModel MeshTypes Balance TrackModel CycleModel
  TrackSpec TrackAccount PopSpec SegmentSpec NearestLemmas.
Import ListNotations.
Local Open Scope R_scope.

Lemma huge_pos : 1 < huge.
Proof. unfold huge. cbn [fhuge Rops]. apply (IZR_lt 1). reflexivity. Qed.

Local Opaque huge.

(** ** The choice among the distances *)

Section Choice.
Variable ds : list R.
Let at_ (j : N) (x : R) := nth_error ds (N.to_nat j) = Some x.
(** Entries before index [n]. *)
Let before (n : N) (j : N) (x : R) := (j < n)%N /\ at_ j x.

Definition pos_inv (n : N) (acc : N * R) : Prop :=
  let (i, d) := acc in
  (d = huge /\ forall j x, before n j x -> 0 < x -> huge <= x) \/
  (before n i d /\ 0 < d < huge /\ (forall j x, before n j x -> 0 < x -> d <= x) /\ (forall j, before n j d -> (j <= i)%N)).

Lemma nth_in_app (pre : list R) d rest (j : N) x : ds = pre ++ d :: rest -> (j < N.succ (N.of_nat (length pre)))%N -> at_ j x ->
  before (N.of_nat (length pre)) j x \/ (j = N.of_nat (length pre) /\ x = d).
Proof.
  intros E Hj Hx. destruct (N.eq_dec j (N.of_nat (length pre))) as [->|Hn].
  - right. split; [reflexivity|]. unfold at_ in Hx. rewrite E, Nat2N.id, nth_error_app2, Nat.sub_diag in Hx by lia. cbn in Hx. congruence.
  - left. split; [lia|exact Hx].
Qed.
Lemma at_here (pre : list R) d rest : ds = pre ++ d :: rest -> at_ (N.of_nat (length pre)) d.
Proof. intros E. unfold at_. rewrite E, Nat2N.id, nth_error_app2, Nat.sub_diag by lia. reflexivity. Qed.

Lemma pos_scan : forall rest pre acc, ds = pre ++ rest -> pos_inv (N.of_nat (length pre)) acc ->
  pos_inv (N.of_nat (length ds)) (nearest_positive (K := Rops) (N.of_nat (length pre)) rest acc).
Proof.
  induction rest as [|d rest IH]; intros pre acc E H; cbn [nearest_positive].
  - rewrite app_nil_r in E. subst pre. exact H.
  - assert (Hl : length (pre ++ [d]) = S (length pre)) by (rewrite app_length; cbn; lia).
    replace (N.succ (N.of_nat (length pre))) with (N.of_nat (length (pre ++ [d]))) by (rewrite Hl; lia).
    apply IH; [rewrite <- app_assoc; exact E|]. rewrite Hl, Nat2N.inj_succ.
    pose proof (at_here _ _ _ E) as Hh. pose proof (nth_in_app pre d rest) as Hs.
    set (n := N.of_nat (length pre)) in * . destruct acc as [i a]. cbn [fst snd flt fle Rops f0].
    destruct (Rltb 0 d) eqn:E0; [apply Rltb_iff in E0|apply Rltb_false in E0].
    + destruct (Rleb d a) eqn:E1; [apply Rleb_iff in E1|apply Rleb_false in E1].
      * destruct (Rlt_dec d huge) as [Hd|Hd].
        { right. split; [split; [lia|exact Hh]|]. split; [lra|]. split.
          - intros j x (Hj & Hx) Px. destruct (Hs j x E Hj Hx) as [Hb|(-> & ->)]; [|lra].
            cbn [pos_inv] in H. destruct H as [(-> & H)|(_ & _ & H & _)].
            + specialize (H j x Hb Px). lra.
            + specialize (H j x Hb Px). lra.
          - intros j (Hj & _). lia. }
        { cbn [pos_inv] in H. destruct H as [(-> & H)|(_ & H & _)]; [|lra].
          left. split; [lra|]. intros j x (Hj & Hx) Px. destruct (Hs j x E Hj Hx) as [Hb|(-> & ->)]; [eauto|lra]. }
      * cbn [pos_inv] in H. destruct H as [(-> & H)|(Hb & Hr & H & Hl')].
        { left. split; [reflexivity|]. intros j x (Hj & Hx) Px. destruct (Hs j x E Hj Hx) as [Hb|(-> & ->)]; [eauto|lra]. }
        { right. split; [destruct Hb; split; [lia|auto]|]. split; [exact Hr|]. split.
          - intros j x (Hj & Hx) Px. destruct (Hs j x E Hj Hx) as [Hb'|(-> & ->)]; [eauto|lra].
          - intros j (Hj & Hx). destruct (Hs j a E Hj Hx) as [Hb'|(-> & ?)]; [auto|lra]. }
    + cbn [pos_inv] in H. destruct H as [(-> & H)|(Hb & Hr & H & Hl')].
      { left. split; [reflexivity|]. intros j x (Hj & Hx) Px. destruct (Hs j x E Hj Hx) as [Hb|(-> & ->)]; [eauto|lra]. }
      { right. split; [destruct Hb; split; [lia|auto]|]. split; [exact Hr|]. split.
        - intros j x (Hj & Hx) Px. destruct (Hs j x E Hj Hx) as [Hb'|(-> & ->)]; [eauto|lra].
        - intros j (Hj & Hx). destruct (Hs j a E Hj Hx) as [Hb'|(-> & ?)]; [auto|lra]. }
Qed.

Definition neg_inv (n : N) (acc : N * R) : Prop :=
  let (i, d) := acc in
  (d = - huge /\ forall j x, before n j x -> x <= 0 -> x <= - huge) \/
  (before n i d /\ - huge < d <= 0 /\ (forall j x, before n j x -> x <= 0 -> x <= d) /\ (forall j, before n j d -> (i <= j)%N)).

Lemma neg_scan : forall rest pre acc, ds = pre ++ rest -> neg_inv (N.of_nat (length pre)) acc ->
  neg_inv (N.of_nat (length ds)) (nearest_negative (K := Rops) (N.of_nat (length pre)) rest acc).
Proof.
  induction rest as [|d rest IH]; intros pre acc E H; cbn [nearest_negative].
  - rewrite app_nil_r in E. subst pre. exact H.
  - assert (Hl : length (pre ++ [d]) = S (length pre)) by (rewrite app_length; cbn; lia).
    replace (N.succ (N.of_nat (length pre))) with (N.of_nat (length (pre ++ [d]))) by (rewrite Hl; lia).
    apply IH; [rewrite <- app_assoc; exact E|]. rewrite Hl, Nat2N.inj_succ.
    pose proof (at_here _ _ _ E) as Hh. pose proof (nth_in_app pre d rest) as Hs.
    set (n := N.of_nat (length pre)) in * . destruct acc as [i a]. cbn [fst snd flt fle Rops f0].
    destruct (Rleb d 0) eqn:E0; [apply Rleb_iff in E0|apply Rleb_false in E0].
    + destruct (Rltb a d) eqn:E1; [apply Rltb_iff in E1|apply Rltb_false in E1].
      * right. split; [split; [lia|exact Hh]|]. split.
        { cbn [neg_inv] in H. destruct H as [(-> & H)|(_ & H & _)]; lra. }
        split.
        { intros j x (Hj & Hx) Px. destruct (Hs j x E Hj Hx) as [Hb|(-> & ->)]; [|lra].
          cbn [neg_inv] in H. destruct H as [(-> & H)|(_ & _ & H & _)]; specialize (H j x Hb Px); lra. }
        { intros j (Hj & Hx). destruct (Hs j d E Hj Hx) as [Hb|(-> & _)]; [|lia].
          cbn [neg_inv] in H. destruct H as [(-> & H)|(_ & _ & H & _)]; specialize (H j d Hb E0); lra. }
      * cbn [neg_inv] in H. destruct H as [(-> & H)|(Hb & Hr & H & Hl')].
        { left. split; [reflexivity|]. intros j x (Hj & Hx) Px. destruct (Hs j x E Hj Hx) as [Hb|(-> & ->)]; [eauto|lra]. }
        { right. split; [destruct Hb; split; [lia|auto]|]. split; [exact Hr|]. split.
          - intros j x (Hj & Hx) Px. destruct (Hs j x E Hj Hx) as [Hb'|(-> & ->)]; [eauto|lra].
          - intros j (Hj & Hx). destruct (Hs j a E Hj Hx) as [Hb'|(-> & _)]; [auto|destruct Hb; lia]. }
    + cbn [neg_inv] in H. destruct H as [(-> & H)|(Hb & Hr & H & Hl')].
      { left. split; [reflexivity|]. intros j x (Hj & Hx) Px. destruct (Hs j x E Hj Hx) as [Hb|(-> & ->)]; [eauto|lra]. }
      { right. split; [destruct Hb; split; [lia|auto]|]. split; [exact Hr|]. split.
        - intros j x (Hj & Hx) Px. destruct (Hs j x E Hj Hx) as [Hb'|(-> & ->)]; [eauto|lra].
        - intros j (Hj & Hx). destruct (Hs j a E Hj Hx) as [Hb'|(-> & _)]; [auto|destruct Hb; lia]. }
Qed.

Lemma at_before j x : at_ j x -> before (N.of_nat (length ds)) j x.
Proof.
  intros H. split; [|exact H]. assert (N.to_nat j < length ds)%nat by (apply nth_error_Some; unfold at_ in H; rewrite H; discriminate). lia.
Qed.

Lemma choice_right : let nf := compute_nearest (K := Rops) ds in facet_choice ds (fst nf) (Rmax (snd nf) 0).
Proof.
  pose proof huge_pos as Hh.
  assert (G : forall np nn : N * R, pos_inv (N.of_nat (length ds)) np -> neg_inv (N.of_nat (length ds)) nn ->
    let nf := if negb (Reqb (snd np) huge) then np else if negb (Reqb (snd nn) (- huge)) then nn else np in
    facet_choice ds (fst nf) (Rmax (snd nf) 0)).
  2:{ exact (G _ _ (pos_scan ds [] (0%N, huge) eq_refl (or_introl (conj eq_refl (fun j x H => False_ind _ (N.nlt_0_r _ (proj1 H))))))
                   (neg_scan ds [] (0%N, - huge) eq_refl (or_introl (conj eq_refl (fun j x H => False_ind _ (N.nlt_0_r _ (proj1 H))))))). }
  intros [i d] [i' d'] P M. cbv zeta.
  cbn [fst snd]. cbn [pos_inv neg_inv] in P, M.
  destruct (Reqb d huge) eqn:E; cbn [negb].
  - apply Reqb_iff in E. subst d. destruct P as [(_ & P)|(_ & P & _)]; [|lra].
    destruct (Reqb d' (- huge)) eqn:E'; cbn [negb fst snd].
    + apply Reqb_iff in E'. subst d'. destruct M as [(_ & M)|(_ & M & _)]; [|lra].
      right; right. split; [|apply Rmax_left; lra].
      intros j x Hx. apply at_before in Hx. destruct (Rlt_dec 0 x) as [Hp|Hp]; [left; eauto|right; apply (M j x Hx); lra].
    + apply Reqb_false in E'. destruct M as [(-> & _)|(Hb & Hr & M & Mf)]; [congruence|].
      right; left. split; [intros j x Hx; exact (P j x (at_before j x Hx))|]. split; [apply Rmax_right; lra|].
      exists d'. split; [apply Hb|]. split; [lra|]. split; [intros j x Hx; exact (M j x (at_before j x Hx))|intros j Hx; exact (Mf j (at_before j d' Hx))].
  - cbn [fst snd]. apply Reqb_false in E. destruct P as [(-> & _)|(Hb & Hr & P & Pf)]; [congruence|].
    left. rewrite Rmax_left by lra. split; [apply Hb|]. split; [exact Hr|].
    split; [intros j x Hx; exact (P j x (at_before j x Hx))|intros j Hx; exact (Pf j (at_before j d Hx))].
Qed.

End Choice.

(** ** The distance to one facet *)

Lemma facet_distance_right (m : mesh Rops) cell (x u : vec Rops) tol i (pl : plane Rops) d :
  facet_distance m cell x u tol i pl = Ok d ->
  (exists fc, get_facet_coords m cell i = Ok fc /\ hits tol x u pl fc d) \/
  (d = huge /\ forall fc d', get_facet_coords m cell i = Ok fc -> ~ hits tol x u pl fc d').
Proof.
  unfold facet_distance. cbv zeta. cbn [fneg f1 fmul fadd fle flt f0 fdiv Rops].
  change (pl_a pl * vx x + pl_b pl * vy x + pl_c pl * vz x + pl_d pl) with (plane_value pl x).
  change (pl_a pl * vx u + pl_b pl * vy u + pl_c pl * vz u) with (normal_speed pl u).
  set (V := plane_value pl x). set (S := normal_speed pl u).
  assert (Ha : forall d, plane_value pl (along x u d) = V + d * S).
  { intros d0. unfold plane_value, along, V, S, plane_value, normal_speed. cbn [vx vy vz]. ring. }
  intros H. destruct (Rleb S 0) eqn:E1; [apply Rleb_iff in E1|apply Rleb_false in E1]; cbn [orb] in H.
  - right. split; [injection H; intros; subst; reflexivity|]. intros fc d' _ (H1 & _). unfold S in E1. lra.
  - assert (Hc : (Rltb (-(1) * V) 0 && Rltb tol (-(1) * V * (-(1) * V)))%bool = true \/
                 (Rltb (-(1) * V) 0 && Rltb tol (-(1) * V * (-(1) * V)))%bool = false)
      by (destruct (_ && _)%bool; auto).
    destruct Hc as [Hc|Hc]; rewrite Hc in H.
    + apply andb_true_iff in Hc as (C1 & C2). apply Rltb_iff in C1, C2.
      right. split; [injection H; intros; subst; reflexivity|]. intros fc d' _ (_ & H2 & _). fold V in H2.
      replace (-(1) * V * (-(1) * V)) with (V * V) in C2 by ring. lra.
    + rb H as fc Ef.
      assert (C : V <= 0 \/ V * V <= tol).
      { apply andb_false_iff in Hc. destruct Hc as [Hc|Hc]; apply Rltb_false in Hc; [left; lra|right].
        replace (-(1) * V * (-(1) * V)) with (V * V) in Hc by ring. lra. }
      assert (Hd : forall d', plane_value pl (along x u d') = 0 -> d' = -(1) * V / S).
      { intros d' H0. rewrite Ha in H0. field_simplify_eq; [|lra]. lra. }
      change (vadd x (vscale u (-(1) * V / S))) with (along x u (-(1) * V / S)) in H.
      destruct (dist_to_segment (along x u (-(1) * V / S)) pl fc) eqn:Es; injection H; intros; subst d; clear H.
      * left. exists fc. split; [exact Ef|]. split; [exact E1|]. split; [exact C|]. split; [|exact Es].
        rewrite Ha. field. lra.
      * right. split; [reflexivity|]. intros fc' d' Ef' (_ & _ & H3 & H4). rewrite Ef in Ef'. injection Ef'; intros; subst fc'.
        apply Hd in H3. subst d'. congruence.
Qed.

Lemma distances_each (m : mesh Rops) cell (x u : vec Rops) tol pls : forall i ds,
  facet_distances m cell x u tol i pls = Ok ds ->
  forall k d, nth_error ds k = Some d -> exists pl, nth_error pls k = Some pl /\
    facet_distance m cell x u tol (i + N.of_nat k) pl = Ok d.
Proof.
  induction pls as [|pl pls IH]; intros i ds H k d Hk; cbn [facet_distances] in H.
  - injection H; intros; subst. destruct k; discriminate.
  - rb H as d0 E0. rb H as ds0 E1. injection H; intros; subst. destruct k as [|k]; cbn in Hk |- * .
    + injection Hk; intros; subst. exists pl. split; [reflexivity|]. rewrite N.add_0_r. exact E0.
    + destruct (IH _ _ E1 _ _ Hk) as (pl' & A & B). exists pl'. split; [exact A|].
      replace (i + N.pos (Pos.of_succ_nat k))%N with (N.succ i + N.of_nat k)%N by lia. exact B.
Qed.

(** ** The test "the point is in the facet" *)

Lemma nine : Q2R (1 # 1000000000) = / 1000000000.
Proof. unfold Q2R. cbn. lra. Qed.

Lemma crosses_inside (A l0 l1 l2 : R) : A <> 0 -> l0 + l1 + l2 = 1 -> 0 <= l0 -> 0 <= l1 -> 0 <= l2 ->
  crosses_agree (K := Rops) (A * l0) (A * l1) (A * l2) = true.
Proof.
  intros HA Hs H0 H1 H2. unfold crosses_agree. cbv zeta. cbn [flit Rops fmul fabs fadd flt fneg]. rewrite nine.
  replace (A * l0 + A * l1 + A * l2) with A by (rewrite <- !Rmult_plus_distr_l, Hs; ring).
  apply orb_true_iff. destruct (Rlt_dec 0 A) as [P|P].
  - left. rewrite Rabs_pos_eq by lra.
    assert (forall l, 0 <= l -> Rltb (- (/ 1000000000 * A)) (A * l) = true).
    { intros l Hl. apply Rltb_iff. assert (0 <= A * l) by (apply Rmult_le_pos; lra). lra. }
    rewrite !H by assumption. reflexivity.
  - right. assert (N : A < 0) by lra. rewrite Rabs_left by lra.
    assert (forall l, 0 <= l -> Rltb (A * l) (/ 1000000000 * - A) = true).
    { intros l Hl. apply Rltb_iff. assert (0 <= - A * l) by (apply Rmult_le_pos; lra). lra. }
    rewrite !H by assumption. reflexivity.
Qed.

Lemma crosses_near (A l0 l1 l2 : R) : l0 + l1 + l2 = 1 ->
  crosses_agree (K := Rops) (A * l0) (A * l1) (A * l2) = true ->
  - / 1000000000 < l0 /\ - / 1000000000 < l1 /\ - / 1000000000 < l2.
Proof.
  intros Hs H. unfold crosses_agree in H. cbv zeta in H. cbn [flit Rops fmul fabs fadd flt fneg] in H. rewrite nine in H.
  replace (A * l0 + A * l1 + A * l2) with A in H by (rewrite <- !Rmult_plus_distr_l, Hs; ring).
  assert (Hp : forall A l, 0 < A -> - (/ 1000000000 * A) < A * l -> - / 1000000000 < l).
  { intros B l HB Hl. apply Rmult_lt_reg_l with B; lra. }
  apply orb_true_iff in H. destruct H as [H|H]; apply andb_true_iff in H as (H & C3); apply andb_true_iff in H as (C1 & C2);
    apply Rltb_iff in C1, C2, C3.
  - destruct (Rtotal_order A 0) as [N|[Z|P]].
    + rewrite Rabs_left in C1, C2, C3 by lra.
      exfalso. assert (Hs' : A * l0 + A * l1 + A * l2 = A) by (rewrite <- !Rmult_plus_distr_l, Hs; ring). lra.
    + subst A. rewrite Rabs_R0 in C1. lra.
    + rewrite Rabs_pos_eq in C1, C2, C3 by lra. repeat split; apply Hp with A; assumption.
  - destruct (Rtotal_order A 0) as [N|[Z|P]].
    + rewrite Rabs_left in C1, C2, C3 by lra. repeat split; apply Hp with (- A); lra.
    + subst A. rewrite Rabs_R0 in C1. lra.
    + rewrite Rabs_pos_eq in C1, C2, C3 by lra.
      exfalso. assert (Hs' : A * l0 + A * l1 + A * l2 = A) by (rewrite <- !Rmult_plus_distr_l, Hs; ring). lra.
Qed.

Lemma axis_inside (a0 a1 a2 l0 l1 l2 : R) : l0 + l1 + l2 = 1 -> 0 <= l0 -> 0 <= l1 -> 0 <= l2 ->
  axis_rejects (K := Rops) a0 a1 a2 (l0 * a0 + l1 * a1 + l2 * a2) = false.
Proof.
  intros Hs H0 H1 H2. unfold axis_rejects. cbv zeta. cbn [flit Rops fadd fsub flt]. rewrite nine.
  set (x := l0 * a0 + l1 * a1 + l2 * a2). apply orb_false_iff. split.
  - destruct (Rltb _ a0 && _ && _)%bool eqn:E; [|reflexivity]. exfalso.
    apply andb_true_iff in E as (E & C3); apply andb_true_iff in E as (C1 & C2). apply Rltb_iff in C1, C2, C3.
    assert (x = l0 * x + l1 * x + l2 * x) by (rewrite <- !Rmult_plus_distr_r, Hs; ring).
    assert (l0 * (x + / 1000000000) <= l0 * a0) by (apply Rmult_le_compat_l; lra).
    assert (l1 * (x + / 1000000000) <= l1 * a1) by (apply Rmult_le_compat_l; lra).
    assert (l2 * (x + / 1000000000) <= l2 * a2) by (apply Rmult_le_compat_l; lra).
    assert (l0 * / 1000000000 + l1 * / 1000000000 + l2 * / 1000000000 = / 1000000000) by (rewrite <- !Rmult_plus_distr_r, Hs; ring).
    unfold x in * . lra.
  - destruct (Rltb a0 _ && _ && _)%bool eqn:E; [|reflexivity]. exfalso.
    apply andb_true_iff in E as (E & C3); apply andb_true_iff in E as (C1 & C2). apply Rltb_iff in C1, C2, C3.
    assert (x = l0 * x + l1 * x + l2 * x) by (rewrite <- !Rmult_plus_distr_r, Hs; ring).
    assert (l0 * a0 <= l0 * (x - / 1000000000)) by (apply Rmult_le_compat_l; lra).
    assert (l1 * a1 <= l1 * (x - / 1000000000)) by (apply Rmult_le_compat_l; lra).
    assert (l2 * a2 <= l2 * (x - / 1000000000)) by (apply Rmult_le_compat_l; lra).
    assert (l0 * / 1000000000 + l1 * / 1000000000 + l2 * / 1000000000 = / 1000000000) by (rewrite <- !Rmult_plus_distr_r, Hs; ring).
    unfold x in * . lra.
Qed.

(** The plane of a facet: a unit normal orthogonal to the triangle. *)
Definition plane_of (pl : plane Rops) (q0 q1 q2 : vec Rops) : Prop :=
  exists k, k <> 0 /\
    k * pl_a pl = (vy q1 - vy q0) * (vz q2 - vz q0) - (vz q1 - vz q0) * (vy q2 - vy q0) /\
    k * pl_b pl = (vz q1 - vz q0) * (vx q2 - vx q0) - (vx q1 - vx q0) * (vz q2 - vz q0) /\
    k * pl_c pl = (vx q1 - vx q0) * (vy q2 - vy q0) - (vy q1 - vy q0) * (vx q2 - vx q0) /\
    pl_a pl * pl_a pl + pl_b pl * pl_b pl + pl_c pl * pl_c pl = 1.

Lemma half : Q2R (1 # 2) = / 2.
Proof. unfold Q2R. cbn. lra. Qed.

Lemma cross_bary (ax ay bx by_ cx cy l0 l1 l2 px py : R) : l0 + l1 + l2 = 1 ->
  px = l0 * ax + l1 * bx + l2 * cx -> py = l0 * ay + l1 * by_ + l2 * cy ->
  let A := (bx - ax) * (cy - ay) - (by_ - ay) * (cx - ax) in
  ab_cross_ac (K := Rops) ax ay bx by_ px py = A * l2 /\
  ab_cross_ac (K := Rops) bx by_ cx cy px py = A * l0 /\
  ab_cross_ac (K := Rops) cx cy ax ay px py = A * l1.
Proof.
  intros Hs -> -> A. unfold ab_cross_ac, A. cbn [fsub fmul Rops].
  assert (E : l0 = 1 - l1 - l2) by lra. subst l0. repeat split; match goal with |- @eq _ ?a ?b => change (@eq R a b); ring end.
Qed.

Lemma triangle_cases (pl : plane Rops) (q0 q1 q2 pt : vec Rops) l0 l1 l2 :
  plane_of pl q0 q1 q2 -> barycentric q0 q1 q2 pt l0 l1 l2 ->
  exists b A, A <> 0 /\
    dist_to_segment pt pl (q0, q1, q2) = (b && crosses_agree (K := Rops) (A * l2) (A * l0) (A * l1))%bool /\
    (0 <= l0 -> 0 <= l1 -> 0 <= l2 -> b = true).
Proof.
  intros (k & Hk & Ka & Kb & Kc & Hn) (Hs & Ex & Ey & Ez).
  unfold dist_to_segment. cbv zeta. cbn [flit flt fabs Rops]. rewrite half.
  assert (Hz : forall x, / 2 < Rabs x -> x <> 0) by (intros x Hx ->; rewrite Rabs_R0 in Hx; lra).
  destruct (Rltb (/ 2) (Rabs (pl_c pl))) eqn:E3.
  - apply Rltb_iff in E3.
    destruct (cross_bary (vx q0) (vy q0) (vx q1) (vy q1) (vx q2) (vy q2) l0 l1 l2 _ _ Hs Ex Ey) as (C1 & C2 & C3).
    rewrite C1, C2, C3. rewrite <- Kc. set (A := k * pl_c pl).
    exists (negb (axis_rejects (K := Rops) (vx q0) (vx q1) (vx q2) (vx pt)) && negb (axis_rejects (K := Rops) (vy q0) (vy q1) (vy q2) (vy pt)))%bool, A.
    split; [apply Rmult_integral_contrapositive; split; [exact Hk|apply Hz; exact E3]|]. split.
    + destruct (axis_rejects _ _ _ (vx pt)); [reflexivity|]. destruct (axis_rejects _ _ _ (vy pt)); reflexivity.
    + intros H0 H1 H2. rewrite Ex, Ey, !axis_inside by assumption. reflexivity.
  - apply Rltb_false in E3. destruct (Rltb (/ 2) (Rabs (pl_b pl))) eqn:E2.
    + apply Rltb_iff in E2.
      destruct (cross_bary (vz q0) (vx q0) (vz q1) (vx q1) (vz q2) (vx q2) l0 l1 l2 _ _ Hs Ez Ex) as (C1 & C2 & C3).
      rewrite C1, C2, C3. rewrite <- Kb. set (A := k * pl_b pl).
      exists (negb (axis_rejects (K := Rops) (vx q0) (vx q1) (vx q2) (vx pt)) && negb (axis_rejects (K := Rops) (vz q0) (vz q1) (vz q2) (vz pt)))%bool, A.
      split; [apply Rmult_integral_contrapositive; split; [exact Hk|apply Hz; exact E2]|]. split.
      * destruct (axis_rejects _ _ _ (vx pt)); [reflexivity|]. destruct (axis_rejects _ _ _ (vz pt)); reflexivity.
      * intros H0 H1 H2. rewrite Ex, Ez, !axis_inside by assumption. reflexivity.
    + apply Rltb_false in E2. destruct (Rltb (/ 2) (Rabs (pl_a pl))) eqn:E1.
      * apply Rltb_iff in E1.
        destruct (cross_bary (vy q0) (vz q0) (vy q1) (vz q1) (vy q2) (vz q2) l0 l1 l2 _ _ Hs Ey Ez) as (C1 & C2 & C3).
        rewrite C1, C2, C3. rewrite <- Ka. set (A := k * pl_a pl).
        exists (negb (axis_rejects (K := Rops) (vz q0) (vz q1) (vz q2) (vz pt)) && negb (axis_rejects (K := Rops) (vy q0) (vy q1) (vy q2) (vy pt)))%bool, A.
        split; [apply Rmult_integral_contrapositive; split; [exact Hk|apply Hz; exact E1]|]. split.
        { destruct (axis_rejects _ _ _ (vz pt)); [reflexivity|]. destruct (axis_rejects _ _ _ (vy pt)); reflexivity. }
        { intros H0 H1 H2. rewrite Ez, Ey, !axis_inside by assumption. reflexivity. }
      * apply Rltb_false in E1. exfalso.
        assert (Sq : forall x, Rabs x <= / 2 -> x * x <= / 4).
        { intros x Hx. unfold Rabs in Hx; destruct (Rcase_abs x); nra. }
        pose proof (Sq _ E1). pose proof (Sq _ E2). pose proof (Sq _ E3). lra.
Qed.

Lemma triangle_test (pl : plane Rops) (q0 q1 q2 pt : vec Rops) l0 l1 l2 :
  plane_of pl q0 q1 q2 -> barycentric q0 q1 q2 pt l0 l1 l2 ->
  (0 <= l0 -> 0 <= l1 -> 0 <= l2 -> dist_to_segment pt pl (q0, q1, q2) = true) /\
  (dist_to_segment pt pl (q0, q1, q2) = true -> - / 1000000000 < l0 /\ - / 1000000000 < l1 /\ - / 1000000000 < l2).
Proof.
  intros Hp Hb. destruct (triangle_cases _ _ _ _ _ _ _ _ Hp Hb) as (b & A & HA & E & Hbt).
  destruct Hb as (Hs & _). rewrite E. split.
  - intros H0 H1 H2. rewrite Hbt by assumption. cbn [andb]. apply crosses_inside; try assumption. lra.
  - intros H. apply andb_true_iff in H as (_ & H). apply crosses_near in H; [|lra]. tauto.
Qed.
