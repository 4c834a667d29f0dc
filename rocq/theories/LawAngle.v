(** Angles around an axis: the azimuth of sampled directions is uniform (C62). *)
From Coq Require Import NArith ZArith QArith Qreals List Bool Reals Lia Lra Psatz.
From Flocq Require Import Core.
From Verif Require Import Float RealOps RngModel RngLemmas ParticleModel PopSpec GeomSpec SegmentFacts GeomLemmas NuclearModel PlaneLemmas OutcomeLemmas LawSpec LawCount LawFacts.
Import ListNotations.
Local Open Scope R_scope.

(** ** Leaving out rare seeds *)
Lemma counts_bool (f : N -> bool) : exists n, counts (fun s => f s = true) n.
Proof.
  destruct counts_all as (l & Nd & Hl & _). exists (N.of_nat (length (filter f l))), (filter f l).
  split; [apply NoDup_filter; exact Nd|]. split; [|reflexivity]. intros s. rewrite filter_In, Hl. tauto.
Qed.
Lemma share_except (f e : N -> bool) x a b : share_is (fun s => f s = true) x a -> share_is (fun s => e s = true) 0 b ->
  share_is (fun s => f s && negb (e s) = true) x (a + b).
Proof.
  intros (n & Cn & Bn) (m & Cm & Bm). destruct (counts_bool (fun s => f s && e s)) as (k & Ck).
  destruct (counts_minus _ _ _ _ Cn Ck) as [L C].
  { intros s _ H. apply andb_true_iff in H. apply H. }
  destruct (counts_minus _ _ _ _ Cm Ck) as [L2 _].
  { intros s _ H. apply andb_true_iff in H. apply H. }
  exists (n - k)%N. split.
  - revert C. apply counts_ext. intros s _. destruct (f s), (e s); cbn [andb negb]; intuition congruence.
  - rewrite N2Z.inj_sub, minus_IZR by exact L. set (T := IZR (2 ^ 64)) in * .
    assert (T0 : 0 < / T) by (apply Rinv_0_lt_compat, IZR_lt; reflexivity).
    apply N2Z.inj_le, IZR_le in L2. assert (K0 : 0 <= IZR (Z.of_N k)) by (apply IZR_le; lia).
    assert (P1 : 0 <= IZR (Z.of_N k) * / T) by (apply Rmult_le_pos; lra).
    assert (P2 : IZR (Z.of_N k) * / T <= IZR (Z.of_N m) * / T) by (apply Rmult_le_compat_r; lra).
    unfold Rdiv in * . rewrite Rmult_minus_distr_r. apply Rabs_le. apply Rabs_le_inv in Bn. apply Rabs_le_inv in Bm. lra.
Qed.

(** ** Polar coordinates *)
Lemma angle_unique a b : - (2 * PI) < a - b < 2 * PI -> cos a = cos b -> sin a = sin b -> a = b.
Proof.
  intros H Ec Es. assert (C : cos (a - b) = 1).
  { rewrite cos_minus, Ec, Es. pose proof (sin2_cos2 b) as T. unfold Rsqr in T. lra. }
  replace (a - b) with (2 * ((a - b) / 2)) in C by field. rewrite cos_2a_sin in C.
  set (h := (a - b) / 2) in * . assert (S0 : sin h = 0) by nra.
  assert (Hh : - PI < h < PI) by (unfold h; lra).
  destruct (Rtotal_order h 0) as [L|[L|L]].
  - exfalso. pose proof (sin_gt_0 (- h) ltac:(lra) ltac:(lra)) as G. rewrite sin_neg in G. lra.
  - unfold h in L. lra.
  - exfalso. pose proof (sin_gt_0 h ltac:(lra) ltac:(lra)) as G. lra.
Qed.

Lemma sector_iff lo hi sigma a : lo < hi < lo + 2 * PI -> 0 <= sigma -> lo <= a <= lo + 2 * PI ->
  (in_sector lo hi (sigma * cos a) (sigma * sin a) <-> 0 < sigma /\ lo < a <= hi).
Proof.
  intros Hh Hs Ha. split.
  - intros (rho & phi & Hr & Hp & E1 & E2).
    assert (Q : sigma * sigma = rho * rho).
    { pose proof (sin2_cos2 a) as T1. pose proof (sin2_cos2 phi) as T2. unfold Rsqr in T1, T2.
      replace (sigma * sigma) with (sigma * cos a * (sigma * cos a) + sigma * sin a * (sigma * sin a)).
      - rewrite E1, E2. replace (rho * cos phi * (rho * cos phi) + rho * sin phi * (rho * sin phi)) with (rho * rho * (sin phi * sin phi + cos phi * cos phi)) by ring.
        rewrite T2. ring.
      - replace (sigma * cos a * (sigma * cos a) + sigma * sin a * (sigma * sin a)) with (sigma * sigma * (sin a * sin a + cos a * cos a)) by ring. rewrite T1. ring. }
    assert (E : sigma = rho) by nra. subst rho. split; [exact Hr|].
    apply Rmult_eq_reg_l in E1; [|lra]. apply Rmult_eq_reg_l in E2; [|lra].
    destruct (Req_dec a lo) as [->|D].
    + exfalso. rewrite <- (cos_period lo 1), <- (sin_period lo 1) in * . cbn [INR] in * .
      assert (lo + 2 * 1 * PI = phi) by (apply angle_unique; [lra|exact E1|exact E2]). lra.
    + assert (a = phi) by (apply angle_unique; [lra|exact E1|exact E2]). lra.
  - intros [Hr Hp]. exists sigma, a. repeat split; try assumption; apply Hp.
Qed.

(** The angle comes from sample [k], the radius is not zero unless sample [j] is 0 or 1. *)
Lemma sector_share j k (P : N -> Prop) (sigma : N -> R) lo hi : (0 < j)%nat -> (0 < k)%nat -> lo < hi < lo + 2 * PI ->
  (forall s, 0 <= sigma s) -> (forall s, 0 < nth_sample j s < 1 -> 0 < sigma s) -> (forall s, nth_sample j s = 0 \/ nth_sample j s = 1 -> sigma s = 0) ->
  (forall s, P s <-> in_sector lo hi (sigma s * cos (lo + 2 * PI * nth_sample k s)) (sigma s * sin (lo + 2 * PI * nth_sample k s))) ->
  share_is P ((hi - lo) / (2 * PI)) ulp51.
Proof.
  intros Hj Hk Hh S0 S1 S2 H. pose proof PI_RGT_0 as Pi. set (x := (hi - lo) / (2 * PI)).
  assert (Hx : 0 <= x <= 1).
  { assert (I : 0 < / (2 * PI)) by (apply Rinv_0_lt_compat; lra). unfold x, Rdiv. split; [apply Rmult_le_pos; lra|].
    apply (Rmult_le_reg_r (2 * PI)); [lra|]. rewrite Rmult_assoc, Rinv_l by lra. lra. }
  set (t := 1025 / IZR (2 ^ 64)).
  assert (A : share_is (fun s => Rleb (nth_sample k s) x && negb (Rleb (nth_sample k s) 0) && negb (Rleb (nth_sample j s) 0) && negb (Rleb 1 (nth_sample j s)) = true) x (t + t + t + t)).
  { apply (share_except (fun s => Rleb (nth_sample k s) x && negb (Rleb (nth_sample k s) 0) && negb (Rleb (nth_sample j s) 0)) (fun s => Rleb 1 (nth_sample j s))).
    - apply (share_except (fun s => Rleb (nth_sample k s) x && negb (Rleb (nth_sample k s) 0)) (fun s => Rleb (nth_sample j s) 0)).
      + apply (share_except (fun s => Rleb (nth_sample k s) x) (fun s => Rleb (nth_sample k s) 0)).
        * apply (sample_share k (fun v => Rleb v x) x Hx); intros v; rewrite Rleb_iff; lra.
        * apply (sample_share k (fun v => Rleb v 0) 0); [lra| |]; intros v; rewrite Rleb_iff; lra.
      + apply (sample_share j (fun v => Rleb v 0) 0); [lra| |]; intros v; rewrite Rleb_iff; lra.
    - replace 0 with (1 - 1) by lra. apply (share_ext (fun s => ~ Rltb (nth_sample j s) 1 = true)).
      + intros s _. rewrite Rltb_iff, Rleb_iff. split; lra.
      + apply share_not. apply (sample_share j (fun v => Rltb v 1) 1); [lra| |]; intros v; rewrite Rltb_iff; lra. }
  apply (share_weaken _ _ (t + t + t + t)).
  - revert A. apply share_ext. intros s _. rewrite H.
    pose proof (sample_range01 j s Hj) as Rj. pose proof (sample_range01 k s Hk) as Rk.
    rewrite sector_iff; [|exact Hh|apply S0|nra].
    rewrite !andb_true_iff, !negb_true_iff, !Rleb_iff, !Rleb_false.
    assert (Q : nth_sample k s <= x <-> lo + 2 * PI * nth_sample k s <= hi).
    { unfold x, Rdiv. split; intros Hq.
      - apply (Rmult_le_compat_l (2 * PI)) in Hq; [|lra]. replace (2 * PI * ((hi - lo) * / (2 * PI))) with (hi - lo) in Hq by (field; lra). lra.
      - apply (Rmult_le_reg_l (2 * PI)); [lra|]. replace (2 * PI * ((hi - lo) * / (2 * PI))) with (hi - lo) by (field; lra). lra. }
    rewrite Q. split.
    + intros (((A1 & A2) & A3) & A4). split; [apply S1; lra|]. split; [nra|exact A1].
    + intros (B1 & B2 & B3). assert (A3 : 0 < nth_sample j s) by (destruct (Req_dec (nth_sample j s) 0) as [E|E]; [rewrite (S2 s) in B1 by (left; exact E); lra|lra]).
      assert (A4 : nth_sample j s < 1) by (destruct (Req_dec (nth_sample j s) 1) as [E|E]; [rewrite (S2 s) in B1 by (right; exact E); lra|lra]).
      repeat split; try assumption. nra.
  - unfold t, ulp51. change (2 ^ 64)%Z with (8192 * 2 ^ 51)%Z. rewrite mult_IZR. assert (0 < / IZR (2 ^ 51)) by (apply Rinv_0_lt_compat, IZR_lt; reflexivity).
    unfold Rdiv. rewrite Rinv_mult. lra.
Qed.

(** ** Radius of a cosine *)
Lemma radius_facts (r : R) : 0 <= r <= 1 -> let c := 1 - 2 * r in
  0 <= sqrt (1 - c * c) /\ (0 < r < 1 -> 0 < sqrt (1 - c * c)) /\ (r = 0 \/ r = 1 -> sqrt (1 - c * c) = 0).
Proof.
  intros Hr c. split; [apply sqrt_pos|]. split.
  - intros H. apply sqrt_lt_R0. unfold c. nra.
  - intros [H|H]; replace (1 - c * c) with 0 by (unfold c; rewrite H; ring); apply sqrt_0.
Qed.

Lemma isotropic_azimuth (p : particle Rops) psi : - PI < psi < PI ->
  share_is (fun s => let u := p_direction (sample_isotropic (seeded p s)) in in_sector (- PI) psi (vx u) (vy u)) ((psi + PI) / (2 * PI)) ulp51.
Proof.
  intros H. replace (psi + PI) with (psi - - PI) by ring. pose proof PI_RGT_0 as Pi.
  apply (sector_share 1 2 _ (fun s => sqrt (1 - (1 - 2 * nth_sample 1 s) * (1 - 2 * nth_sample 1 s)))); [lia|lia|lra| | | |].
  - intros s. apply (radius_facts (nth_sample 1 s)). apply sample_range01. lia.
  - intros s. apply (radius_facts (nth_sample 1 s)). apply sample_range01. lia.
  - intros s. apply (radius_facts (nth_sample 1 s)). apply sample_range01. lia.
  - intros s. cbv zeta. unfold sample_isotropic. rewrite draw_next, sample_is_draw. rewrite draw_next.
    set (r2 := next_draw _). change (nth_sample 2 s) with r2. clearbody r2. set (r1 := nth_sample 1 s). clearbody r1.
    cbn [p_direction set_direction vx vy]. rewrite two_R. cbn [fsub fmul f1 fcos fsin fpi Rops Float.fsqrt].
    replace (- PI + 2 * PI * r2) with (PI * (2 * r2 - 1)) by (rring). reflexivity.
Qed.

(** The turn of a rotated direction around the old one. *)
Lemma turned (p : particle Rops) (st c sf cf : R) : unit_vec (p_direction p) -> 1 / 1000000 <= off_axis (p_direction p) ->
  let v := p_direction (rotate_direction p st c sf cf) in
  dot v (upright (p_direction p)) = st * cf /\ dot v (sideways (p_direction p)) = st * sf.
Proof.
  intros U O. cbv zeta. unfold rotate_direction. set (u := p_direction p) in * .
  assert (Hlt : 0 <= 1 - vz u * vz u) by (unfold unit_vec, dot in U; nra).
  set (s := off_axis u) in * . assert (Sq : s * s = 1 - vz u * vz u) by (apply sqrt_sqrt; exact Hlt).
  cbn [flt flit f1 f0 fmul fadd fsub fdiv fneg Rops Float.fsqrt]. change (sqrt (1 - vz u * vz u)) with s.
  replace (Q2R (1 # 1000000)) with (1 / 1000000) by (unfold Q2R; cbn; lra).
  assert (Fl : Rltb s (1 / 1000000) = false) by (apply Rltb_false; exact O). rewrite Fl. cbn [p_direction set_direction].
  unfold dot, upright, sideways. cbn [vx vy vz]. fold s. unfold unit_vec, dot in U. clearbody s.
  set (x := vx u) in * . set (y := vy u) in * . set (z := vz u) in * . clearbody x y z. change (F Rops) with R in * .
  assert (S0 : s <> 0) by lra. assert (XY : x * x + y * y = s * s) by lra. set (a := x / s). set (b := y / s).
  assert (AB : a * a + b * b = 1) by (unfold a, b; replace (x / s * (x / s) + y / s * (y / s)) with ((x * x + y * y) / (s * s)) by (field; exact S0); rewrite XY; field; exact S0).
  replace (z * x / s) with (z * a) by (unfold a; field; exact S0). replace (z * y / s) with (z * b) by (unfold b; field; exact S0).
  replace (- y / s) with (- b) by (unfold b; field; exact S0). clearbody a b.
  split.
  - replace (_ + _ + _) with (st * cf * (z * z * (a * a + b * b) + s * s) + z * s * c * (a * a + b * b) - z * s * c) by ring.
    rewrite AB, Sq. ring.
  - replace (_ + _ + _) with (st * sf * (a * a + b * b)) by ring. rewrite AB. ring.
Qed.
Lemma turned_trajectory (p : particle Rops) (e c : R) : unit_vec (p_direction p) -> 1 / 1000000 <= off_axis (p_direction p) ->
  let v := p_direction (update_trajectory p e c) in let phi := 2 * PI * next_draw p in
  dot v (upright (p_direction p)) = sqrt (1 - c * c) * cos phi /\ dot v (sideways (p_direction p)) = sqrt (1 - c * c) * sin phi.
Proof.
  intros U O. cbv zeta. unfold update_trajectory. rewrite draw_next. cbn [fst snd]. rewrite two_R. set (q := set_kinetic_energy _ _).
  exact (turned q (sqrt (1 - c * c)) c (sin (2 * PI * next_draw p)) (cos (2 * PI * next_draw p)) U O).
Qed.
Lemma scatter_turn (p : particle Rops) (r : reaction Rops) (m : R) : r_type r = Scatter -> unit_vec (p_direction p) -> 1 / 1000000 <= off_axis (p_direction p) ->
  exists q, sample_collision p r m = Ok (1%N, q, []) /\
    let c := 2 * nth_sample 2 (p_random_number_seed p) - 1 in let phi := 2 * PI * nth_sample 3 (p_random_number_seed p) in
    dot (p_direction q) (upright (p_direction p)) = sqrt (1 - c * c) * cos phi /\
    dot (p_direction q) (sideways (p_direction p)) = sqrt (1 - c * c) * sin phi.
Proof.
  intros Ht U O. unfold sample_collision. rewrite Ht. unfold draw_scatter. rewrite draw_next. rewrite draw_next.
  set (p2 := set_random_number_seed _ _). set (a := fsub (fmul _ ftwo) f1).
  eexists. split; [reflexivity|]. cbv zeta.
  assert (Ea : a = 2 * nth_sample 2 (p_random_number_seed p) - 1).
  { unfold a. rewrite two_R. set (w := next_draw _). change (nth_sample 2 (p_random_number_seed p)) with w. cbn [fsub fmul f1 Rops]. clearbody w. rring. }
  rewrite <- Ea. change (nth_sample 3 (p_random_number_seed p)) with (next_draw p2).
  exact (turned_trajectory p2 _ a U O).
Qed.

Lemma scatter_azimuth (p : particle Rops) (r : reaction Rops) (m psi : R) : r_type r = Scatter -> unit_vec (p_direction p) ->
  1 / 1000000 <= off_axis (p_direction p) -> 0 < psi < 2 * PI ->
  share_is (fun s => exists q, sample_collision (seeded p s) r m = Ok (1%N, q, []) /\
    in_sector 0 psi (dot (p_direction q) (upright (p_direction p))) (dot (p_direction q) (sideways (p_direction p)))) (psi / (2 * PI)) ulp51.
Proof.
  intros Ht U O Hp. replace (psi / (2 * PI)) with ((psi - 0) / (2 * PI)) by (rewrite Rminus_0_r; reflexivity). pose proof PI_RGT_0 as Pi.
  apply (sector_share 2 3 _ (fun s => sqrt (1 - (1 - 2 * nth_sample 2 s) * (1 - 2 * nth_sample 2 s)))); [lia|lia|lra| | | |].
  - intros s. apply (radius_facts (nth_sample 2 s)). apply sample_range01. lia.
  - intros s. apply (radius_facts (nth_sample 2 s)). apply sample_range01. lia.
  - intros s. apply (radius_facts (nth_sample 2 s)). apply sample_range01. lia.
  - intros s. destruct (scatter_turn (seeded p s) r m Ht U O) as (q & E & E1 & E2). change (p_random_number_seed (seeded p s)) with s in E1, E2.
    change (p_direction (seeded p s)) with (p_direction p) in E1, E2. rewrite Rplus_0_l.
    replace ((1 - 2 * nth_sample 2 s) * (1 - 2 * nth_sample 2 s)) with ((2 * nth_sample 2 s - 1) * (2 * nth_sample 2 s - 1)) by ring.
    rewrite <- E1, <- E2. split.
    + intros (q' & E' & H). rewrite E in E'. apply Ok_inj in E'. injection E' as <-. exact H.
    + intros H. exists q. split; [exact E|exact H].
Qed.

(** The frame used for the azimuth. *)
Lemma frame_orthonormal (u : vec Rops) : unit_vec u -> 0 < off_axis u ->
  unit_vec (upright u) /\ unit_vec (sideways u) /\ dot u (upright u) = 0 /\ dot u (sideways u) = 0 /\ dot (upright u) (sideways u) = 0.
Proof.
  intros U O. assert (Hlt : 0 <= 1 - vz u * vz u) by (unfold unit_vec, dot in U; nra).
  assert (Sq : off_axis u * off_axis u = 1 - vz u * vz u) by (apply sqrt_sqrt; exact Hlt).
  unfold unit_vec, dot, upright, sideways in * . cbn [vx vy vz]. set (s := off_axis u) in * . clearbody s.
  set (x := vx u) in * . set (y := vy u) in * . set (z := vz u) in * . clearbody x y z. change (F Rops) with R in * .
  assert (S0 : s <> 0) by lra. assert (XY : x * x + y * y = s * s) by lra. set (a := x / s). set (b := y / s).
  assert (AB : a * a + b * b = 1) by (unfold a, b; replace (x / s * (x / s) + y / s * (y / s)) with ((x * x + y * y) / (s * s)) by (field; exact S0); rewrite XY; field; exact S0).
  assert (Ex : x = a * s) by (unfold a; field; exact S0). assert (Ey : y = b * s) by (unfold b; field; exact S0).
  replace (z * x / s) with (z * a) by (unfold a; field; exact S0). replace (z * y / s) with (z * b) by (unfold b; field; exact S0).
  replace (- y / s) with (- b) by (unfold b; field; exact S0). clearbody a b. subst x y.
  split; [|split; [|split; [|split]]].
  - replace (_ + _ + _) with (z * z * (a * a + b * b) + s * s) by ring. rewrite AB, Sq. ring.
  - replace (_ + _ + _) with (a * a + b * b) by ring. exact AB.
  - replace (_ + _ + _) with (z * s * (a * a + b * b) - z * s) by ring. rewrite AB. ring.
  - ring.
  - ring.
Qed.
