(** What the counts of seeds say about the functions that sample. *)
From Coq Require Import NArith ZArith QArith Qreals List Bool Reals Lia Lra.
From Flocq Require Import Core IEEE754.BinarySingleNaN.
From Verif Require Import Float RealOps RngModel RngLemmas RngIeee ParticleModel NuclearModel MeshTypes Balance TrackModel CycleModel GridModel MeshModel
  GridSpec MeshSpec MeshTheorems TrackAccount PopSpec GeomSpec NuclearSpec SegmentFacts PlaneLemmas PartnerLemmas OutcomeLemmas PopDemo SourcePoint GeomLemmas LawSpec LawCount.
Import ListNotations.
Local Open Scope R_scope.

Lemma sample_is_draw (p : particle Rops) s : next_draw (seeded p s) = nth_sample 1 s.
Proof. reflexivity. Qed.
Lemma sample_range01 k s : (0 < k)%nat -> 0 <= nth_sample k s <= 1.
Proof. intros H. destruct k as [|k]; [lia|]. unfold nth_sample. apply sample_unit. apply rng_next_lt. Qed.

(** ** The generator *)
Lemma uniform_f64 x : 0 <= x <= 1 -> share_is (fun s => B2R (fst (rng_sample_f64 s)) <= x) x ulp53.
Proof.
  intros Hx. apply (share_le 1 _ x Hx). intros s. rewrite (proj1 (rng_sample_f64_value s)). unfold nth_sample. cbn [fsample Rops].
  change (rng_iter 1 s) with (rng_next s). change (bpow radix2 (-64)) with (/ IZR (2 ^ 64)). change (Z.of_N two64) with (2 ^ 64)%Z. reflexivity.
Qed.

(** ** Free paths *)
Lemma free_path_value (p : particle Rops) s : p_num_mean_free_paths (sample_num_mfp (seeded p s)) = - ln (nth_sample 1 s).
Proof. unfold sample_num_mfp. rewrite draw_next, sample_is_draw. cbn [p_num_mean_free_paths set_num_mean_free_paths]. cbn [fmul fneg fln f1 Rops]. rring. Qed.

Lemma beyond_path k s t : (0 < k)%nat -> 0 <= t -> (t < - ln (nth_sample k s) <-> nth_sample k s < exp (- t) /\ ~ nth_sample k s <= 0).
Proof.
  intros Hk Ht. destruct (sample_range01 k s Hk) as [H0 _]. set (r := nth_sample k s) in * . clearbody r.
  destruct (Rle_lt_or_eq_dec 0 r H0) as [Hr|Hr].
  - split.
    + intros H. split; [|lra]. rewrite <- (exp_ln r Hr) at 1. apply exp_increasing. lra.
    + intros [H _]. apply (ln_increasing r) in H; [|exact Hr]. rewrite ln_exp in H. lra.
  - subst r. split; [|lra]. intros H. exfalso. unfold ln in H. destruct (Rlt_dec 0 0) as [A|A]; lra.
Qed.
Lemma share_path k (P : N -> Prop) t : (0 < k)%nat -> 0 <= t -> (forall s, P s <-> t < - ln (nth_sample k s)) -> share_is P (exp (- t)) ulp52.
Proof.
  intros Hk Ht H. apply (share_ext (fun s => Rltb (nth_sample k s) (exp (- t)) = true /\ ~ Rleb (nth_sample k s) 0 = true)).
  - intros s _. rewrite H, (beyond_path k s t Hk Ht), Rltb_iff, Rleb_iff. reflexivity.
  - cut (share_is (fun s => Rltb (nth_sample k s) (exp (- t)) = true /\ ~ Rleb (nth_sample k s) 0 = true) (exp (- t) - 0) ulp52); [rewrite Rminus_0_r; trivial|].
    assert (E : 0 < exp (- t) <= 1).
    { split; [apply exp_pos|]. rewrite <- exp_0. destruct Ht as [Ht|<-]; [left; apply exp_increasing; lra|rewrite Ropp_0; lra]. }
    apply (share_weaken _ _ (1025 / IZR (2 ^ 64) + 1025 / IZR (2 ^ 64))); [|exact small_ulp52].
    apply (share_minus (fun s => Rltb (nth_sample k s) (exp (- t)) = true) (fun s => Rleb (nth_sample k s) 0 = true)).
    + apply (sample_share k (fun v => Rltb v (exp (- t)))); [lra| |]; intros v; rewrite Rltb_iff; lra.
    + apply (sample_share k (fun v => Rleb v 0)); [lra| |]; intros v; rewrite Rleb_iff; lra.
    + intros s _. rewrite Rltb_iff, Rleb_iff. lra.
Qed.
Lemma free_paths (p : particle Rops) t : 0 <= t ->
  share_is (fun s => t < p_num_mean_free_paths (sample_num_mfp (seeded p s))) (exp (- t)) ulp52.
Proof. intros Ht. apply (share_path 1); [lia|exact Ht|]. intros s. rewrite free_path_value. reflexivity. Qed.

(** ** Population control *)
Lemma roulette_share (p : particle Rops) f : 0 <= f <= 1 -> share_is (fun s => fst (over_populated_rr (seeded p s) f) = true) f ulp53.
Proof.
  intros Hf. apply (share_le 1 _ f Hf). intros s. unfold over_populated_rr. rewrite draw_next, sample_is_draw.
  change (flt (f := Rops) f (nth_sample 1 s)) with (Rltb f (nth_sample 1 s)). destruct (Rltb f (nth_sample 1 s)) eqn:E; cbn [fst].
  - apply Rltb_iff in E. split; [discriminate|lra].
  - apply Rltb_false in E. split; [intros _; exact E|reflexivity].
Qed.
Lemma low_weight_share (p : particle Rops) cutoff sw : 0 <= cutoff <= 1 -> p_weight p <= cutoff * sw ->
  share_is (fun s => fst (low_weight_rr (seeded p s) cutoff sw) = true) cutoff ulp53.
Proof.
  intros Hc Hw. apply (share_le 1 _ cutoff Hc). intros s. unfold low_weight_rr.
  change (fle (f := Rops) (p_weight (seeded p s)) (fmul (f := Rops) cutoff sw)) with (Rleb (p_weight p) (cutoff * sw)).
  rewrite (proj2 (Rleb_iff _ _) Hw), draw_next, sample_is_draw.
  change (fle (f := Rops) (nth_sample 1 s) cutoff) with (Rleb (nth_sample 1 s) cutoff). destruct (Rleb (nth_sample 1 s) cutoff) eqn:E; cbn [fst].
  - apply Rleb_iff in E. split; [intros _; exact E|reflexivity].
  - apply Rleb_false in E. split; [discriminate|lra].
Qed.
Lemma split_share (p : particle Rops) f : 1 <= f < IZR (2 ^ 64) ->
  share_is (fun s => exists q l, under_populated_split (seeded p s) f = Ok (q, l) /\ Z.of_nat (length (q :: l)) = (Zfloor f + 1)%Z) (f - IZR (Zfloor f)) ulp53 /\
  share_is (fun s => exists q l, under_populated_split (seeded p s) f = Ok (q, l) /\ Z.of_nat (length (q :: l)) = Zfloor f) (1 - (f - IZR (Zfloor f))) ulp53.
Proof.
  intros Hf. pose proof (Zfloor_lb f) as L1. pose proof (Zfloor_ub f) as L2.
  assert (A : forall s n, (exists q l, under_populated_split (seeded p s) f = Ok (q, l) /\ Z.of_nat (length (q :: l)) = n) <->
    (if Rlt_dec (f - IZR (Zfloor f)) (nth_sample 1 s) then Zfloor f else Zfloor f + 1)%Z = n).
  { intros s n. destruct (split_real (seeded p s) f Hf) as (q & l & E & _ & En). rewrite sample_is_draw in En. split.
    - intros (q' & l' & E' & En'). rewrite E in E'. apply Ok_inj in E'. injection E' as <- <-. congruence.
    - intros H. exists q, l. split; [exact E|congruence]. }
  split.
  - apply (share_le 1); [lra|]. intros s. rewrite A. destruct (Rlt_dec _ _); split; intros; try lia; try lra.
  - apply (share_ext (fun s => ~ nth_sample 1 s <= f - IZR (Zfloor f))); [|apply share_not; apply (share_le 1); [lra|reflexivity]].
    intros s _. rewrite A. destruct (Rlt_dec _ _); split; intros; try lia; try lra.
Qed.

(** ** Directions *)
Lemma cosine_share k (P : N -> Prop) (c : R) : -1 <= c <= 1 -> (forall s, P s <-> 1 - 2 * nth_sample k s <= c) -> share_is P ((1 + c) / 2) ulp53.
Proof. intros Hc H. apply (share_ge k); [lra|]. intros s. rewrite H. split; lra. Qed.
Lemma isotropic_z (p : particle Rops) : vz (p_direction (sample_isotropic p)) = 1 - 2 * next_draw p.
Proof.
  unfold sample_isotropic. rewrite draw_next. rewrite draw_next. cbn [p_direction set_direction vz]. rewrite two_R. reflexivity.
Qed.
Lemma isotropic_share (p : particle Rops) c : -1 <= c <= 1 ->
  share_is (fun s => vz (p_direction (sample_isotropic (seeded p s))) <= c) ((1 + c) / 2) ulp53.
Proof. intros Hc. apply (cosine_share 1 _ c Hc). intros s. rewrite isotropic_z, sample_is_draw. reflexivity. Qed.

(** ** Collisions *)
Lemma scatter_draws (p : particle Rops) (r : reaction Rops) (m : R) : r_type r = Scatter -> exists q, sample_collision p r m = Ok (1%N, q, []) /\
  p_kinetic_energy q = p_kinetic_energy p * (1 - next_draw p * (1 / m)) /\
  (unit_vec (p_direction p) -> off_axis (p_direction p) = 0 \/ 1 / 1000000 <= off_axis (p_direction p) ->
   dot (p_direction q) (p_direction p) = 2 * nth_sample 2 (p_random_number_seed p) - 1).
Proof.
  intros Ht. unfold sample_collision. rewrite Ht. unfold draw_scatter. rewrite draw_next. rewrite draw_next.
  set (p2 := set_random_number_seed _ _). set (a := fsub (fmul _ ftwo) f1).
  eexists. split; [reflexivity|]. split; [rewrite (proj2 (same_trajectory _ _ _)); reflexivity|].
  intros U O. assert (Ea : a = 2 * nth_sample 2 (p_random_number_seed p) - 1).
  { unfold a. rewrite two_R. set (w := next_draw _). change (nth_sample 2 (p_random_number_seed p)) with w. cbn [fsub fmul f1 Rops]. clearbody w. rring. }
  pose proof (sample_range01 2 (p_random_number_seed p) ltac:(lia)) as Hr.
  destruct (trajectory p2 (fmul (p_kinetic_energy p) (fsub f1 (fmul (next_draw p) (fdiv (f := Rops) f1 m)))) a) as (_ & _ & T); [exact U|rewrite Ea; lra|].
  rewrite <- Ea. apply T. exact O.
Qed.
Lemma scatter_energy_share (p : particle Rops) (r : reaction Rops) (m y : R) : r_type r = Scatter -> 0 < m -> 0 < p_kinetic_energy p -> 0 <= y <= 1 ->
  share_is (fun s => exists q, sample_collision (seeded p s) r m = Ok (1%N, q, []) /\ p_kinetic_energy p * (1 - y / m) <= p_kinetic_energy q) y ulp53.
Proof.
  intros Ht Hm He Hy. apply (share_le 1 _ y Hy). intros s.
  destruct (scatter_draws (seeded p s) r m Ht) as (q & E & Ee & _). rewrite sample_is_draw in Ee.
  change (p_kinetic_energy (seeded p s)) with (p_kinetic_energy p) in Ee. assert (Q : 0 < / m) by (apply Rinv_0_lt_compat; exact Hm).
  assert (B : p_kinetic_energy p * (1 - y / m) <= p_kinetic_energy q <-> nth_sample 1 s <= y).
  { rewrite Ee. set (e := p_kinetic_energy p) in * . set (v := nth_sample 1 s). clearbody e v. change (F Rops) with R in * .
    split; intros H.
    - apply (Rmult_le_reg_l e) in H; [|exact He]. apply (Rmult_le_reg_r (/ m)); [exact Q|]. unfold Rdiv in H. lra.
    - apply Rmult_le_compat_l; [lra|]. apply (Rmult_le_compat_r (/ m)) in H; [|lra]. unfold Rdiv. lra. }
  rewrite <- B. split.
  - intros (q' & E' & H). rewrite E in E'. apply Ok_inj in E'. injection E' as <-. exact H.
  - intros H. exists q. split; [exact E|exact H].
Qed.
Lemma scatter_angle_share (p : particle Rops) (r : reaction Rops) (m c : R) : r_type r = Scatter -> unit_vec (p_direction p) ->
  off_axis (p_direction p) = 0 \/ 1 / 1000000 <= off_axis (p_direction p) -> -1 <= c <= 1 ->
  share_is (fun s => exists q, sample_collision (seeded p s) r m = Ok (1%N, q, []) /\ dot (p_direction q) (p_direction p) <= c) ((1 + c) / 2) ulp53.
Proof.
  intros Ht U O Hc. apply (share_le 2); [lra|]. intros s.
  destruct (scatter_draws (seeded p s) r m Ht) as (q & E & _ & Ed). specialize (Ed U O).
  change (p_random_number_seed (seeded p s)) with s in Ed. change (p_direction (seeded p s)) with (p_direction p) in Ed. split.
  - intros (q' & E' & H). rewrite E in E'. apply Ok_inj in E'. injection E' as <-. lra.
  - intros H. exists q. split; [exact E|lra].
Qed.

Lemma fission_all (p : particle Rops) (r : reaction Rops) (m : R) : r_type r = Fission -> 0 <= r_nu_bar r < 4 ->
  exists q sec, sample_collision p r m = Ok (Z.to_N (Zfloor (r_nu_bar r + next_draw p)), q, sec).
Proof.
  intros Ht Hn. destruct (fission_real p r m Ht (proj1 Hn)) as (A & B & _). pose proof (draw_unit p) as D.
  destruct (Rlt_dec (r_nu_bar r + next_draw p) 1) as [L|L].
  - destruct (A L) as (q & E & _). exists q, []. rewrite E. change (F Rops) with R in * .
    replace (Zfloor (r_nu_bar r + next_draw p)) with 0%Z by (symmetry; apply Zfloor_imp; change (0 + 1)%Z with 1%Z; lra). reflexivity.
  - destruct B as (q & sec & E & _); [change (F Rops) with R in * ; lra|]. exists q, sec. exact E.
Qed.
Lemma fission_number_share (p : particle Rops) (r : reaction Rops) (m : R) : r_type r = Fission -> 0 <= r_nu_bar r < 4 ->
  let k := Zfloor (r_nu_bar r) in let x := r_nu_bar r - IZR k in
  share_is (fun s => exists q sec, sample_collision (seeded p s) r m = Ok (Z.to_N (k + 1), q, sec)) x ulp53 /\
  share_is (fun s => exists q sec, sample_collision (seeded p s) r m = Ok (Z.to_N k, q, sec)) (1 - x) ulp53.
Proof.
  intros Ht Hn k x. pose proof (Zfloor_lb (r_nu_bar r)) as L1. pose proof (Zfloor_ub (r_nu_bar r)) as L2. fold k in L1, L2.
  assert (K0 : (0 <= k)%Z) by (unfold k; apply Zfloor_lub; apply Hn).
  assert (A : forall s n, (0 <= n)%Z -> (exists q sec, sample_collision (seeded p s) r m = Ok (Z.to_N n, q, sec)) <->
    Zfloor (r_nu_bar r + nth_sample 1 s) = n).
  { intros s n Hz. destruct (fission_all (seeded p s) r m Ht Hn) as (q & sec & E). rewrite sample_is_draw in E.
    assert (Z0 : (0 <= Zfloor (r_nu_bar r + nth_sample 1 s))%Z).
    { apply Zfloor_lub. pose proof (sample_range01 1 s ltac:(lia)). change (F Rops) with R in * . lra. }
    split.
    - intros (q' & sec' & E'). rewrite E in E'. apply Ok_inj in E'. injection E' as En _ _. lia.
    - intros <-. exists q, sec. exact E. }
  assert (B : forall s, Zfloor (r_nu_bar r + nth_sample 1 s) = (if Rle_dec (1 - x) (nth_sample 1 s) then k + 1 else k)%Z).
  { intros s. pose proof (sample_range01 1 s ltac:(lia)) as D. unfold x in * . change (F Rops) with R in * .
    destruct (Rle_dec _ _) as [C|C]; apply Zfloor_imp; rewrite ?plus_IZR; cbn [IZR IPR]; lra. }
  split.
  - apply (share_ge 1); [unfold x; change (F Rops) with R in * ; lra|]. intros s. rewrite A, B by lia. destruct (Rle_dec _ _); split; intros; try lia; try lra.
  - apply (share_ext (fun s => ~ 1 - x <= nth_sample 1 s)).
    + intros s _. rewrite A, B by lia. destruct (Rle_dec _ _); split; intros; try lia; try lra.
    + apply share_not. apply (share_ge 1); [unfold x; change (F Rops) with R in * ; lra|reflexivity].
Qed.

Lemma fission_first_energy (p : particle Rops) (r : reaction Rops) (m : R) n q sec : r_type r = Fission -> sample_collision p r m = Ok (n, q, sec) -> (1 <= n)%N ->
  let v := (nth_sample 2 (p_random_number_seed p) + 1) / 2 in p_kinetic_energy q = 20 * v * v.
Proof.
  intros Ht E Hn v.
  assert (V : forall w : F Rops, w = nth_sample 2 (p_random_number_seed p) ->
     fmul (fmul (flit (20 # 1)) (fdiv (fadd w f1) ftwo)) (fdiv (fadd w f1) ftwo) = 20 * v * v :> F Rops).
  { intros w ->. rewrite two_R. cbn [fmul fdiv fadd f1 flit Rops]. replace (Q2R (20 # 1)) with 20 by (unfold Q2R; cbn; lra). unfold v. rring. }
  unfold sample_collision in E. rewrite Ht, draw_next in E. rb E as k Ek.
  destruct k as [|[| |]]; [apply Ok_inj in E; injection E as <- _ _; lia| | |].
  - rb E as u Eu. unfold draw_fission at 1 in E. rewrite draw_next in E. rewrite draw_next in E.
    destruct (draw_fission_n _ _) as [out p3]. destruct (spawn_n _ _) as [seeds p4]. apply Ok_inj in E. injection E as _ <- _.
    rewrite (proj2 (same_trajectory _ _ _)). apply V. reflexivity.
  - rb E as u Eu. unfold draw_fission at 1 in E. rewrite draw_next in E. rewrite draw_next in E.
    destruct (draw_fission_n _ _) as [out p3]. destruct (spawn_n _ _) as [seeds p4]. apply Ok_inj in E. injection E as _ <- _.
    rewrite (proj2 (same_trajectory _ _ _)). apply V. reflexivity.
  - unfold draw_fission in E. rewrite draw_next in E. rewrite draw_next in E. apply Ok_inj in E. injection E as _ <- _.
    rewrite (proj2 (same_trajectory _ _ _)). apply V. reflexivity.
Qed.
Lemma fission_energy_share (p : particle Rops) (r : reaction Rops) (m e : R) : r_type r = Fission -> 1 <= r_nu_bar r < 4 -> 5 <= e <= 20 ->
  share_is (fun s => exists n q sec, sample_collision (seeded p s) r m = Ok (n, q, sec) /\ p_kinetic_energy q <= e) (2 * sqrt (e / 20) - 1) ulp53.
Proof.
  intros Ht Hn He. change (F Rops) with R in * .
  assert (Q : 1 / 2 <= sqrt (e / 20) <= 1).
  { split.
    - replace (1 / 2) with (sqrt (1 / 4)); [apply sqrt_le_1_alt; lra|]. replace (1 / 4) with (1 / 2 * (1 / 2)) by lra. apply sqrt_square. lra.
    - apply Rle_trans with (sqrt 1); [apply sqrt_le_1_alt; lra|rewrite sqrt_1; lra]. }
  assert (QQ : sqrt (e / 20) * sqrt (e / 20) = e / 20) by (apply sqrt_sqrt; lra).
  apply (share_le 2); [lra|]. intros s. pose proof (sample_range01 2 s ltac:(lia)) as D.
  destruct (fission_all (seeded p s) r m Ht) as (q & sec & E); [change (F Rops) with R in * ; lra|].
  assert (N1 : (1 <= Z.to_N (Zfloor (r_nu_bar r + next_draw (seeded p s))))%N).
  { assert (Z1 : (1 <= Zfloor (r_nu_bar r + next_draw (seeded p s)))%Z).
    { apply Zfloor_lub. pose proof (draw_unit (seeded p s)). change (F Rops) with R in * . lra. }
    lia. }
  pose proof (fission_first_energy _ _ _ _ _ _ Ht E N1) as Ee. change (p_random_number_seed (seeded p s)) with s in Ee. cbn zeta in Ee.
  assert (B : p_kinetic_energy q <= e <-> nth_sample 2 s <= 2 * sqrt (e / 20) - 1).
  { rewrite Ee. set (v := nth_sample 2 s) in * . set (z := sqrt (e / 20)) in * . clearbody v z. split; intros H; nra. }
  rewrite <- B. split.
  - intros (n' & q' & sec' & E' & H). rewrite E in E'. apply Ok_inj in E'. injection E' as _ <- _. exact H.
  - intros H. eexists _, q, sec. split; [exact E|exact H].
Qed.

(** The partner of a collision. *)
Lemma firstn_next (ws : list R) k w : nth_error ws k = Some w -> Rsum (firstn (S k) ws) = Rsum (firstn k ws) + w.
Proof.
  revert k. induction ws as [|x ws IH]; intros [|k] H; cbn [nth_error] in H; try discriminate H.
  - injection H as <-. cbn [firstn]. unfold Rsum. cbn [fold_right]. lra.
  - apply IH in H. cbn [firstn] in H |- * . rewrite !Rsum_cons, H. lra.
Qed.
Lemma falls_share (ws : list R) k w : Forall (fun w => 0 <= w) ws -> 0 < Rsum ws -> nth_error ws k = Some w ->
  share_is (fun s => falls_in ws (Rsum ws * nth_sample 1 s) k) (w / Rsum ws) ulp52.
Proof.
  intros Hp Hs Hw. set (t := Rsum ws) in * . set (a := Rsum (firstn k ws) / t). set (b := Rsum (firstn (S k) ws) / t).
  assert (Eb : b - a = w / t) by (unfold a, b; rewrite (firstn_next ws k w Hw); field; lra).
  assert (It : 0 < / t) by (apply Rinv_0_lt_compat; exact Hs).
  assert (A0 : 0 <= a) by (unfold a; apply Rmult_le_pos; [apply (firstn_sum_nonneg ws Hp)|lra]).
  assert (AB : a <= b) by (unfold a, b; apply Rmult_le_compat_r; [lra|apply (firstn_sum_le ws Hp); lia]).
  assert (B1 : b <= 1).
  { unfold b. apply (Rmult_le_reg_r t); [exact Hs|]. unfold Rdiv. rewrite Rmult_assoc, Rinv_l, Rmult_1_r, Rmult_1_l by lra. apply (firstn_sum_all ws Hp). }
  assert (In : forall s, nth_sample 1 s < 1 -> (falls_in ws (t * nth_sample 1 s) k <-> a <= nth_sample 1 s < b)).
  { intros s H. apply partner_share; [exact Hp|exact Hs|]. pose proof (sample_range01 1 s ltac:(lia)). lra. }
  assert (Top : falls_in ws t k <-> a <= 0 < b).
  { unfold a, b. split.
    - intros (n & N1 & N2). fold t in N1, N2. pose proof (firstn_sum_nonneg ws Hp k) as F1. pose proof (firstn_sum_all ws Hp (S k)) as F2. fold t in F2.
      assert (n = 1%nat) as ->.
      { destruct n as [|[|n]]; [cbn [INR] in N1, N2; exfalso; lra|reflexivity|exfalso].
        rewrite !S_INR in N1. pose proof (pos_INR n). nra. }
      cbn [INR] in N1, N2. split; [|apply Rmult_lt_0_compat; lra]. assert (Z : Rsum (firstn k ws) = 0) by lra. rewrite Z. unfold Rdiv. lra.
    - intros [H0 H1]. exists 1%nat. cbn [INR]. fold t. apply (Rmult_le_compat_r t) in H0; [|lra]. apply (Rmult_lt_compat_r t) in H1; [|lra].
      unfold Rdiv in H0, H1. rewrite Rmult_assoc, Rinv_l, Rmult_1_r, Rmult_0_l in H0 by lra. rewrite Rmult_assoc, Rinv_l, Rmult_1_r, Rmult_0_l in H1 by lra.
      pose proof (firstn_sum_nonneg ws Hp k). lra. }
  rewrite <- Eb. destruct (Rle_dec a 0) as [Z|Z]; [destruct (Rlt_dec 0 b) as [Zb|Zb]|].
  - assert (Ea : a = 0) by lra. rewrite Ea. replace (b - 0) with (1 - (1 - b)) by lra.
    apply (share_ext (fun s => ~ b <= nth_sample 1 s < 1)).
    + intros s _. pose proof (sample_range01 1 s ltac:(lia)) as [R0 R1]. destruct R1 as [R1|R1].
      * rewrite (In s R1), Ea. split; lra.
      * rewrite R1, Rmult_1_r, Top. split; [intros _; lra|intros _; lra].
    + apply share_not. apply (share_between 1); [lra|lra|reflexivity].
  - apply (share_between 1); [lra|lra|]. intros s. pose proof (sample_range01 1 s ltac:(lia)) as [R0 R1]. destruct R1 as [R1|R1]; [apply In; exact R1|].
    rewrite R1, Rmult_1_r, Top. split; lra.
  - apply (share_between 1); [lra|lra|]. intros s. pose proof (sample_range01 1 s ltac:(lia)) as [R0 R1]. destruct R1 as [R1|R1]; [apply In; exact R1|].
    rewrite R1, Rmult_1_r, Top. split; lra.
Qed.

Lemma partner_law fuel (td : track_data Rops) b mat_gid mat density (p : particle Rops) extra k iso r :
  (2 <= fuel)%nat -> density <> 0 -> vec_get (td_mats td) mat_gid = Ok mat ->
  material_data (td_nuclear td) (p_energy_group p) (mat_iso mat) ->
  Forall (fun pr => 0 <= sigma density (p_energy_group p) pr) (partners (td_nuclear td) (mat_iso mat)) ->
  weighted_macroscopic_cross_section td mat_gid density (p_energy_group p) = Ok (p_total_cross_section p) ->
  0 < p_total_cross_section p ->
  nth_error (partners (td_nuclear td) (mat_iso mat)) k = Some (iso, r) ->
  share_is (fun s => falls_in (map (sigma density (p_energy_group p)) (partners (td_nuclear td) (mat_iso mat))) (p_total_cross_section p * next_draw (seeded p s)) k /\
      collision_event fuel td b mat_gid density (seeded p s) extra =
      (do (n, q, sec) <- sample_collision (snd (draw (seeded p s))) r (mat_mass mat) ;
       Ok ((1 <=? n)%N, q, tally_collision b (r_type r) n, extra ++ sec)))
    (sigma density (p_energy_group p) (iso, r) / p_total_cross_section p) ulp52.
Proof.
  intros Hf Hd Em Hm Hp Ht Hs Hk. set (ws := map (sigma density (p_energy_group p)) (partners (td_nuclear td) (mat_iso mat))).
  assert (Ews : p_total_cross_section p = Rsum ws).
  { rewrite (total_is_sum td density (p_energy_group p) Hd mat mat_gid Em Hm) in Ht. apply Ok_inj in Ht. symmetry. exact Ht. }
  assert (Hw : Forall (fun w => 0 <= w) ws) by (unfold ws; apply Forall_map; exact Hp).
  assert (W : nth_error ws k = Some (sigma density (p_energy_group p) (iso, r))) by (unfold ws; rewrite nth_error_map, Hk; reflexivity).
  apply (share_ext (fun s => falls_in ws (Rsum ws * nth_sample 1 s) k)).
  - intros s _. rewrite sample_is_draw, Ews. split; [|intros [H _]; exact H]. intros H. split; [exact H|].
    destruct (collision_partner fuel td b mat_gid mat density (seeded p s) extra Hf Hd Em Hm Hp Ht Hs) as (k' & iso' & r' & N' & _ & F' & E').
    rewrite sample_is_draw in F'. change (p_total_cross_section (seeded p s)) with (p_total_cross_section p) in F'.
    change (p_energy_group (seeded p s)) with (p_energy_group p) in F'. fold ws in F'. rewrite Ews in F'.
    assert (k' = k) by (apply (falls_in_once ws Hw _ _ _ F' H)). subst k'. rewrite Hk in N'. injection N' as _ <-. exact E'.
  - rewrite Ews. apply falls_share; [exact Hw|rewrite <- Ews; exact Hs|exact W].
Qed.

(** ** The source *)
Lemma counts_hash P n : counts P n -> counts (fun s => P (hash_state s)) n.
Proof.
  intros (l & Nd & Hl & En). exists (map hash_state_inv l). split; [|split].
  - assert (H : Forall (fun s => (s < two64)%N) l) by (apply Forall_forall; intros s Hs; apply Hl in Hs; apply Hs). clear - Nd H.
    induction Nd as [|a l Ha Nd IH]; cbn [map]; constructor; [|apply IH; apply Forall_inv_tail in H; exact H].
    intros C. apply in_map_iff in C. destruct C as (x & E & Hx). apply Ha. pose proof (Forall_inv H) as A. apply Forall_inv_tail in H.
    rewrite Forall_forall in H. specialize (H x Hx). replace a with x; [exact Hx|].
    rewrite <- (hash_state_right x H), <- (hash_state_right a A). congruence.
  - intros s. rewrite in_map_iff. split.
    + intros (x & <- & Hx). apply Hl in Hx. destruct Hx as [A B]. split; [apply hash_state_inv_lt; exact A|]. rewrite hash_state_right by exact A. exact B.
    + intros [A B]. exists (hash_state s). split; [apply hash_state_left; exact A|]. apply Hl. split; [apply hash_state_lt; exact A|exact B].
  - rewrite map_length. exact En.
Qed.
Lemma share_hash P x e : share_is P x e -> share_is (fun s => P (hash_state s)) x e.
Proof. intros (n & C & B). exists n. split; [apply counts_hash; exact C|exact B]. Qed.

Lemma coordinate_draws (p : particle Rops) m i (v : R) r p1 : generate_coordinate_3dg p m i v = Ok (r, p1) ->
  p_random_number_seed p1 = rng_iter 4 (p_random_number_seed p).
Proof.
  intros Ep. unfold generate_coordinate_3dg in Ep. rb Ep as ce Ece. rewrite draw_next in Ep. rb Ep as pts Epts. rewrite !draw_next in Ep.
  destruct (fold_barycentric _ _ _) as [[[a b] e] f]. destruct pts as [[u0 u1] u2]. apply Ok_inj in Ep.
  apply (f_equal snd) in Ep. cbn [snd] in Ep. subst p1. reflexivity.
Qed.
Lemma source_draws (g : grid Rops) bc pt geoms mats dom : built_domain g bc pt geoms mats dom -> sized g ->
  forall (md : mcdata Rops) (w : R) i x, (i < length (d_cells dom))%nat ->
  exists p, source_particle md w dom (N.of_nat i) (g_dx g * g_dy g * g_dz g) x = Ok p /\
    vz (p_direction p) = 1 - 2 * nth_sample 5 (hash_state x) /\
    p_kinetic_energy p = nth_sample 7 (hash_state x) * (sp_e_max (mc_params md) - sp_e_min (mc_params md)) + sp_e_min (mc_params md) /\
    p_num_mean_free_paths p = - ln (nth_sample 8 (hash_state x)) /\
    p_time_to_census p = td_dt (mc_track md) * nth_sample 9 (hash_state x).
Proof.
  intros D Hs md w i x Hi. pose proof (domain_mesh _ _ _ _ _ _ D) as B. destruct (facets_exist _ _ _ _ B) as (Lc & Hg & _).
  destruct (Hg i) as (c & L); [rewrite Lc, <- (domain_size _ _ _ _ _ _ D); exact Hi|].
  unfold source_particle. change (spawn_rn_seed x) with (hash_state x, rng_next x). cbv iota beta. generalize (hash_state x), (rng_next x). intros h x1. set (p0 := set_identifier _ _).
  destruct (point_sampled _ _ _ _ _ _ B Hs L p0) as (k & q0 & q1 & q2 & r & p1 & _ & Ep & _ & _ & _ & _ & Hin). rewrite Ep. cbn [rbind].
  assert (S1 : p_random_number_seed p1 = rng_iter 4 h) by (rewrite (coordinate_draws _ _ _ _ _ _ Ep); reflexivity).
  set (p2 := set_weight _ _). assert (S2 : p_random_number_seed p2 = rng_iter 4 h) by exact S1. clearbody p2.
  pose proof (isotropic_z p2) as Z. assert (S3 : p_random_number_seed (sample_isotropic p2) = rng_iter 6 h).
  { unfold sample_isotropic. rewrite draw_next. rewrite draw_next. cbn [p_random_number_seed set_direction set_random_number_seed]. rewrite S2. reflexivity. }
  set (p3 := sample_isotropic p2) in * . clearbody p3. rewrite draw_next. unfold sample_num_mfp. rewrite draw_next. rewrite draw_next.
  eexists. split; [reflexivity|].
  cbn [p_direction p_kinetic_energy p_num_mean_free_paths p_time_to_census set_time_to_census set_random_number_seed set_num_mean_free_paths set_kinetic_energy].
  split; [|split; [|split]].
  - rewrite Z. unfold next_draw. rewrite S2. reflexivity.
  - unfold next_draw. rewrite S3. reflexivity.
  - unfold next_draw. cbn [p_random_number_seed set_random_number_seed set_kinetic_energy]. rewrite S3.
    change (fsample (f := Rops) (rng_next (rng_next (rng_iter 6 h)))) with (nth_sample 8 h). cbn [fmul fneg fln f1 Rops]. rring.
  - unfold next_draw. cbn [p_random_number_seed set_random_number_seed set_kinetic_energy set_num_mean_free_paths]. rewrite S3. reflexivity.
Qed.

Lemma source_law (g : grid Rops) bc pt geoms mats dom : built_domain g bc pt geoms mats dom -> sized g ->
  forall (md : mcdata Rops) (w : R) i, (i < length (d_cells dom))%nat ->
  let created := source_particle md w dom (N.of_nat i) (g_dx g * g_dy g * g_dz g) in
  let lo := sp_e_min (mc_params md) in let hi := sp_e_max (mc_params md) in let dt := td_dt (mc_track md) in
  (forall c, -1 <= c <= 1 -> share_is (fun x => exists p, created x = Ok p /\ vz (p_direction p) <= c) ((1 + c) / 2) ulp53) /\
  (forall y, 0 <= y <= 1 -> lo < hi -> share_is (fun x => exists p, created x = Ok p /\ p_kinetic_energy p <= lo + y * (hi - lo)) y ulp53) /\
  (forall y, 0 <= y <= 1 -> 0 < dt -> share_is (fun x => exists p, created x = Ok p /\ p_time_to_census p <= y * dt) y ulp53) /\
  (forall t, 0 <= t -> share_is (fun x => exists p, created x = Ok p /\ t < p_num_mean_free_paths p) (exp (- t)) ulp52).
Proof.
  intros D Hs md w i Hi created lo hi dt.
  assert (A : forall (Q : particle Rops -> Prop) (P : N -> Prop) y e,
    (forall x p, created x = Ok p -> vz (p_direction p) = 1 - 2 * nth_sample 5 (hash_state x) ->
      p_kinetic_energy p = nth_sample 7 (hash_state x) * (hi - lo) + lo ->
      p_num_mean_free_paths p = - ln (nth_sample 8 (hash_state x)) -> p_time_to_census p = dt * nth_sample 9 (hash_state x) -> (Q p <-> P (hash_state x))) ->
    share_is P y e -> share_is (fun x => exists p, created x = Ok p /\ Q p) y e).
  { intros Q P y e H Sh. apply (share_ext (fun x => P (hash_state x))); [|apply share_hash; exact Sh]. intros x _.
    destruct (source_draws g bc pt geoms mats dom D Hs md w i x Hi) as (p & E & E1 & E2 & E3 & E4).
    specialize (H x p E E1 E2 E3 E4). split.
    - intros Px. exists p. split; [exact E|apply H; exact Px].
    - intros (p' & E' & HQ). unfold created in E'. rewrite E in E'. apply Ok_inj in E'. subst p'. apply H. exact HQ. }
  split; [|split; [|split]].
  - intros c Hc. apply (A _ (fun s => 1 - 2 * nth_sample 5 s <= c)); [|apply (cosine_share 5 _ c Hc); reflexivity].
    intros x p _ -> _ _ _. reflexivity.
  - intros y Hy Hl. apply (A _ (fun s => nth_sample 7 s <= y)); [|apply (share_le 7 _ y Hy); reflexivity].
    intros x p _ _ -> _ _. set (v := nth_sample 7 (hash_state x)). clearbody v. clear - Hl. clearbody lo hi. change (F Rops) with R in * . split; intros H; nra.
  - intros y Hy Hl. apply (A _ (fun s => nth_sample 9 s <= y)); [|apply (share_le 9 _ y Hy); reflexivity].
    intros x p _ _ _ _ ->. set (v := nth_sample 9 (hash_state x)). clearbody v. clear - Hl. clearbody dt. change (F Rops) with R in * . split; intros H; nra.
  - intros t Ht. apply (A _ (fun s => t < - ln (nth_sample 8 s))); [|apply (share_path 8); [lia|exact Ht|reflexivity]].
    intros x p _ _ _ -> _. reflexivity.
Qed.
