(** The search of the nearest center is defined for centers that are not too far apart (C40). *)
From Coq Require Import NArith ZArith QArith Qreals List Bool Reals Lra Lia Psatz.
From Flocq Require Import Core.
From Verif Require Import Float RealOps RngModel ParticleModel NuclearModel CycleModel GridModel AssignModel GridSpec GridLemmas
  SegmentFacts TrackAccount CycleFacts AssignLemmas CrossingLemmas PopLemmas SourceCount GeomSpec GeomLemmas PlaneLemmas NearestCenter InitReal.
Import ListNotations.
Local Open Scope R_scope.

Lemma cbrt_le (x a : R) : 0 < a -> x <= a * a * a -> Rcbrt x <= a.
Proof.
  intros Ha Hx. unfold Rcbrt. destruct (Rlt_dec 0 x) as [L|L].
  - rewrite <- (exp_ln a Ha). assert (E : ln x <= ln (a * a * a)).
    { destruct (Rle_lt_or_eq_dec _ _ Hx) as [H|H]; [left; apply ln_increasing; assumption|rewrite H; right; reflexivity]. }
    rewrite !ln_mult in E by (try apply Rmult_lt_0_compat; assumption).
    assert (H : ln x / 3 <= ln a) by lra. destruct H as [H|H]; [left; apply exp_increasing; exact H|right; rewrite H; reflexivity].
  - destruct (Rlt_dec x 0); [|lra]. pose proof (exp_pos (ln (- x) / 3)). lra.
Qed.
Lemma cbrt_nonneg (x : R) : 0 <= x -> 0 <= Rcbrt x.
Proof. intros H. unfold Rcbrt. destruct (Rlt_dec 0 x); [left; apply exp_pos|]. destruct (Rlt_dec x 0); lra. Qed.

(** Extrema are reached. *)
Lemma fold_extrema (l : list (vec Rops)) : forall u v c,
  let lo := fold_min l u in let hi := fold_max l v in
  (In c l -> vx lo <= vx c <= vx hi /\ vy lo <= vy c <= vy hi /\ vz lo <= vz c <= vz hi) /\
  (vx lo <= vx u /\ vy lo <= vy u /\ vz lo <= vz u) /\ (vx v <= vx hi /\ vy v <= vy hi /\ vz v <= vz hi) /\
  ((exists a, In a (u :: l) /\ vx lo = vx a) /\ (exists a, In a (u :: l) /\ vy lo = vy a) /\ (exists a, In a (u :: l) /\ vz lo = vz a)) /\
  ((exists a, In a (v :: l) /\ vx hi = vx a) /\ (exists a, In a (v :: l) /\ vy hi = vy a) /\ (exists a, In a (v :: l) /\ vz hi = vz a)).
Proof.
  induction l as [|w l IH]; intros u v c; cbv zeta; unfold fold_min, fold_max in * ; cbn [fold_left].
  - split; [intros []|]. split; [lra|]. split; [lra|]. split; (split; [|split]); eexists; (split; [left; reflexivity|reflexivity]).
  - set (u' := mkVec _ _ _). set (v' := mkVec (fmax (vx v) (vx w)) _ _). destruct (IH u' v' c) as (A & B & C & D & E). clear IH.
    assert (Ux : vx u' = Rmin (vx u) (vx w)) by reflexivity. assert (Uy : vy u' = Rmin (vy u) (vy w)) by reflexivity. assert (Uz : vz u' = Rmin (vz u) (vz w)) by reflexivity.
    assert (Vx : vx v' = Rmax (vx v) (vx w)) by reflexivity. assert (Vy : vy v' = Rmax (vy v) (vy w)) by reflexivity. assert (Vz : vz v' = Rmax (vz v) (vz w)) by reflexivity.
    set (lo := fold_left _ l u') in * . set (hi := fold_left _ l v') in * . clearbody lo hi u' v'.
    rewrite Ux, Uy, Uz in B. rewrite Vx, Vy, Vz in C.
    pose proof (Rmin_l (vx u) (vx w)). pose proof (Rmin_r (vx u) (vx w)). pose proof (Rmin_l (vy u) (vy w)). pose proof (Rmin_r (vy u) (vy w)).
    pose proof (Rmin_l (vz u) (vz w)). pose proof (Rmin_r (vz u) (vz w)).
    pose proof (Rmax_l (vx v) (vx w)). pose proof (Rmax_r (vx v) (vx w)). pose proof (Rmax_l (vy v) (vy w)). pose proof (Rmax_r (vy v) (vy w)).
    pose proof (Rmax_l (vz v) (vz w)). pose proof (Rmax_r (vz v) (vz w)).
    split; [intros [<-|Hc]; [lra|auto]|]. split; [lra|]. split; [lra|].
    assert (Pick : forall (f : vec Rops -> R) (q q0 : vec Rops) (x : R), (f q = f q0 \/ f q = f w) -> (exists a, In a (q :: l) /\ x = f a) -> exists a, In a (q0 :: w :: l) /\ x = f a).
    { intros f q q0 x Hq (a & [<-|Ha] & ->); [|exists a; cbn; auto]. destruct Hq as [Hq|Hq]; [exists q0|exists w]; cbn; auto. }
    assert (Mn : forall a b : R, Rmin a b = a \/ Rmin a b = b) by (intros a b; unfold Rmin; destruct (Rle_dec a b); auto).
    assert (Mx : forall a b : R, Rmax a b = a \/ Rmax a b = b) by (intros a b; unfold Rmax; destruct (Rle_dec a b); auto).
    destruct D as (D1 & D2 & D3), E as (E1 & E2 & E3).
    split; (split; [|split]);
      [eapply (Pick (@vx Rops)), D1; rewrite Ux|eapply (Pick (@vy Rops)), D2; rewrite Uy|eapply (Pick (@vz Rops)), D3; rewrite Uz
      |eapply (Pick (@vx Rops)), E1; rewrite Vx|eapply (Pick (@vy Rops)), E2; rewrite Vy|eapply (Pick (@vz Rops)), E3; rewrite Vz]; auto.
Qed.

(** Every center finds its cell. *)
Lemma record_succeeds l : forall (g : gao Rops) i, length (ga_my_centers g) = N.to_nat (gao_cells g) ->
  (forall c, In c l -> exists t, which_cell_tuple g c = Ok t) -> exists g', record_centers g i l = Ok g'.
Proof.
  induction l as [|c l IH]; intros g i Hl Hc; cbn [record_centers]; [eauto|].
  destruct (Hc c (or_introl eq_refl)) as (t & Et). rewrite Et. cbn [rbind].
  pose proof (which_in g c t Et) as Ht. pose proof (idx_lt g t Ht) as Hi.
  destruct (nth_error (ga_my_centers g) (N.to_nat (tuple_to_index g t))) as [mine|] eqn:Em.
  2:{ exfalso. apply nth_error_None in Em. lia. }
  rewrite (proj2 (vec_get_nth _ _ _) Em). cbn [rbind]. apply IH; cbn [ga_my_centers].
  - rewrite length_list_set. exact Hl.
  - intros c' Hc'. exact (Hc c' (or_intror Hc')).
Qed.

(** One axis of the grid. *)
Lemma axis_size (dim l n X : R) : 0 <= dim <= n -> 1 <= l <= X -> 1 <= n -> n * X < IZR (2 ^ 21) ->
  exists k, Rmax 1 (IZR (Zfloor (dim * l))) = IZR (Z.of_N k) /\ (0 < k < 2 ^ 21)%N /\ IZR (Z.of_N k) <= n * X.
Proof.
  intros Hd Hl Hn Hb. rewrite max_floor. set (z := Z.max 1 (Zfloor (dim * l))).
  assert (Hz : (1 <= z)%Z) by lia.
  assert (Hle : IZR z <= n * X).
  { unfold z. destruct (Z.max_spec 1 (Zfloor (dim * l))) as [(_ & ->)|(_ & ->)]; [|nra].
    pose proof (Zfloor_lb (dim * l)). nra. }
  exists (Z.to_N z). rewrite Z2N.id by lia. split; [reflexivity|]. split; [|exact Hle].
  assert (z < 2 ^ 21)%Z by (apply lt_IZR; lra). lia.
Qed.

Lemma axis_found (x lo l n X : R) k : 1 <= l <= X -> x - lo <= X -> 1 <= n -> n * X < IZR (2 ^ 21) -> (0 < k)%N -> IZR (Z.of_N k) <= n * X ->
  exists i, axis_index (K := Rops) x lo (l / IZR (Z.of_N k)) k = Ok i.
Proof.
  intros Hl Hx Hn Hb Hk Hle. apply axis_index_ok; [exact Hk|].
  assert (Pk : 1 <= IZR (Z.of_N k)) by (apply (IZR_le 1); lia).
  replace ((x - lo) / (l / IZR (Z.of_N k))) with ((x - lo) * IZR (Z.of_N k) * / l) by (field; lra).
  assert (A : (x - lo) * IZR (Z.of_N k) <= X * (n * X)) by nra.
  assert (Bd : X * (n * X) < IZR (2 ^ 64)).
  { apply Rlt_le_trans with (IZR (2 ^ 21) * IZR (2 ^ 21)); [|rewrite <- mult_IZR; apply IZR_le; lia].
    assert (X <= n * X) by nra. nra. }
  assert (Il : 0 < / l <= 1). { split; [apply Rinv_0_lt_compat; lra|]. rewrite <- Rinv_1. apply Rinv_le_contravar; lra. }
  destruct (Rle_lt_dec ((x - lo) * IZR (Z.of_N k)) 0) as [L|L].
  - apply Rle_lt_trans with 0; [nra|]. apply (IZR_lt 0). reflexivity.
  - apply Rle_lt_trans with (X * (n * X)); [nra|exact Bd].
Qed.

Lemma search_succeeds (centers : list (vec Rops)) (r : vec Rops) (X : R) : centers <> [] -> 1 <= X ->
  real_of (N.of_nat (length centers)) * X < IZR (2 ^ 21) -> spread (r :: centers) X ->
  exists a i, gao_new centers = Ok a /\ nearest_center a r = Ok (i, ga_burned a) /\ is_nearest centers r i.
Proof.
  intros Hne HX Hb Hs. destruct centers as [|c0 l0]; [congruence|]. set (centers := c0 :: l0) in * .
  pose proof (fold_extrema centers c0 c0) as Ex.
  set (lo := fold_min centers c0) in * . set (hi := fold_max centers c0) in * . set (n := real_of (N.of_nat (length centers))) in * .
  assert (Hn : 1 <= n) by (unfold n, centers; cbn [length]; apply (IZR_le 1); lia).
  assert (Hin : forall c, In c (c0 :: centers) -> In c (r :: centers)) by (intros c [<-|H]; [right; left; reflexivity|right; exact H]).
  assert (Sx : vx hi - vx lo <= X /\ vy hi - vy lo <= X /\ vz hi - vz lo <= X).
  { destruct (Ex c0) as (_ & _ & _ & ((a1 & I1 & ->) & (a2 & I2 & ->) & (a3 & I3 & ->)) & ((b1 & J1 & ->) & (b2 & J2 & ->) & (b3 & J3 & ->))).
    split; [apply (Hs b1 a1)|split; [apply (Hs b2 a2)|apply (Hs b3 a3)]]; auto. }
  assert (Sr : forall c, In c (r :: centers) -> vx c - vx lo <= X /\ vy c - vy lo <= X /\ vz c - vz lo <= X).
  { intros c Hc. destruct (Ex c0) as (_ & _ & _ & ((a1 & I1 & ->) & (a2 & I2 & ->) & (a3 & I3 & ->)) & _).
    split; [apply (Hs c a1)|split; [apply (Hs c a2)|apply (Hs c a3)]]; auto. }
  assert (G : exists a, gao_new centers = Ok a /\ exists t, which_cell_tuple a r = Ok t).
  { unfold gao_new. change (vec_get centers 0) with (Ok c0). cbn [rbind]. fold lo hi.
    cbn [fmax flit f0 fsub fmul fdiv fcbrt ffloor fto_usize fof_N Rops]. replace (Q2R (1 # 1)) with 1 by (unfold Q2R; cbn; lra).
    fold (real_of (N.of_nat (length centers))). fold n. change (IZR (Z.of_N 5)) with 5.
    set (lx := Rmax 1 (vx hi - vx lo)). set (ly := Rmax 1 (vy hi - vy lo)). set (lz := Rmax 1 (vz hi - vz lo)).
    assert (Lx : 1 <= lx <= X) by (split; [apply Rmax_l|apply Rmax_lub; [exact HX|apply Sx]]).
    assert (Ly : 1 <= ly <= X) by (split; [apply Rmax_l|apply Rmax_lub; [exact HX|apply Sx]]).
    assert (Lz : 1 <= lz <= X) by (split; [apply Rmax_l|apply Rmax_lub; [exact HX|apply Sx]]).
    set (dim := Rcbrt (n / (5 * lx * ly * lz))).
    assert (Hd : 0 <= dim <= n).
    { assert (P1 : 1 <= lx * ly) by nra. assert (P2 : 1 <= lx * ly * lz) by nra. assert (P : 1 <= 5 * lx * ly * lz) by lra.
      assert (I : 0 < / (5 * lx * ly * lz) <= 1) by (split; [apply Rinv_0_lt_compat; lra|rewrite <- Rinv_1; apply Rinv_le_contravar; lra]).
      split; [apply cbrt_nonneg; unfold Rdiv; apply Rmult_le_pos; lra|]. apply cbrt_le; [lra|]. unfold Rdiv.
      assert (n * / (5 * lx * ly * lz) <= n) by nra. assert (1 <= n * n) by nra. nra. }
    destruct (axis_size dim lx n X Hd Lx Hn Hb) as (kx & -> & Kx & Bx). destruct (axis_size dim ly n X Hd Ly Hn Hb) as (ky & -> & Ky & By).
    destruct (axis_size dim lz n X Hd Lz Hn Hb) as (kz & -> & Kz & Bz). clearbody dim.
    rewrite <- !mult_IZR, <- !N2Z.inj_mul. rewrite !Rto_usize_Z; [|lia|lia|lia|].
    2:{ rewrite !N2Z.inj_mul. assert (Z.of_N kx < 2 ^ 21 /\ Z.of_N ky < 2 ^ 21 /\ Z.of_N kz < 2 ^ 21)%Z as (Q1 & Q2 & Q3) by lia.
        assert (0 < Z.of_N kx /\ 0 < Z.of_N ky /\ 0 < Z.of_N kz)%Z as (Q4 & Q5 & Q6) by lia.
        set (a := Z.of_N kx) in * . set (b := Z.of_N ky) in * . set (c := Z.of_N kz) in * . clearbody a b c.
        assert (a * b < 2 ^ 42)%Z by nia. assert (0 < a * b)%Z by nia. split; [nia|]. assert (a * b * c < 2 ^ 63)%Z by nia. lia. }
    cbn [unwrap rbind]. rewrite !N2Z.id.
    set (g0 := mkGao _ _ _ _ _ _ _ _ _ _).
    assert (Wc : forall c, In c (r :: centers) -> exists t, which_cell_tuple g0 c = Ok t).
    { intros c Hc. destruct (Sr c Hc) as (R1 & R2 & R3). unfold which_cell_tuple, g0. cbn [ga_nx ga_ny ga_nz ga_dx ga_dy ga_dz ga_corner].
      destruct (axis_found (vx c) (vx lo) lx n X kx Lx R1 Hn Hb ltac:(lia) Bx) as (i1 & ->).
      destruct (axis_found (vy c) (vy lo) ly n X ky Ly R2 Hn Hb ltac:(lia) By) as (i2 & ->).
      destruct (axis_found (vz c) (vz lo) lz n X kz Lz R3 Hn Hb ltac:(lia) Bz) as (i3 & ->). cbn [rbind]. eauto. }
    destruct (record_succeeds centers g0 0) as (a & Ea).
    { unfold g0, gao_cells, gdims, total_cells. cbn [ga_my_centers ga_nx ga_ny ga_nz nx ny nz]. apply repeat_length. }
    { intros c Hc. apply Wc. right. exact Hc. }
    exists a. split; [exact Ea|]. destruct (recorded _ _ _ _ Ea) as (my & -> & _). destruct (Wc r (or_introl eq_refl)) as (t & Et). exists t. exact Et. }
  destruct G as (a & Ea & t & Et). exists a.
  destruct (nearest_right centers a r t Ea Et) as (i & Ei & Hi).
  - exists c0. split; [left; reflexivity|]. destruct (Hs r c0 (or_introl eq_refl) (or_intror (or_introl eq_refl))) as (A1 & A2 & A3).
    destruct (Hs c0 r (or_intror (or_introl eq_refl)) (or_introl eq_refl)) as (B1 & B2 & B3). unfold dist2.
    eapply Rle_lt_trans; [|exact lit300_big]. assert (XM : X <= IZR (2 ^ 64)).
    { apply Rle_trans with (IZR (2 ^ 21)); [nra|]. apply IZR_le. lia. }
    set (M := IZR (2 ^ 64)) in * . clearbody M. assert (Sq : forall u, - X <= u <= X -> u * u <= M * M) by (intros u Hu; nra).
    pose proof (Sq (vx r - vx c0) ltac:(lra)). pose proof (Sq (vy r - vy c0) ltac:(lra)). pose proof (Sq (vz r - vz c0) ltac:(lra)). lra.
  - exists i. auto.
Qed.
