(** Few particles, in binary32. *)
From Coq Require Import String NArith ZArith QArith Reals Lia Lra List Bool Psatz.
From Flocq Require Import Core Relative IEEE754.BinarySingleNaN.
From Verif Require Import Float RngModel RngLemmas RngIeee Ieee ParticleModel NuclearModel MeshTypes Balance TrackModel CycleModel IeeeEnergy SingleModel SingleFacts PopSpec SafeIeee FewIeee
  TrackAccount SourceCount AssignLemmas SegmentFacts EmptySpec EmptyFacts.
Import ListNotations.
Local Open Scope R_scope.

Notation nonneg32 x := (is_finite (x : f32) = true /\ 0 <= B2R (x : f32)).


Definition between32 (x : f32) (a b : R) : Prop := is_finite x = true /\ a <= B2R x <= b.
Definition is_f32 (c : R) : Prop := exists z : f32, is_finite z = true /\ B2R z = c.
Lemma is_f32_0 : is_f32 0.
Proof. exists (B754_zero false). split; reflexivity. Qed.
Lemma rnd_between32 a b x : is_f32 a -> is_f32 b -> a <= x <= b -> a <= rnd32 x <= b /\ Rabs (rnd32 x) < bpow radix2 emax128.
Proof.
  intros (za & Fa & Ea) (zb & Fb & Eb) (H1 & H2).
  assert (Ga : rnd32 a = a) by (rewrite <- Ea; apply round_generic; [apply valid_rnd_N|apply generic_format_B2R]).
  assert (Gb : rnd32 b = b) by (rewrite <- Eb; apply round_generic; [apply valid_rnd_N|apply generic_format_B2R]).
  assert (L1 : a <= rnd32 x) by (rewrite <- Ga; apply rnd32_le; exact H1).
  assert (L2 : rnd32 x <= b) by (rewrite <- Gb; apply rnd32_le; exact H2).
  split; [split; assumption|].
  pose proof (abs_B2R_lt_emax prec24 emax128 za) as A. pose proof (abs_B2R_lt_emax prec24 emax128 zb) as B.
  rewrite Ea in A. rewrite Eb in B. apply Rabs_def2 in A. apply Rabs_def2 in B. apply Rabs_def1; lra.
Qed.
Lemma div_between32 x y a b : is_finite x = true -> B2R y <> 0 -> is_f32 a -> is_f32 b -> a <= B2R x / B2R y <= b -> between32 (fdiv32 x y) a b.
Proof.
  intros Fx Hy Ha Hb H. destruct (rnd_between32 _ _ _ Ha Hb H) as (G & L).
  pose proof (Bdiv_correct prec24 emax128 _ _ mode_NE x y Hy) as C.
  change (SpecFloat.fexp prec24 emax128) with fexp32 in C. change (round_mode mode_NE) with ZnearestE in C.
  rewrite Rlt_bool_true in C by exact L. destruct C as (E & Fi & _).
  split; [unfold fdiv32; rewrite Fi; exact Fx|]. unfold fdiv32. rewrite E. exact G.
Qed.
Lemma leb32 (x y : f32) : is_finite x = true -> is_finite y = true -> Bleb x y = true -> B2R x <= B2R y.
Proof. intros Fx Fy H. rewrite Bleb_correct in H by assumption. revert H. case Rle_bool_spec; [auto|discriminate]. Qed.
Lemma to_usize32 (x : f32) : between32 x 0 top -> fto_usize32 x = Some (Z.to_N (Ztrunc (B2R x))).
Proof.
  intros (Fx & Hx). rewrite top_is in Hx. unfold fto_usize32.
  destruct (finite_value32 (f32_of_Z (-1)) true 8388608 (-23)) as (F1 & V1); [vm_compute; reflexivity|].
  destruct (finite_value32 (f32_of_Z (2 ^ 64)) false 8388608 41) as (F2 & V2); [vm_compute; reflexivity|].
  assert (W1 : B2R (f32_of_Z (-1)) = -1) by (rewrite V1; unfold F2R; cbn; lra).
  assert (W2 : B2R (f32_of_Z (2 ^ 64)) = IZR (2 ^ 64)) by (rewrite V2; unfold F2R; cbn [Fnum Fexp cond_Zopp bpow]; rewrite <- mult_IZR; reflexivity).
  rewrite !Bltb_correct by assumption. rewrite W1, W2. rewrite Rlt_bool_true by lra. rewrite Rlt_bool_true.
  2:{ eapply Rle_lt_trans; [apply Hx|]. apply IZR_lt. reflexivity. }
  cbn [andb]. f_equal. f_equal. apply eq_IZR. rewrite Btrunc_correct by reflexivity. unfold round, F2R, scaled_mantissa, cexp, FIX_exp. cbn. rewrite !Rmult_1_r. reflexivity.
Qed.
Lemma floor32 (x : f32) : is_finite x = true -> is_finite (Bnearbyint mode_DN x : f32) = true /\ B2R (Bnearbyint mode_DN x : f32) = IZR (Zfloor (B2R x)).
Proof.
  intros Fx. destruct (Bnearbyint_correct prec24 emax128 _ mode_DN x) as (E & Fi & _). split; [rewrite Fi; exact Fx|]. rewrite E.
  unfold round, F2R, scaled_mantissa, cexp, FIX_exp. cbn. rewrite !Rmult_1_r. reflexivity.
Qed.

(** ** Sums *)
Lemma add_stuck (x y : f32) : is_finite x = false -> is_finite (fadd32 x y) = false.
Proof. destruct x as [s|s| |s m e H]; try discriminate; intros _; [|destruct y; reflexivity]. destruct y as [t|t| |t m e H]; try reflexivity. destruct s, t; reflexivity. Qed.
Lemma sum_stuck (l : list f32) : forall a : f32, is_finite a = false -> is_finite (fold_left fadd32 l a) = false.
Proof. induction l as [|x l IH]; intros a H; [exact H|]. cbn [fold_left]. apply IH, add_stuck, H. Qed.

Lemma add_above (x y : f32) : nonneg32 x -> nonneg32 y -> is_finite (fadd32 x y) = true -> B2R x <= B2R (fadd32 x y) /\ B2R y <= B2R (fadd32 x y).
Proof.
  intros (Fx & Hx) (Fy & Hy) F. pose proof (Bplus_correct prec24 emax128 _ _ mode_NE x y Fx Fy) as C.
  change (SpecFloat.fexp prec24 emax128) with fexp32 in C. change (round_mode mode_NE) with ZnearestE in C. destruct (Rlt_bool _ _) eqn:B.
  - destruct C as (E & _). unfold fadd32. rewrite E.
    assert (Gx : rnd32 (B2R x) = B2R x) by (apply round_generic; [apply valid_rnd_N|apply generic_format_B2R]).
    assert (Gy : rnd32 (B2R y) = B2R y) by (apply round_generic; [apply valid_rnd_N|apply generic_format_B2R]).
    split; [rewrite <- Gx at 1|rewrite <- Gy at 1]; (apply round_le; [apply FLT_exp_valid; reflexivity|apply valid_rnd_N|lra]).
  - destruct C as (E & _). exfalso. unfold fadd32 in F. destruct (Bplus mode_NE x y); try discriminate F; cbn [B2SF] in E; unfold binary_overflow, overflow_to_inf in E; discriminate E.
Qed.

Lemma sum_above (l : list f32) : forall a : f32, nonneg32 a -> Forall (fun x => nonneg32 x) l -> is_finite (fold_left fadd32 l a) = true ->
  B2R a <= B2R (fold_left fadd32 l a) /\ Forall (fun x => B2R x <= B2R (fold_left fadd32 l a)) l.
Proof.
  induction l as [|x l IH]; intros a Ha Hl F; [split; [apply Rle_refl|constructor]|]. cbn [fold_left] in F |- * .
  pose proof (Forall_inv Hl) as Hx. pose proof (Forall_inv_tail Hl) as Ht. cbv beta in Hx.
  destruct (is_finite (fadd32 a x)) eqn:Fa; [|rewrite (sum_stuck l _ Fa) in F; discriminate F].
  destruct (add_above a x Ha Hx Fa) as (A1 & A2). destruct (IH (fadd32 a x)) as (B1 & B2); [split; [exact Fa|destruct Ha; lra]|exact Ht|exact F|].
  split; [lra|]. constructor; [lra|exact B2].
Qed.

(** ** Shares *)
Lemma div_low (w t : f32) : is_finite w = true -> is_finite t = true -> bpow radix2 (-100) <= B2R w <= bpow radix2 100 -> / 16 <= B2R t <= 15 / 16 ->
  is_finite (fdiv32 w t) = true /\ B2R w * (32 / 31) <= B2R (fdiv32 w t).
Proof.
  intros Fw Ft Hw Ht. assert (W0 : 0 < B2R w) by (eapply Rlt_le_trans; [apply bpow_gt_0|apply Hw]).
  assert (T0 : B2R t <> 0) by lra.
  assert (Lo : B2R w * (16 / 15) <= B2R w / B2R t).
  { unfold Rdiv. apply Rmult_le_compat_l; [lra|]. replace (16 * / 15) with (/ (15 / 16)) by lra. apply Rinv_le; lra. }
  assert (Hi : B2R w / B2R t <= B2R w * 16).
  { unfold Rdiv. apply Rmult_le_compat_l; [lra|]. replace 16 with (/ / 16) by lra. apply Rinv_le; lra. }
  assert (Er : Rabs (rnd32 (B2R w / B2R t) - B2R w / B2R t) <= / 2 * bpow radix2 (- 24 + 1) * Rabs (B2R w / B2R t)).
  { apply (relative_error_N_FLT radix2 (-149) 24 eq_refl (fun x => negb (Z.even x))). rewrite Rabs_pos_eq by lra.
    apply Rle_trans with (bpow radix2 (-100)); [apply bpow_le; lia|lra]. }
  rewrite (Rabs_pos_eq (B2R w / B2R t)) in Er by lra.
  assert (Ep : / 2 * bpow radix2 (- 24 + 1) <= / 1000).
  { apply Rle_trans with (/ 2 * bpow radix2 (-9)); [apply Rmult_le_compat_l; [lra|apply bpow_le; lia]|]. change (bpow radix2 (-9)) with (/ 512). lra. }
  assert (Ee : Rabs (rnd32 (B2R w / B2R t) - B2R w / B2R t) <= / 1000 * (B2R w / B2R t)).
  { eapply Rle_trans; [exact Er|]. apply Rmult_le_compat_r; lra. }
  apply Rabs_le_inv in Ee. assert (L1 : B2R w * (32 / 31) <= rnd32 (B2R w / B2R t)) by nra.
  assert (U1 : rnd32 (B2R w / B2R t) <= B2R w * 32) by lra.
  pose proof (Bdiv_correct prec24 emax128 _ _ mode_NE w t T0) as C. change (SpecFloat.fexp prec24 emax128) with fexp32 in C. change (round_mode mode_NE) with ZnearestE in C.
  rewrite Rlt_bool_true in C.
  - destruct C as (E & Fi & _). unfold fdiv32. rewrite E. split; [rewrite Fi; exact Fw|exact L1].
  - rewrite Rabs_pos_eq by lra. eapply Rle_lt_trans; [exact U1|]. apply Rle_lt_trans with (bpow radix2 100 * bpow radix2 5).
    + change (bpow radix2 5) with 32. lra.
    + rewrite <- bpow_plus. apply bpow_lt. reflexivity.
Qed.

Lemma is_f32_share : is_f32 (31 / 32).
Proof.
  exists (f32_lit (31 # 32)). destruct (finite_value32 (f32_lit (31 # 32)) false 16252928 (-24)) as (A & B); [vm_compute; reflexivity|].
  split; [exact A|]. rewrite B. unfold F2R. cbn [Fnum Fexp cond_Zopp bpow]. rewrite <- (Rmult_1_r (31 / 32)).
  replace (IZR (Z.pow_pos radix2 24)) with 16777216 by reflexivity. lra.
Qed.

Lemma share_none (x w t : f32) : nonneg32 x -> is_finite w = true -> is_finite t = true -> B2R x <= B2R w ->
  bpow radix2 (-100) <= B2R w <= bpow radix2 100 -> / 16 <= B2R t <= 15 / 16 ->
  fto_usize32 (Bnearbyint mode_DN (fdiv32 x (fdiv32 w t)) : f32) = Some 0%N.
Proof.
  intros (Fx & Hx) Fw Ft Hle Hw Ht. destruct (div_low w t Fw Ft Hw Ht) as (Fd & Hd).
  assert (W0 : 0 < B2R w) by (eapply Rlt_le_trans; [apply bpow_gt_0|apply Hw]). set (d := fdiv32 w t) in * . assert (D0 : 0 < B2R d) by lra.
  assert (B : between32 (fdiv32 x d) 0 (31 / 32)).
  { apply div_between32; [exact Fx|lra|apply is_f32_0|apply is_f32_share|]. split.
    - apply Rmult_le_pos; [exact Hx|]. apply Rlt_le, Rinv_0_lt_compat, D0.
    - apply Rmult_le_reg_r with (B2R d); [exact D0|]. unfold Rdiv at 1. rewrite Rmult_assoc, Rinv_l by lra. lra. }
  destruct B as (Fq & Hq). destruct (floor32 _ Fq) as (Ff & Vf).
  assert (Z0 : Zfloor (B2R (fdiv32 x d)) = 0%Z) by (apply Zfloor_imp; change (IZR (0 + 1)) with 1; lra).
  rewrite Z0 in Vf. rewrite to_usize32.
  - rewrite Vf, Ztrunc_IZR. reflexivity.
  - split; [exact Ff|]. rewrite Vf. split; [lra|]. apply bpow_ge_0.
Qed.

(** ** The tenth of the requested number *)
Definition tenth_check (n : N) : bool :=
  let t := fmul32 (f32_lit (1 # 10)) (f32_of_Z (Z.of_N n)) in
  is_finite t && Bleb (f32_lit (1 # 16)) t && Bleb t (f32_lit (15 # 16)) && match fto_usize32 t with Some 0%N => true | _ => false end.
Lemma tenths : forallb tenth_check [1; 2; 3; 4; 5; 6; 7; 8; 9]%N = true.
Proof. vm_compute. reflexivity. Qed.
Lemma lit_low : is_finite (f32_lit (1 # 16)) = true /\ B2R (f32_lit (1 # 16)) = / 16.
Proof.
  destruct (finite_value32 (f32_lit (1 # 16)) false 8388608 (-27)) as (A & B); [vm_compute; reflexivity|]. split; [exact A|]. rewrite B. unfold F2R. cbn [Fnum Fexp cond_Zopp bpow].
  replace (IZR (Z.pow_pos radix2 27)) with 134217728 by reflexivity. lra.
Qed.
Lemma lit_high : is_finite (f32_lit (15 # 16)) = true /\ B2R (f32_lit (15 # 16)) = 15 / 16.
Proof.
  destruct (finite_value32 (f32_lit (15 # 16)) false 15728640 (-24)) as (A & B); [vm_compute; reflexivity|]. split; [exact A|]. rewrite B. unfold F2R. cbn [Fnum Fexp cond_Zopp bpow].
  replace (IZR (Z.pow_pos radix2 24)) with 16777216 by reflexivity. lra.
Qed.
Lemma tenth32 n : (0 < n < 10)%N -> let t := fmul32 (f32_lit (1 # 10)) (f32_of_Z (Z.of_N n)) in
  is_finite t = true /\ / 16 <= B2R t <= 15 / 16 /\ fto_usize32 t = Some 0%N.
Proof.
  intros Hn. assert (C : tenth_check n = true).
  { pose proof tenths as T. rewrite forallb_forall in T. apply T. cbn [In]. lia. }
  unfold tenth_check in C. cbv zeta. revert C. generalize (fmul32 (f32_lit (1 # 10)) (f32_of_Z (Z.of_N n))). intros t C. apply andb_prop in C. destruct C as (C & C4).
  apply andb_prop in C. destruct C as (C & C3). apply andb_prop in C. destruct C as (C1 & C2). destruct lit_low as (F1 & V1). destruct lit_high as (F2 & V2).
  apply leb32 in C2; [|assumption|assumption]. apply leb32 in C3; [|assumption|assumption]. rewrite V1 in C2. rewrite V2 in C3.
  split; [exact C1|]. split; [split; assumption|]. destruct (fto_usize32 t) as [[|p]|]; try discriminate C4. reflexivity.
Qed.

Lemma zero_plus (w : f32) : 0 < B2R w -> fadd32 (B754_zero false) w = w.
Proof. destruct w as [s|s| |s m e H]; cbn [B2R]; try (intros X; exfalso; lra). intros _. reflexivity. Qed.

Lemma few_run32 lm fuel cf (md : mcdata (f32ops lm)) dom (xs : list f32) : (ei_policy (mc_exec md) = Sequential \/ ei_policy (mc_exec md) = Rayon) ->
  sp_standard (mc_params md) = true \/ sp_n_groups (mc_params md) <> 0%N -> materials_known md -> Forall2 (emits md) (d_cells dom) xs ->
  Forall (fun x => is_finite x = true /\ 0 <= B2R x) xs ->
  is_finite (fsum (K := f32ops lm) xs : f32) = true -> bpow radix2 (-100) <= B2R (fsum (K := f32ops lm) xs : f32) <= bpow radix2 100 ->
  (0 < sp_n_particles (mc_params md) < 10)%N ->
  exists s, empty_after md dom (N.to_nat (sp_n_steps (mc_params md))) s /\ forall r, core_loop fuel cf md (initial_sim md dom) r <-> r = Ok s.
Proof.
  intros Hp Hg Hk Hx H0 Fs Hs Hn. apply empty_run; [exact Hp|exact Hg|]. destruct (tenth32 _ Hn) as (Ft & Ht & Et).
  apply (nobody_from md dom xs 0%N Hk Hx); [exact Et|].
  destruct (sum_above xs (B754_zero false)) as (_ & A); [split; [reflexivity|apply Rle_refl]|exact H0|exact Fs|].
  change (fold_left fadd32 xs (B754_zero false)) with (fsum (K := f32ops lm) xs) in A.
  assert (W0 : 0 < B2R (fsum (K := f32ops lm) xs : f32)) by (eapply Rlt_le_trans; [apply bpow_gt_0|apply Hs]).
  apply Forall_forall. intros x Hin. rewrite Forall_forall in A, H0.
  change (fto_usize32 (Bnearbyint mode_DN (fdiv32 x (fdiv32 (fadd32 (B754_zero false) (fsum (K := f32ops lm) xs)) (fmul32 (f32_lit (1 # 10)) (f32_of_Z (Z.of_N (sp_n_particles (mc_params md)))))))) = Some 0%N).
  rewrite (zero_plus _ W0). apply share_none; auto.
Qed.
