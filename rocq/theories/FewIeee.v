(** Few particles, in binary64. *)
From Coq Require Import String NArith ZArith QArith Reals Lia Lra List Bool Psatz.
From Flocq Require Import Core Relative IEEE754.BinarySingleNaN.
From Verif Require Import Float RngModel RngLemmas RngIeee Ieee ParticleModel NuclearModel MeshTypes Balance TrackModel CycleModel IeeeEnergy PopSpec SafeIeee
  TrackAccount SourceCount AssignLemmas SegmentFacts EmptySpec EmptyFacts.
Import ListNotations.
Local Open Scope R_scope.

Notation nonneg64 x := (is_finite (x : f64) = true /\ 0 <= B2R (x : f64)).

(** ** Sums *)
Lemma add_stuck (x y : f64) : is_finite x = false -> is_finite (fadd64 x y) = false.
Proof. destruct x as [s|s| |s m e H]; try discriminate; intros _; [|destruct y; reflexivity]. destruct y as [t|t| |t m e H]; try reflexivity. destruct s, t; reflexivity. Qed.
Lemma sum_stuck (l : list f64) : forall a : f64, is_finite a = false -> is_finite (fold_left fadd64 l a) = false.
Proof. induction l as [|x l IH]; intros a H; [exact H|]. cbn [fold_left]. apply IH, add_stuck, H. Qed.

Lemma add_above (x y : f64) : nonneg64 x -> nonneg64 y -> is_finite (fadd64 x y) = true -> B2R x <= B2R (fadd64 x y) /\ B2R y <= B2R (fadd64 x y).
Proof.
  intros (Fx & Hx) (Fy & Hy) F. pose proof (Bplus_correct prec53 emax1024 _ _ mode_NE x y Fx Fy) as C.
  rewrite SpecFloat_fexp_eq in C. change (round_mode mode_NE) with ZnearestE in C. destruct (Rlt_bool _ _) eqn:B.
  - destruct C as (E & _). unfold fadd64. rewrite E.
    assert (Gx : rnd (B2R x) = B2R x) by (apply round_generic; [apply valid_rnd_N|apply generic_format_B2R]).
    assert (Gy : rnd (B2R y) = B2R y) by (apply round_generic; [apply valid_rnd_N|apply generic_format_B2R]).
    split; [rewrite <- Gx at 1|rewrite <- Gy at 1]; (apply round_le; [apply FLT_exp_valid; reflexivity|apply valid_rnd_N|lra]).
  - destruct C as (E & _). exfalso. unfold fadd64 in F. destruct (Bplus mode_NE x y); try discriminate F; cbn [B2SF] in E; unfold binary_overflow, overflow_to_inf in E; discriminate E.
Qed.

Lemma sum_above (l : list f64) : forall a : f64, nonneg64 a -> Forall (fun x => nonneg64 x) l -> is_finite (fold_left fadd64 l a) = true ->
  B2R a <= B2R (fold_left fadd64 l a) /\ Forall (fun x => B2R x <= B2R (fold_left fadd64 l a)) l.
Proof.
  induction l as [|x l IH]; intros a Ha Hl F; [split; [apply Rle_refl|constructor]|]. cbn [fold_left] in F |- * .
  pose proof (Forall_inv Hl) as Hx. pose proof (Forall_inv_tail Hl) as Ht. cbv beta in Hx.
  destruct (is_finite (fadd64 a x)) eqn:Fa; [|rewrite (sum_stuck l _ Fa) in F; discriminate F].
  destruct (add_above a x Ha Hx Fa) as (A1 & A2). destruct (IH (fadd64 a x)) as (B1 & B2); [split; [exact Fa|destruct Ha; lra]|exact Ht|exact F|].
  split; [lra|]. constructor; [lra|exact B2].
Qed.

(** ** Shares *)
Lemma div_low (w t : f64) : is_finite w = true -> is_finite t = true -> bpow radix2 (-1000) <= B2R w <= bpow radix2 1000 -> / 16 <= B2R t <= 15 / 16 ->
  is_finite (fdiv64 w t) = true /\ B2R w * (32 / 31) <= B2R (fdiv64 w t).
Proof.
  intros Fw Ft Hw Ht. assert (W0 : 0 < B2R w) by (eapply Rlt_le_trans; [apply bpow_gt_0|apply Hw]).
  assert (T0 : B2R t <> 0) by lra.
  assert (Lo : B2R w * (16 / 15) <= B2R w / B2R t).
  { unfold Rdiv. apply Rmult_le_compat_l; [lra|]. replace (16 * / 15) with (/ (15 / 16)) by lra. apply Rinv_le; lra. }
  assert (Hi : B2R w / B2R t <= B2R w * 16).
  { unfold Rdiv. apply Rmult_le_compat_l; [lra|]. replace 16 with (/ / 16) by lra. apply Rinv_le; lra. }
  assert (Er : Rabs (rnd (B2R w / B2R t) - B2R w / B2R t) <= / 2 * bpow radix2 (- 53 + 1) * Rabs (B2R w / B2R t)).
  { apply (relative_error_N_FLT radix2 (-1074) 53 eq_refl (fun x => negb (Z.even x))). rewrite Rabs_pos_eq by lra.
    apply Rle_trans with (bpow radix2 (-1000)); [apply bpow_le; lia|lra]. }
  rewrite (Rabs_pos_eq (B2R w / B2R t)) in Er by lra.
  assert (Ep : / 2 * bpow radix2 (- 53 + 1) <= / 1000).
  { apply Rle_trans with (/ 2 * bpow radix2 (-9)); [apply Rmult_le_compat_l; [lra|apply bpow_le; lia]|]. change (bpow radix2 (-9)) with (/ 512). lra. }
  assert (Ee : Rabs (rnd (B2R w / B2R t) - B2R w / B2R t) <= / 1000 * (B2R w / B2R t)).
  { eapply Rle_trans; [exact Er|]. apply Rmult_le_compat_r; lra. }
  apply Rabs_le_inv in Ee. assert (L1 : B2R w * (32 / 31) <= rnd (B2R w / B2R t)) by nra.
  assert (U1 : rnd (B2R w / B2R t) <= B2R w * 32) by lra.
  pose proof (Bdiv_correct prec53 emax1024 _ _ mode_NE w t T0) as C. rewrite SpecFloat_fexp_eq in C. change (round_mode mode_NE) with ZnearestE in C.
  rewrite Rlt_bool_true in C.
  - destruct C as (E & Fi & _). unfold fdiv64. rewrite E. split; [rewrite Fi; exact Fw|exact L1].
  - rewrite Rabs_pos_eq by lra. eapply Rle_lt_trans; [exact U1|]. apply Rle_lt_trans with (bpow radix2 1000 * bpow radix2 5).
    + change (bpow radix2 5) with 32. lra.
    + rewrite <- bpow_plus. apply bpow_lt. reflexivity.
Qed.

Lemma is_f64_share : is_f64 (31 / 32).
Proof.
  exists (f64_lit (31 # 32)). destruct (finite_value (f64_lit (31 # 32)) false 8725724278030336 (-53)) as (A & B); [vm_compute; reflexivity|].
  split; [exact A|]. rewrite B. unfold F2R. cbn [Fnum Fexp cond_Zopp bpow]. rewrite <- (Rmult_1_r (31 / 32)).
  replace (IZR (Z.pow_pos radix2 53)) with 9007199254740992 by reflexivity. lra.
Qed.

Lemma share_none (x w t : f64) : nonneg64 x -> is_finite w = true -> is_finite t = true -> B2R x <= B2R w ->
  bpow radix2 (-1000) <= B2R w <= bpow radix2 1000 -> / 16 <= B2R t <= 15 / 16 ->
  fto_usize64 (Bnearbyint mode_DN (fdiv64 x (fdiv64 w t)) : f64) = Some 0%N.
Proof.
  intros (Fx & Hx) Fw Ft Hle Hw Ht. destruct (div_low w t Fw Ft Hw Ht) as (Fd & Hd).
  assert (W0 : 0 < B2R w) by (eapply Rlt_le_trans; [apply bpow_gt_0|apply Hw]). set (d := fdiv64 w t) in * . assert (D0 : 0 < B2R d) by lra.
  assert (B : between (fdiv64 x d) 0 (31 / 32)).
  { apply div_between; [exact Fx|lra|apply is_f64_0|apply is_f64_share|]. split.
    - apply Rmult_le_pos; [exact Hx|]. apply Rlt_le, Rinv_0_lt_compat, D0.
    - apply Rmult_le_reg_r with (B2R d); [exact D0|]. unfold Rdiv at 1. rewrite Rmult_assoc, Rinv_l by lra. lra. }
  destruct B as (Fq & Hq). destruct (floor64 _ Fq) as (Ff & Vf).
  assert (Z0 : Zfloor (B2R (fdiv64 x d)) = 0%Z) by (apply Zfloor_imp; change (IZR (0 + 1)) with 1; lra).
  rewrite Z0 in Vf. rewrite to_usize64.
  - rewrite Vf, Ztrunc_IZR. reflexivity.
  - split; [exact Ff|]. rewrite Vf. split; [lra|]. apply bpow_ge_0.
Qed.

(** ** The tenth of the requested number *)
Definition tenth_check (n : N) : bool :=
  let t := fmul64 (f64_lit (1 # 10)) (f64_of_Z (Z.of_N n)) in
  is_finite t && Bleb (f64_lit (1 # 16)) t && Bleb t (f64_lit (15 # 16)) && match fto_usize64 t with Some 0%N => true | _ => false end.
Lemma tenths : forallb tenth_check [1; 2; 3; 4; 5; 6; 7; 8; 9]%N = true.
Proof. vm_compute. reflexivity. Qed.
Lemma lit_low : is_finite (f64_lit (1 # 16)) = true /\ B2R (f64_lit (1 # 16)) = / 16.
Proof.
  destruct (finite_value (f64_lit (1 # 16)) false 4503599627370496 (-56)) as (A & B); [vm_compute; reflexivity|]. split; [exact A|]. rewrite B. unfold F2R. cbn [Fnum Fexp cond_Zopp bpow].
  replace (IZR (Z.pow_pos radix2 56)) with 72057594037927936 by reflexivity. lra.
Qed.
Lemma lit_high : is_finite (f64_lit (15 # 16)) = true /\ B2R (f64_lit (15 # 16)) = 15 / 16.
Proof.
  destruct (finite_value (f64_lit (15 # 16)) false 8444249301319680 (-53)) as (A & B); [vm_compute; reflexivity|]. split; [exact A|]. rewrite B. unfold F2R. cbn [Fnum Fexp cond_Zopp bpow].
  replace (IZR (Z.pow_pos radix2 53)) with 9007199254740992 by reflexivity. lra.
Qed.
Lemma tenth64 n : (0 < n < 10)%N -> let t := fmul64 (f64_lit (1 # 10)) (f64_of_Z (Z.of_N n)) in
  is_finite t = true /\ / 16 <= B2R t <= 15 / 16 /\ fto_usize64 t = Some 0%N.
Proof.
  intros Hn. assert (C : tenth_check n = true).
  { pose proof tenths as T. rewrite forallb_forall in T. apply T. cbn [In]. lia. }
  unfold tenth_check in C. cbv zeta. revert C. generalize (fmul64 (f64_lit (1 # 10)) (f64_of_Z (Z.of_N n))). intros t C. apply andb_prop in C. destruct C as (C & C4).
  apply andb_prop in C. destruct C as (C & C3). apply andb_prop in C. destruct C as (C1 & C2). destruct lit_low as (F1 & V1). destruct lit_high as (F2 & V2).
  apply leb64 in C2; [|assumption|assumption]. apply leb64 in C3; [|assumption|assumption]. rewrite V1 in C2. rewrite V2 in C3.
  split; [exact C1|]. split; [split; assumption|]. destruct (fto_usize64 t) as [[|p]|]; try discriminate C4. reflexivity.
Qed.

(** ** The source *)
Section Any.
Context {K : FloatOps}.
Lemma rate_of (md : mcdata K) rates i mat mp : source_rates md = Ok rates -> nth_error (td_mats (mc_track md)) i = Some mat ->
  map_index (mc_material_params md) (mat_name mat) = Ok mp -> nth_error rates i = Some (mp_source_rate mp).
Proof.
  unfold source_rates. generalize (td_mats (mc_track md)). intros l. revert rates i. induction l as [|m l IH]; intros rates i H E1 E2; [destruct i; discriminate E1|].
  cbn [rmap] in H. destruct (map_index (mc_material_params md) (mat_name m)) as [mp'| |] eqn:Em; cbn [rbind] in H; [|discriminate H|discriminate H].
  match type of H with rbind ?x _ = _ => destruct x as [rs| |] eqn:Er end; cbn [rbind] in H; [|discriminate H|discriminate H]. apply Ok_inj in H. subst rates.
  destruct i as [|i]; cbn [nth_error] in E1 |- * .
  - injection E1; intros; subst. rewrite Em in E2. apply Ok_inj in E2. congruence.
  - exact (IH rs i eq_refl E1 E2).
Qed.
Lemma weight_sum (md : mcdata K) dom xs rates : source_rates md = Ok rates -> Forall2 (emits md) (d_cells dom) xs -> unit_weight md dom = Ok (fsum xs).
Proof.
  intros Er Hx. unfold unit_weight. rewrite Er. cbn [rbind].
  assert (G : rmap (fun cs => do rate <- vec_get rates (cs_material cs) ; Ok (fmul (fmul (cs_volume cs) rate) (td_dt (mc_track md)))) (d_cells dom) = Ok xs).
  { induction Hx as [|cs x cells xs (mat & mp & M1 & M2 & Mx) _ IH]; [reflexivity|]. cbn [rmap]. unfold vec_get at 1. rewrite (rate_of md rates _ _ _ Er M1 M2). cbn [unwrap rbind].
    rewrite IH. cbn [rbind]. rewrite Mx. reflexivity. }
  rewrite G. reflexivity.
Qed.
Lemma nobody_from (md : mcdata K) dom xs n : materials_known md -> Forall2 (emits md) (d_cells dom) xs ->
  fto_usize (fmul (src_fraction (K := K)) (fof_N (sp_n_particles (mc_params md)))) = Some n ->
  Forall (fun x => fto_usize (ffloor (fdiv x (fdiv (fadd f0 (fsum xs)) (fmul (src_fraction (K := K)) (fof_N (sp_n_particles (mc_params md))))))) = Some 0%N) xs ->
  sources_nobody md dom.
Proof.
  intros Hk Hx Hn Ht. destruct (rates_defined md Hk) as (rates & Er). exists rates, (fsum xs), n. split; [exact Er|]. split; [exact (weight_sum md dom xs rates Er Hx)|].
  split; [exact Hn|]. revert Ht. generalize (fdiv (fadd f0 (fsum xs)) (fmul (src_fraction (K := K)) (fof_N (sp_n_particles (mc_params md))))). intros w Ht.
  induction Hx as [|cs x cells xs (mat & mp & M1 & M2 & Mx) _ IH]; [constructor|]. constructor; [|exact (IH (Forall_inv_tail Ht))].
  pose proof (Forall_inv Ht) as Hx. cbv beta in Hx. rewrite Mx in Hx. unfold cell_n_particles, vec_get. rewrite (rate_of md rates _ _ _ Er M1 M2). cbn [unwrap rbind]. cbv zeta.
  rewrite Hx. reflexivity.
Qed.
End Any.

Lemma zero_plus (w : f64) : 0 < B2R w -> fadd64 (B754_zero false) w = w.
Proof. destruct w as [s|s| |s m e H]; cbn [B2R]; try (intros X; exfalso; lra). intros _. reflexivity. Qed.

Lemma few_run64 lm fuel cf (md : mcdata (f64ops lm)) dom (xs : list f64) : (ei_policy (mc_exec md) = Sequential \/ ei_policy (mc_exec md) = Rayon) ->
  sp_standard (mc_params md) = true \/ sp_n_groups (mc_params md) <> 0%N -> materials_known md -> Forall2 (emits md) (d_cells dom) xs ->
  Forall (fun x => is_finite x = true /\ 0 <= B2R x) xs ->
  is_finite (fsum (K := f64ops lm) xs : f64) = true -> bpow radix2 (-1000) <= B2R (fsum (K := f64ops lm) xs : f64) <= bpow radix2 1000 ->
  (0 < sp_n_particles (mc_params md) < 10)%N ->
  exists s, empty_after md dom (N.to_nat (sp_n_steps (mc_params md))) s /\ forall r, core_loop fuel cf md (initial_sim md dom) r <-> r = Ok s.
Proof.
  intros Hp Hg Hk Hx H0 Fs Hs Hn. apply empty_run; [exact Hp|exact Hg|]. destruct (tenth64 _ Hn) as (Ft & Ht & Et).
  apply (nobody_from md dom xs 0%N Hk Hx); [exact Et|].
  destruct (sum_above xs (B754_zero false)) as (_ & A); [split; [reflexivity|apply Rle_refl]|exact H0|exact Fs|].
  change (fold_left fadd64 xs (B754_zero false)) with (fsum (K := f64ops lm) xs) in A.
  assert (W0 : 0 < B2R (fsum (K := f64ops lm) xs : f64)) by (eapply Rlt_le_trans; [apply bpow_gt_0|apply Hs]).
  apply Forall_forall. intros x Hin. rewrite Forall_forall in A, H0.
  change (fto_usize64 (Bnearbyint mode_DN (fdiv64 x (fdiv64 (fadd64 (B754_zero false) (fsum (K := f64ops lm) xs)) (fmul64 (f64_lit (1 # 10)) (f64_of_Z (Z.of_N (sp_n_particles (mc_params md)))))))) = Some 0%N).
  rewrite (zero_plus _ W0). apply share_none; auto.
Qed.
