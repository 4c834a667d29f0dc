(** Particles of negative energy, in binary64: they have no speed and no end of cycle. *)
From Coq Require Import NArith ZArith QArith Qreals Reals Lia Lra List Bool.
From Flocq Require Import Core IEEE754.BinarySingleNaN.
From Verif Require Import Float RngModel RngLemmas RngIeee Ieee ParticleModel NuclearModel MeshTypes Balance TrackModel CycleModel
  TrackSpec TrackAccount IeeeEnergy RangeFacts SegmentFacts SafeIeee LightSpec.
Import ListNotations.
Local Open Scope R_scope.

(** ** Speed *)
Lemma power_f64_neg (k : Z) : (-1000 <= k < 1024)%Z -> is_f64 (- bpow radix2 k).
Proof.
  intros H. destruct (power_f64 k H) as (z & Fz & Vz). exists (Bopp z). split; [rewrite is_finite_Bopp; exact Fz|]. rewrite B2R_Bopp. congruence.
Qed.
Lemma pow_val (k : Z) (z : Z) : (0 <= k)%Z -> (2 ^ k = z)%Z -> bpow radix2 k = IZR z.
Proof. intros H <-. rewrite <- IZR_Zpower by exact H. reflexivity. Qed.

Lemma mass_energy64 : is_finite (f64_lit (939565 # 1000)) = true /\ 512 <= B2R (f64_lit (939565 # 1000)) <= 1024.
Proof.
  assert (E : B2SF (f64_lit (939565 # 1000)) = SpecFloat.S754_finite false 8264501140410860 (-43)) by (vm_compute; reflexivity).
  destruct (finite_value _ _ _ _ E) as (A & B). split; [exact A|]. rewrite B. unfold F2R. cbn [Fnum Fexp cond_Zopp bpow].
  change (Z.pow_pos radix2 43) with 8796093022208%Z. lra.
Qed.

Lemma below_zero_square e : below_zero e ->
  negative (fdiv64 (fmul64 e (fadd64 e (fmul64 (f64_lit (2 # 1)) (f64_lit (939565 # 1000)))))
    (fmul64 (fadd64 e (f64_lit (939565 # 1000))) (fadd64 e (f64_lit (939565 # 1000))))) = true
  /\ is_finite (fdiv64 (fmul64 e (fadd64 e (fmul64 (f64_lit (2 # 1)) (f64_lit (939565 # 1000)))))
    (fmul64 (fadd64 e (f64_lit (939565 # 1000))) (fadd64 e (f64_lit (939565 # 1000))))) = true.
Proof.
  intros (Fe & He). destruct mass_energy64 as (Fm & Hm). destruct two64_lit as (F2 & V2).
  generalize dependent (f64_lit (939565 # 1000)). intros m Fm Hm. generalize dependent (f64_lit (2 # 1)). intros two F2 V2.
  set (t := bpow radix2 (-900)) in He. assert (Ht : 0 < t) by apply bpow_gt_0.
  assert (P3 : bpow radix2 3 = 8) by (apply pow_val; [lia|reflexivity]).
  assert (P8 : bpow radix2 8 = 256) by (apply pow_val; [lia|reflexivity]).
  assert (P9 : bpow radix2 9 = 512) by (apply pow_val; [lia|reflexivity]).
  assert (P10 : bpow radix2 10 = 1024) by (apply pow_val; [lia|reflexivity]).
  assert (P11 : bpow radix2 11 = 2048) by (apply pow_val; [lia|reflexivity]).
  assert (P16 : bpow radix2 16 = 65536) by (apply pow_val; [lia|reflexivity]).
  assert (P19 : bpow radix2 19 = 524288) by (apply pow_val; [lia|reflexivity]).
  assert (P20 : bpow radix2 20 = 1048576) by (apply pow_val; [lia|reflexivity]).
  assert (A : between (fmul64 two m) (bpow radix2 10) (bpow radix2 11)).
  { apply mul_between; try assumption; try (apply power_f64; lia). rewrite V2, P10, P11. lra. }
  destruct A as (FA & VA). rewrite P10, P11 in VA. set (a := fmul64 two m) in * .
  assert (t1 : t <= 256).
  { rewrite <- P8. unfold t. apply bpow_le. lia. }
  assert (B : between (fadd64 e a) (bpow radix2 9) (bpow radix2 11)).
  { apply add_between; try assumption; try (apply power_f64; lia). rewrite P9, P11. lra. }
  destruct B as (FB & VB). rewrite P9, P11 in VB. set (b := fadd64 e a) in * .
  assert (T : bpow radix2 (-891) = 512 * t) by (unfold t; rewrite <- P9, <- bpow_plus; reflexivity).
  assert (C : between (fmul64 e b) (- bpow radix2 19) (- bpow radix2 (-891))).
  { apply mul_between; try assumption; try (apply power_f64_neg; lia). rewrite T, P19. split; nra. }
  destruct C as (FC & VC). rewrite P19, T in VC. set (c := fmul64 e b) in * .
  assert (D : between (fadd64 e m) (bpow radix2 8) (bpow radix2 10)).
  { apply add_between; try assumption; try (apply power_f64; lia). rewrite P8, P10. lra. }
  destruct D as (FD & VD). rewrite P8, P10 in VD. set (d := fadd64 e m) in * .
  assert (G : between (fmul64 d d) (bpow radix2 16) (bpow radix2 20)).
  { apply mul_between; try assumption; try (apply power_f64; lia). rewrite P16, P20. nra. }
  destruct G as (FG & VG). rewrite P16, P20 in VG. set (g := fmul64 d d) in * .
  assert (T2 : bpow radix2 (-911) = 512 * t / 1048576).
  { rewrite <- T, <- P20. unfold Rdiv. rewrite <- bpow_opp, <- bpow_plus. reflexivity. }
  assert (H : between (fdiv64 c g) (- bpow radix2 3) (- bpow radix2 (-911))).
  { apply div_between; try assumption; try (apply power_f64_neg; lia); [lra|]. rewrite T2, P3. split.
    - apply Rmult_le_reg_r with (B2R g); [lra|]. unfold Rdiv. rewrite Rmult_assoc, Rinv_l by lra. nra.
    - apply Rmult_le_reg_r with (B2R g); [lra|]. unfold Rdiv at 1. rewrite Rmult_assoc, Rinv_l by lra. nra. }
  destruct H as (FH & VH). split; [|exact FH].
  destruct (negative (fdiv64 c g)) eqn:N; [reflexivity|]. apply (finite_sign _ FH) in N. rewrite T2 in VH. lra.
Qed.

Lemma sqrt_negative (x : f64) : negative x = true -> Bsqrt mode_NE x = (B754_nan : f64).
Proof. destruct x as [s|[]| |[] m e H]; cbn; intros E; try discriminate; reflexivity. Qed.
Lemma mul_nan_r (x : f64) : fmul64 x B754_nan = B754_nan.
Proof. destruct x; reflexivity. Qed.
Lemma mul_nan_l (x : f64) : fmul64 B754_nan x = B754_nan.
Proof. destruct x; reflexivity. Qed.

Lemma two_updates {K : FloatOps} (a b d : F K) o :
  (d, o) = handler_update (handler_update handler_default OutCollision a) OutFacetCrossing b -> o <> OutCensus.
Proof.
  unfold handler_update, handler_default. cbn [fst].
  repeat match goal with |- context [if ?c then _ else _] => destruct c end; intros E; injection E; intros; subst; discriminate.
Qed.
Lemma forced_update {K : FloatOps} (d : F K) o : (d, o) = (ftiny, OutCollision) -> o <> OutCensus.
Proof. intros E. injection E; intros; subst; discriminate. Qed.

Section Lib.
Variable lm : libm.
Notation K := (f64ops lm).

Theorem no_speed (p : particle K) : below_zero (p_kinetic_energy p) -> get_speed p = (B754_nan : F K).
Proof.
  intros H. destruct (below_zero_square _ H) as (N & _).
  unfold get_speed. cbv zeta. unfold light_speed, neutron_mass_energy, ftwo. cbn [fmul fadd fdiv fsqrt flit f64ops F].
  rewrite (sqrt_negative _ N). apply mul_nan_r.
Qed.

(** ** Outcome of a segment *)
Lemma update_nan (h : handler (K := K)) o : handler_update h o (B754_nan : F K) = h.
Proof. unfold handler_update. reflexivity. Qed.

Lemma no_census (dom : domain K) (p : particle K) force xs o q :
  outcome_after dom p (B754_nan : F K) force xs = Ok (o, q) -> o <> OutCensus.
Proof.
  intros H. destruct (outcome_parts _ _ _ _ _ _ _ H) as (i & df & p1 & d & _ & E & _ & _).
  destruct force; [exact (forced_update (K := K) _ _ E)|].
  unfold nearest_event in E.
  assert (En : fmul (B754_nan : F K) (p_time_to_census (prepared_for p xs)) = (B754_nan : F K)) by apply mul_nan_l.
  rewrite En, update_nan in E. exact (two_updates _ _ _ _ E).
Qed.

(** ** Segments and tracks *)
Theorem segment_without_clock (td : track_data K) dom (p : particle K) e keep p' nx :
  below_zero (p_kinetic_energy p) -> seg_step td dom p e keep p' nx ->
  e <> SegCensus /\ (keep = false -> e = SegFacet BoundaryEscape \/ exists t, e = SegCollision t 0).
Proof.
  intros Hb H. inversion H; subst.
  - split; [discriminate|]. intros Ek. right. apply N.leb_gt in Ek. exists (r_type r). f_equal. lia.
  - split; [discriminate|]. intros Ek. left. destruct (fa_event fa); try discriminate. reflexivity.
  - exfalso. rewrite (no_speed p Hb) in H0. exact (no_census _ _ _ _ _ _ H0 eq_refl).
Qed.

Lemma segment_energy (td : track_data K) dom (p : particle K) e keep p' nx :
  seg_step td dom p e keep p' nx -> (forall t n, e <> SegCollision t n) -> p_kinetic_energy p' = p_kinetic_energy p.
Proof.
  intros H Hn. assert (En : p_kinetic_energy (entering p) = p_kinetic_energy p) by (unfold entering; destruct (out_of_paths p); reflexivity).
  inversion H; subst.
  - exfalso. eapply Hn. reflexivity.
  - rewrite <- En, <- (outcome_after_energy _ _ _ _ _ _ _ H0).
    match goal with X : facet_crossing_event _ _ = Ok p2 |- _ => unfold facet_crossing_event in X; rename X into HX end.
    match goal with X : match fa_event fa with _ => _ end |- _ => rename X into HM end.
    destruct (fa_event fa); try contradiction.
    + injection HX; intros; subst. reflexivity.
    + injection HX; intros; subst. destruct HM as (pls & pl & _ & _ & ->). unfold reflect_particle. destruct (flt f0 _); reflexivity.
    + rb HX as d Ed. rb HX as c Ec. rb HX as f Ef. injection HX; intros; subst. reflexivity.
  - rewrite <- En, <- (outcome_after_energy _ _ _ _ _ _ _ H0). reflexivity.
Qed.

(** A track that ends without a collision ends at an open boundary. *)
Theorem track_without_clock (td : track_data K) dom (p : particle K) evs p' nx :
  track_path td dom p evs p' nx -> below_zero (p_kinetic_energy p) ->
  collided evs \/ last evs SegCensus = SegFacet BoundaryEscape.
Proof.
  intros H. induction H as [p e p' nx H|p e p1 nx1 evs p' nx2 H Hp IH]; intros Hb.
  - destruct (segment_without_clock _ _ _ _ _ _ _ Hb H) as (_ & G). destruct (G eq_refl) as [E|[t E]]; rewrite E.
    + right. reflexivity.
    + left. exists t, 0%N. left. reflexivity.
  - destruct e as [t n|a|].
    + left. exists t, n. left. reflexivity.
    + assert (Ee : p_kinetic_energy p1 = p_kinetic_energy p) by (apply (segment_energy _ _ _ _ _ _ _ H); intros; discriminate).
      rewrite Ee in IH. destruct (IH Hb) as [(t & n & C)|C].
      * left. exists t, n. right. exact C.
      * right. destruct evs as [|e2 evs]; [inversion Hp|]. exact C.
    + exfalso. exact (proj1 (segment_without_clock _ _ _ _ _ _ _ Hb H) eq_refl).
Qed.

End Lib.

(** ** Scattering on a material lighter than the neutron *)
Lemma three_halves64 : is_f64 (3 / 2).
Proof.
  assert (E : B2SF (f64_lit (3 # 2)) = SpecFloat.S754_finite false 6755399441055744 (-52)) by (vm_compute; reflexivity).
  destruct (finite_value _ _ _ _ E) as (A & B). exists (f64_lit (3 # 2)). split; [exact A|]. rewrite B. unfold F2R. cbn [Fnum Fexp cond_Zopp bpow].
  change (Z.pow_pos radix2 52) with 4503599627370496%Z. lra.
Qed.

Lemma light_energy (e r m : f64) : is_finite m = true -> 1 / 8 <= B2R m <= 1 / 2 -> is_finite e = true -> bpow radix2 (-800) <= B2R e <= 20 ->
  between r (3 / 4) 1 -> below_zero (fmul64 e (fsub64 (f64_of_Z 1) (fmul64 r (fdiv64 (f64_of_Z 1) m)))).
Proof.
  intros Fm Hm Fe He (Fr & Hr). destruct one64 as (F1 & V1).
  generalize dependent (f64_of_Z 1). intros one F1 V1. set (t := bpow radix2 (-800)) in * . assert (Ht : 0 < t) by apply bpow_gt_0.
  assert (P1 : bpow radix2 1 = 2) by (apply pow_val; [lia|reflexivity]).
  assert (P3 : bpow radix2 3 = 8) by (apply pow_val; [lia|reflexivity]).
  assert (P8 : bpow radix2 8 = 256) by (apply pow_val; [lia|reflexivity]).
  assert (M1 : bpow radix2 (-1) = 1 / 2) by (cbn; lra).
  assert (A : between (fdiv64 one m) (bpow radix2 1) (bpow radix2 3)).
  { apply div_between; try assumption; try (apply power_f64; lia); [lra|]. rewrite V1, P1, P3. split.
    - apply Rmult_le_reg_r with (B2R m); [lra|]. unfold Rdiv. rewrite Rmult_assoc, Rinv_l by lra. lra.
    - apply Rmult_le_reg_r with (B2R m); [lra|]. unfold Rdiv. rewrite Rmult_assoc, Rinv_l by lra. lra. }
  destruct A as (FA & VA). rewrite P1, P3 in VA. set (a := fdiv64 one m) in * .
  assert (B : between (fmul64 r a) (3 / 2) (bpow radix2 3)).
  { apply mul_between; try assumption; [exact three_halves64|apply power_f64; lia|]. rewrite P3. nra. }
  destruct B as (FB & VB). rewrite P3 in VB. set (b := fmul64 r a) in * .
  assert (C : between (fsub64 one b) (- bpow radix2 3) (- bpow radix2 (-1))).
  { apply sub_between; try assumption; try (apply power_f64_neg; lia). rewrite V1, P3, M1. lra. }
  destruct C as (FC & VC). rewrite P3, M1 in VC. set (c := fsub64 one b) in * .
  assert (T : bpow radix2 (-801) = t / 2) by (unfold t; replace (bpow radix2 (-800)) with (bpow radix2 (-801 + 1)) by reflexivity; rewrite bpow_plus, P1; lra).
  assert (D : between (fmul64 e c) (- bpow radix2 8) (- bpow radix2 (-801))).
  { apply mul_between; try assumption; try (apply power_f64_neg; lia). rewrite P8, T. split; nra. }
  destruct D as (FD & VD). split; [exact FD|]. rewrite P8, T in VD. split; [lra|].
  assert (bpow radix2 (-900) <= t / 2) by (rewrite <- T; apply bpow_le; lia). lra.
Qed.

Theorem light_scatter lm (p : particle (f64ops lm)) (r : reaction (f64ops lm)) (m : f64) :
  r_type r = Scatter -> is_finite m = true -> 1 / 8 <= B2R m <= 1 / 2 ->
  is_finite (p_kinetic_energy p : f64) = true -> bpow radix2 (-800) <= B2R (p_kinetic_energy p : f64) <= 20 ->
  3 / 4 <= B2R (fsample64 (rng_next (p_random_number_seed p))) ->
  exists q, sample_collision p r m = Ok (1%N, q, []) /\ below_zero (p_kinetic_energy q).
Proof.
  intros Ht Fm Hm Fe He Hr. unfold sample_collision. rewrite Ht.
  destruct (draw_scatter p m) as [[e a] p1] eqn:E.
  eexists. split; [reflexivity|].
  destruct (ce_inv _ _ _ (update_trajectory_ce p1 e a)) as (_ & Hu). rewrite Hu.
  unfold draw_scatter, draw in E. cbv zeta in E. apply (f_equal fst) in E. apply (f_equal fst) in E. cbn [fst] in E. rewrite <- E.
  apply light_energy; try assumption.
  destruct (fsample64_between _ (rng_next_lt (p_random_number_seed p))) as (Fr & Vr). split; [exact Fr|]. split; [exact Hr|exact (proj2 Vr)].
Qed.
