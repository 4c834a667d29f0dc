(** The clock in binary64 arithmetic: particles are kept for the next cycle with no time left. *)
From Coq Require Import NArith ZArith QArith Reals Lia Lra List Bool.
From Flocq Require Import Core IEEE754.BinarySingleNaN.
From Verif Require Import Float RngModel RngLemmas RngIeee Ieee ParticleModel NuclearModel MeshTypes Balance TrackModel
  CycleModel TrackSpec CycleSpec TrackAccount CycleAccount CycleFacts PopSpec ScheduleSpec RangeSpec RangeFacts IeeeEnergy
  SourceLemmas RunKeeps SegmentSpec NearestLemmas SegmentFacts GridModel AssignModel MeshModel Demo DemoRun DemoSound.
Import ListNotations.
Local Open Scope R_scope.
Local Opaque rng_next spawn_rn_seed.

(** ** Signs.  [Bsign] of a NaN is [false]. *)

Lemma nan_sign (x : f64) : is_nan x = true -> Bsign x = false.
Proof. destruct x; cbn; congruence. Qed.
Lemma overflow_sign (x : f64) : B2SF x = binary_overflow prec53 emax1024 mode_NE false -> Bsign x = false.
Proof. destruct x; cbn; intros H; try discriminate; congruence. Qed.

Lemma sign_mul (x y : f64) : Bsign x = false -> Bsign y = false -> Bsign (fmul64 x y) = false.
Proof.
  intros Hx Hy. destruct (is_nan (fmul64 x y)) eqn:En; [exact (nan_sign _ En)|].
  pose proof (Bmult_correct prec53 emax1024 _ _ mode_NE x y) as C.
  match type of C with (if ?b then _ else _) => destruct b end.
  - destruct C as (_ & _ & C). unfold fmul64 in * . rewrite (C En), Hx, Hy. reflexivity.
  - rewrite Hx, Hy in C. exact (overflow_sign _ C).
Qed.
Lemma sign_div (x y : f64) : Bsign x = false -> Bsign y = false -> Bsign (fdiv64 x y) = false.
Proof.
  intros Hx Hy. destruct (is_nan (fdiv64 x y)) eqn:En; [exact (nan_sign _ En)|].
  destruct (Req_dec (B2R y) 0) as [Z|Z].
  - destruct y as [sy|sy| |sy my ey py]; cbn in Hy; try subst sy.
    + destruct x as [sx|sx| |sx mx ex px]; cbn [Bsign] in Hx; try subst sx; reflexivity.
    + destruct x as [sx|sx| |sx mx ex px]; cbn [Bsign] in Hx; try subst sx; reflexivity.
    + destruct x as [sx|sx| |sx mx ex px]; cbn [Bsign] in Hx; try subst sx; reflexivity.
    + exfalso. cbn [B2R cond_Zopp] in Z. apply eq_0_F2R in Z. discriminate.
  - pose proof (Bdiv_correct prec53 emax1024 _ _ mode_NE x y Z) as C.
    match type of C with (if ?b then _ else _) => destruct b end.
    + destruct C as (_ & _ & C). unfold fdiv64 in * . rewrite (C En), Hx, Hy. reflexivity.
    + rewrite Hx, Hy in C. exact (overflow_sign _ C).
Qed.
Lemma sign_sqrt (x : f64) : Bsign x = false -> Bsign (Bsqrt mode_NE x : f64) = false.
Proof.
  intros Hx. destruct (is_nan (Bsqrt mode_NE x : f64)) eqn:En; [exact (nan_sign _ En)|].
  destruct (Bsqrt_correct prec53 emax1024 _ _ mode_NE x) as (_ & _ & C). rewrite (C En). exact Hx.
Qed.
Lemma sign_add (x y : f64) : is_finite x = true -> is_finite y = true -> 0 <= B2R x + B2R y ->
  Bsign x = false -> Bsign (fadd64 x y) = false.
Proof.
  intros Fx Fy H Hx. pose proof (Bplus_correct prec53 emax1024 _ _ mode_NE x y Fx Fy) as C.
  match type of C with (if ?b then _ else _) => destruct b end.
  - destruct C as (_ & _ & C). unfold fadd64. rewrite C. rewrite Hx. cbn [andb].
    case Rcompare_spec; intros; try reflexivity. lra.
  - destruct C as (C & _). rewrite Hx in C. exact (overflow_sign _ C).
Qed.
Lemma sign_sub (x y : f64) : is_finite x = true -> is_finite y = true -> 0 <= B2R x - B2R y ->
  Bsign x = false -> Bsign (fsub64 x y) = false.
Proof.
  intros Fx Fy H Hx. pose proof (Bminus_correct prec53 emax1024 _ _ mode_NE x y Fx Fy) as C.
  match type of C with (if ?b then _ else _) => destruct b end.
  - destruct C as (_ & _ & C). unfold fsub64. rewrite C. rewrite Hx. cbn [andb].
    case Rcompare_spec; intros; try reflexivity. lra.
  - destruct C as (C & _). rewrite Hx in C. exact (overflow_sign _ C).
Qed.
Lemma sign_value (x : f64) : 0 < B2R x -> Bsign x = false.
Proof.
  destruct x as [s|s| |s m e p]; cbn; intros H; try lra; [].
  destruct s; [|reflexivity]. exfalso. assert (F2R (Float radix2 (Zneg m) e) < 0) by (apply F2R_lt_0; reflexivity). cbn in H. lra.
Qed.
Lemma value_sign (x : f64) : Bsign x = false -> 0 <= B2R x.
Proof.
  destruct x as [s|s| |s m e p]; cbn; intros H; try lra; []. subst s. apply F2R_ge_0. cbn. lia.
Qed.

Lemma sign_u64 n : Bsign (u64_as_f64 n) = false.
Proof.
  unfold u64_as_f64. pose proof (binary_normalize_correct prec53 emax1024 prec53_gt0 prec53_lt mode_NE (Z.of_N n) 0 false) as C.
  cbv zeta in C. assert (P : 0 <= F2R (Float radix2 (Z.of_N n) 0)) by (apply F2R_ge_0; cbn; lia).
  match type of C with (if ?b then _ else _) => destruct b end.
  - destruct C as (_ & _ & C). rewrite C. case Rcompare_spec; intros; try reflexivity. lra.
  - rewrite Rlt_bool_false in C by exact P. exact (overflow_sign _ C).
Qed.

Definition zero64 : f64 := B754_zero false.
(** Not below zero, NaN included. *)
Definition nonneg64 (x : f64) : Prop := Bltb x zero64 = false.

Lemma between_nonneg (x : f64) b : between x 0 b -> nonneg64 x.
Proof. intros (Fx & H). unfold nonneg64. rewrite Bltb_correct by (auto; reflexivity). apply Rlt_bool_false. apply H. Qed.
Lemma min_zero (x : f64) : nonneg64 x -> fmin64 zero64 x = zero64.
Proof. unfold nonneg64, fmin64. intros ->. cbn [is_nan zero64]. destruct (is_nan x); reflexivity. Qed.
Lemma max_zero (x : f64) : nonneg64 (fmax64 x zero64).
Proof. unfold fmax64, nonneg64. cbn [is_nan zero64]. destruct (is_nan x) eqn:E; [reflexivity|]. destruct (Bltb x zero64) eqn:E'; [reflexivity|exact E']. Qed.
Lemma time_used (t : f64) : Bsign t = false -> fmax64 (fsub64 zero64 t) zero64 = zero64.
Proof. destruct t as [s|s| |s m e p]; cbn [Bsign]; intros H; subst; reflexivity. Qed.
Lemma distance_sign (d : f64) : Bleb zero64 d = true -> Beqb d zero64 = false -> Bsign d = false.
Proof. destruct d as [[]|[]| |[] m e p]; cbn; intros A B; try reflexivity; try discriminate. Qed.

Section Clock.
Variable lm : libm.
Local Notation K := (f64ops lm).

(** An energy that gives a speed which is not negative. *)
Definition sane_energy (md : mcdata K) (e : F K) : Prop := below lm md e /\ Bsign (e : f64) = false.

Lemma sane_safe (md : mcdata K) : bounded_params lm md -> safe_energies md (sane_energy md).
Proof.
  intros Hb. pose proof (bounded_safe lm md Hb) as [Hs Hc Hf Hl]. destruct Hb as [Fm Fn Hn Ho H20 Fw Hw Hm _].
  set (em := sp_e_max (mc_params md) : f64) in * . set (en := sp_e_min (mc_params md) : f64) in * .
  assert (Rn : 0 <= B2R en) by (exact (leb64 (B754_zero false) en eq_refl Fn Hn)).
  assert (Ro : B2R en <= B2R em) by (exact (leb64 en em Fn Fm Ho)).
  destruct twenty64 as (F20 & V20).
  assert (R20 : 20 <= B2R em) by (rewrite <- V20; exact (leb64 _ em F20 Fm H20)).
  destruct one64 as (F1 & V1). destruct two64_lit as (F2 & V2).
  assert (S1 : Bsign (f64_of_Z 1) = false) by (apply sign_value; lra).
  assert (S2 : Bsign (f64_lit (2 # 1)) = false) by (apply sign_value; lra).
  assert (S20 : Bsign (f64_lit (20 # 1)) = false) by (apply sign_value; lra).
  assert (Sm : Bsign em = false) by (apply sign_value; lra).
  assert (Smagic : Bsign magic = false) by (apply sign_value; rewrite magic_value; apply bpow_gt_0).
  assert (Ssample : forall s, Bsign (fsample64 s) = false).
  { intros s. unfold fsample64. apply sign_mul; [exact Smagic|]. apply sign_u64. }
  constructor.
  - intros s Hs'. split; [exact (Hs s Hs')|].
    change (Bsign (fadd64 (fmul64 (fsample64 s) (fsub64 em en)) en) = false).
    pose proof (sign_sub em en Fm Fn ltac:(lra) Sm) as Sd.
    pose proof (sign_mul _ _ (Ssample s) Sd) as Sp.
    destruct (fsample64_between s Hs') as (Fs & Rs).
    assert (Hr : between (fsub64 em en) 0 (B2R em)) by (apply sub_between; auto using is_f64_0, is_f64_self; lra).
    destruct Hr as (Fr & Rr).
    assert (Hp : between (fmul64 (fsample64 s) (fsub64 em en)) 0 (B2R (fsub64 em en))).
    { apply mul_between; auto using is_f64_0, is_f64_self. split; [apply Rmult_le_pos; lra|].
      rewrite <- (Rmult_1_l (B2R (fsub64 em en))) at 2. apply Rmult_le_compat_r; lra. }
    destruct Hp as (Fp & Rp). apply sign_add; auto. lra.
  - intros e s mat (He & Se) Hs' Hin. split; [exact (Hc e s mat He Hs' Hin)|].
    rewrite Forall_forall in Hm. destruct (Hm _ Hin) as (Fma & Hma).
    set (ma := mat_mass mat : f64) in * .
    assert (Rma : 1 <= B2R ma) by (rewrite <- V1; exact (leb64 _ ma F1 Fma Hma)).
    destruct (fsample64_between s Hs') as (Fs & Rs).
    change (Bsign (fmul64 e (fsub64 (f64_of_Z 1) (fmul64 (fsample64 s) (fdiv64 (f64_of_Z 1) ma)))) = false).
    assert (Hq : between (fdiv64 (f64_of_Z 1) ma) 0 1).
    { apply div_between; auto using is_f64_0, is_f64_1; [lra|]. rewrite V1. unfold Rdiv. rewrite Rmult_1_l. split.
      - apply Rlt_le, Rinv_0_lt_compat. lra.
      - rewrite <- Rinv_1. apply Rinv_le_contravar; lra. }
    destruct Hq as (Fq & Rq).
    assert (Hp : between (fmul64 (fsample64 s) (fdiv64 (f64_of_Z 1) ma)) 0 1) by (apply mul_between; auto using is_f64_0, is_f64_1; nra).
    destruct Hp as (Fp & Rp). apply sign_mul; [exact Se|]. apply sign_sub; auto. lra.
  - intros s Hs'. split; [exact (Hf s Hs')|].
    destruct (fsample64_between s Hs') as (Fs & Rs).
    change (Bsign (fmul64 (fmul64 (f64_lit (20 # 1)) (fdiv64 (fadd64 (fsample64 s) (f64_of_Z 1)) (f64_lit (2 # 1))))
                            (fdiv64 (fadd64 (fsample64 s) (f64_of_Z 1)) (f64_lit (2 # 1)))) = false).
    assert (Sa : Bsign (fadd64 (fsample64 s) (f64_of_Z 1)) = false) by (apply sign_add; auto; lra).
    apply sign_mul; [apply sign_mul; [exact S20|]|]; apply sign_div; auto.
  - intros e el (He & _). exact (Hl e el He).
Qed.

Lemma speed_sign (md : mcdata K) (p : particle K) : sane_energy md (p_kinetic_energy p) -> Bsign (get_speed p : f64) = false.
Proof.
  intros ((Fe & Re & _) & Se). set (e := p_kinetic_energy p : f64) in * . set (M := neutron_mass_energy (K := K) : f64).
  assert (FM : is_finite M = true) by (vm_compute; reflexivity).
  assert (SM : Bsign M = false) by (vm_compute; reflexivity).
  assert (F2M : is_finite (fmul64 (f64_lit (2 # 1)) M) = true) by (vm_compute; reflexivity).
  assert (S2M : Bsign (fmul64 (f64_lit (2 # 1)) M) = false) by (vm_compute; reflexivity).
  assert (SL : Bsign (light_speed (K := K) : f64) = false) by (vm_compute; reflexivity).
  change (Bsign (fmul64 (light_speed (K := K)) (Bsqrt mode_NE (fdiv64 (fmul64 e (fadd64 e (fmul64 (f64_lit (2 # 1)) M)))
    (fmul64 (fadd64 e M) (fadd64 e M))))) = false).
  pose proof (value_sign _ Se) as V1. pose proof (value_sign _ SM) as V2. pose proof (value_sign _ S2M) as V3.
  assert (A1 : Bsign (fadd64 e M) = false) by (apply sign_add; auto; lra).
  assert (A2 : Bsign (fadd64 e (fmul64 (f64_lit (2 # 1)) M)) = false) by (apply sign_add; auto; lra).
  apply sign_mul; [exact SL|]. apply sign_sqrt, sign_div; apply sign_mul; auto.
Qed.

Lemma end_clock64 (p1 : particle K) (speed d : F K) o i : Bleb zero64 (d : f64) = true -> Bsign (speed : f64) = false ->
  nonneg64 (p_time_to_census p1 : f64) ->
  let q := segment_end p1 speed d o i in
  nonneg64 (p_time_to_census q : f64) /\ (o = OutCensus -> p_time_to_census q = zero64).
Proof.
  intros Hd Hs Ht. cbv zeta. unfold segment_end. cbv zeta.
  change (feq d f0) with (Beqb (d : f64) zero64).
  destruct (Beqb (d : f64) zero64) eqn:E.
  - destruct o; (split; [|intros Ho; try discriminate]); cbn [p_time_to_census set_last_event set_facet set_num_mean_free_paths set_segment_path_length set_normal_dot set_time_to_census]; try exact Ht.
    + change (nonneg64 (fmin64 zero64 (p_time_to_census p1))). rewrite min_zero by exact Ht. reflexivity.
    + exact (min_zero _ Ht).
  - pose proof (sign_div _ _ (distance_sign _ Hd E) Hs) as St.
    destruct o; (split; [apply max_zero|intros Ho; try discriminate]).
    change (fmax64 (fsub64 (fmin64 zero64 (p_time_to_census p1)) (fdiv64 d speed)) zero64 = zero64).
    rewrite min_zero by exact Ht. exact (time_used _ St).
Qed.

Lemma outcome_clock64 (dom : domain K) (p : particle K) (speed : F K) force xs o q :
  outcome_after dom p speed force xs = Ok (o, q) -> Bsign (speed : f64) = false -> nonneg64 (p_time_to_census p : f64) ->
  nonneg64 (p_time_to_census q : f64) /\ (o = OutCensus -> p_time_to_census q = zero64).
Proof.
  intros H Hs Ht. destruct (outcome_parts _ _ _ _ _ _ _ H) as (i & df & p1 & d & En & _ & Hd & ->).
  destruct (nearest_facet_first _ _ _ _ En) as ((x1 & Hp1) & _).
  apply end_clock64; [exact Hd|exact Hs|]. rewrite Hp1. unfold prepared_for. cbv zeta.
  match goal with |- context [if ?b then _ else _] => destruct b end; exact Ht.
Qed.

Definition in_time (md : mcdata K) (p : particle K) : Prop :=
  nonneg64 (p_time_to_census p : f64) /\ sane_energy md (p_kinetic_energy p).

Lemma entering_same (p : particle K) : p_time_to_census (entering p) = p_time_to_census p /\ p_kinetic_energy (entering p) = p_kinetic_energy p.
Proof. unfold entering. destruct (out_of_paths p); split; reflexivity. Qed.

Lemma facet_keeps64 (dom : domain K) (p1 p2 p' : particle K) fa :
  facet_crossing_event (set_num_segments p1 (fadd (p_num_segments p1) f1)) fa = Ok p2 ->
  match fa_event fa with
  | TransitOnProcessor => p' = p2
  | BoundaryReflection =>
      exists planes pl, vec_get (me_geom (d_mesh dom)) (p_cell p2) = Ok planes /\
        vec_get planes (p_facet p2) = Ok pl /\ p' = reflect_particle p2 pl
  | BoundaryEscape => p' = set_species (set_last_event p2 EvEscape) Unknown
  | _ => False
  end -> p_time_to_census p' = p_time_to_census p1 /\ p_kinetic_energy p' = p_kinetic_energy p1.
Proof.
  unfold facet_crossing_event. intros H Hm. destruct (fa_event fa); try contradiction.
  - injection H; intros; subst. repeat split.
  - injection H; intros; subst. destruct Hm as (pls & pl & _ & _ & ->). unfold reflect_particle.
    match goal with |- context [if ?b then _ else _] => destruct b end; repeat split.
  - rb H as d Ed. rb H as c Ec. rb H as f Ef. injection H; intros; subst. repeat split.
Qed.

Lemma seg_clock64 (md : mcdata K) (Hb : bounded_params lm md) dom (p : particle K) e keep p' nx :
  seg_step (mc_track md) dom p e keep p' nx -> in_time md p ->
  Forall (in_time md) (p' :: nx) /\ (e = SegCensus -> p_time_to_census p' = zero64).
Proof.
  intros H (Ht & He). pose proof (sane_safe md Hb) as Hsafe. pose proof (speed_sign md p He) as Sp.
  destruct (entering_same p) as (E1 & E2).
  inversion H as [? xs p1 cs cur p2 cfuel r mat n p3 ? g ? Ho p1' Hcs Hcur Hpick Hmat Hcol Hg Hp'|? xs p1 conn fa p2 ? Ho p1' Hconn Hfa Hev Hm|? xs p1 Ho]; subst;
    (assert (Ht' : nonneg64 (p_time_to_census (entering p) : f64)) by (rewrite E1; exact Ht));
    destruct (outcome_clock64 _ _ _ _ _ _ _ Ho Sp Ht') as (A1 & A2);
    (assert (Ae : sane_energy md (p_kinetic_energy p1)) by (rewrite (outcome_after_energy _ _ _ _ _ _ _ Ho), E2; exact He)).
  - assert (Hp2 : clock p2 = clock p1 /\ p_kinetic_energy p2 = p_kinetic_energy p1).
    { unfold get_current_xs, draw in Hcur. injection Hcur; intros; subst. split; reflexivity. }
    destruct (collision_clock _ _ _ _ _ _ Hcol) as (C1 & C2).
    assert (Hin : In mat (td_mats (mc_track md))).
    { unfold vec_get in Hmat. destruct (nth_error _ _) eqn:En; [|discriminate].
      cbn in Hmat. injection Hmat; intros; subst. eapply nth_error_In; eauto. }
    destruct (sample_collision_ok _ _ Hsafe _ _ _ _ _ _ Hin ltac:(rewrite (proj2 Hp2); exact Ae) Hcol) as (_ & D1 & D2).
    assert (G : forall q : particle K, clock q = clock p2 -> sane_energy md (p_kinetic_energy q) -> in_time md q).
    { intros q Hq Hqe. rewrite (proj1 Hp2) in Hq. split; [|exact Hqe]. unfold clock in Hq.
      assert (Eq : p_time_to_census q = p_time_to_census p1) by congruence. rewrite Eq. exact A1. }
    split; [|discriminate]. constructor.
    + destruct (1 <=? n)%N; apply G; assumption.
    + clear - C2 D2 G. induction C2 as [|q l Hq _ IH]; constructor.
      * apply G; [exact Hq|exact (proj2 (Forall_inv D2))].
      * apply IH. exact (Forall_inv_tail D2).
  - destruct (facet_keeps64 dom _ _ _ _ Hev Hm) as (C1 & C2).
    split; [|discriminate]. constructor; [|constructor]. unfold in_time. rewrite C1, C2. split; assumption.
  - split; [constructor; [|constructor]; split; assumption|intros _; exact (A2 eq_refl)].
Qed.

Lemma path_clock64 (md : mcdata K) (Hb : bounded_params lm md) dom (p : particle K) evs p' nx :
  track_path (mc_track md) dom p evs p' nx -> in_time md p ->
  Forall (in_time md) (p' :: nx) /\ (p_species p = Known -> p_species p' = Known -> p_time_to_census p' = zero64).
Proof.
  induction 1 as [p e p' nx Hs|p e p1 nx1 evs p' nx2 Hs Hp IH]; intros Ht.
  - destruct (seg_clock64 _ Hb _ _ _ _ _ _ Hs Ht) as (A & B). split; [exact A|]. intros Hk Hk'. apply B.
    inversion Hs; subst; clear Hs.
    + destruct (1 <=? n)%N; discriminate.
    + destruct (fa_event fa); try discriminate; try contradiction. subst. discriminate.
    + reflexivity.
  - destruct (seg_clock64 _ Hb _ _ _ _ _ _ Hs Ht) as (A & _).
    pose proof (Forall_inv A) as A1. pose proof (Forall_inv_tail A) as A3. destruct (IH A1) as (B & C).
    split.
    + constructor; [exact (Forall_inv B)|]. apply Forall_app. split; [exact A3|exact (Forall_inv_tail B)].
    + intros Hk. apply C. destruct (seg_step_count _ _ _ _ _ _ _ Hs Hk) as (_ & S1 & _). apply S1. reflexivity.
Qed.

(** C11: with binary64 numbers too, the particles kept for the next cycle have no time left. *)
Theorem kept_at_census64 fuel cf (md : mcdata K) d n s : bounded_params lm md ->
  is_finite (td_dt (mc_track md) : f64) = true -> fle f0 (td_dt (mc_track md)) = true ->
  run_steps fuel cf md (initial_sim md d) n (Ok s) -> (n <= sp_n_steps (mc_params md))%N ->
  Forall (fun p : particle K => p_species p = Known /\ p_last_event p = EvCensus /\ p_time_to_census p = f0) (processed (s_cont s)).
Proof.
  intros Hb Fd Hd H Hn. pose proof (leb64 zero64 _ eq_refl Fd Hd) as Rd. change (B2R zero64) with 0 in Rd.
  set (dt := td_dt (mc_track md) : f64) in * .
  assert (HQ : Forall (fun p : particle K => in_time md p /\ p_species p = Known /\ p_last_event p = EvCensus /\ p_time_to_census p = f0) (processed (s_cont s))).
  { eapply (run_keeps md (d_mesh d) (fun p : particle K => in_time md p /\ p_species p = Known)); [| | | |reflexivity|exact H|reflexivity|exact Hn].
    - intros p (A & B & _). split; assumption.
    - intros p q Hs. unfold same_but_weight in Hs. rewrite <- Hs. intros ((A & B) & C). split; [split|]; assumption.
    - intros w dom c v x p _ _ E. pose proof (source_particle_species _ _ _ _ _ _ _ E) as Hk.
      split; [|exact Hk].
      destruct (source_parts _ _ _ _ _ _ _ E) as (s0 & coord & q & _ & Ep).
      set (s2 := rng_next (rng_next (p_random_number_seed q))) in * .
      pose proof (se_source _ _ (sane_safe md Hb) _ (rng_next_lt s2)) as He.
      destruct (fsample64_between _ (rng_next_lt (rng_next (rng_next s2)))) as (Fs & Rs).
      rewrite Ep. split; [|exact He].
      apply (between_nonneg _ (B2R dt)).
      change (between (fmul64 dt (fsample64 (rng_next (rng_next (rng_next s2))))) 0 (B2R dt)).
      apply mul_between; auto using is_f64_0, is_f64_self. split; [apply Rmult_le_pos; [exact Rd|apply Rs]|].
      rewrite <- (Rmult_1_r (B2R dt)) at 2. apply Rmult_le_compat_l; [exact Rd|apply Rs].
    - intros dom p q evs p' nx _ ((A1 & A2) & Hk) E T.
      assert (Q : in_time md q /\ p_species q = Known).
      { unfold prepare_particle in E. rb E as g Eg. apply Ok_inj in E. subst q.
        match goal with |- context [if ?b then _ else _] => destruct b eqn:Ez end; (split; [split|]); try assumption.
        apply (between_nonneg _ (B2R dt)).
        change (between (fadd64 (p_time_to_census p) dt) 0 (B2R dt)).
        change (Bleb (p_time_to_census p : f64) zero64 = true) in Ez.
        assert (Zt : is_finite (p_time_to_census p : f64) = true /\ B2R (p_time_to_census p : f64) = 0).
        { clear - A1 Ez. unfold nonneg64 in A1. destruct (p_time_to_census p : f64) as [[]|[]| |[] m e b]; cbn in *; try discriminate; auto. }
        destruct Zt as (Z1 & Z2). apply add_between; auto using is_f64_0, is_f64_self. rewrite Z2. lra. }
      destruct Q as (Q1 & Q2). destruct (path_clock64 _ Hb _ _ _ _ _ T Q1) as (B & C). split.
      + intros _ Hv. assert (Hk' : p_species p' = Known) by (unfold is_valid in Hv; destruct (p_species p'); congruence).
        split; [exact (Forall_inv B)|]. split; [exact Hk'|]. split; [exact (path_census _ _ _ _ _ _ T Q2 Hk')|exact (C Q2 Hk')].
      + apply Forall_inv_tail in B. assert (V : all_valid nx) by (exact (proj1 (track_path_accounted _ _ _ _ _ _ T Q2))).
        clear - B V. induction B as [|r l R1 _ IH]; constructor; [split; [exact R1|exact (Forall_inv V)]|exact (IH (Forall_inv_tail V))]. }
  eapply Forall_impl; [|exact HQ]. intros p (_ & R). exact R.
Qed.
End Clock.

(** ** The demonstration run meets the conditions *)

Lemma problem_check_params md dom : problem_check md dom = true -> bounded_params approx_libm md.
Proof. unfold problem_check. rewrite !andb_true_iff. intros (((H & _) & _) & _). exact (params_check_ok md H). Qed.
Lemma demo_data_dt pol n steps md : demo_data pol n steps = Ok md ->
  sp_n_steps (mc_params md) = steps /\ (td_dt (mc_track md) : F K64) = flit (1 # 100000000).
Proof.
  unfold demo_data. destruct demo_nuclear as [[nd mats]| |]; cbn [rbind]; try discriminate.
  intros H. injection H as <-. split; reflexivity.
Qed.
Lemma core_loop_steps {K : FloatOps} fuel cf (md : mcdata K) s0 s : core_loop fuel cf md s0 (Ok s) ->
  exists s1, run_steps fuel cf md s0 (sp_n_steps (mc_params md)) (Ok s1).
Proof. intros H. inversion H as [r Hp Hr E0|]; subst. destruct r as [s1| |]; try discriminate. exists s1. exact Hr. Qed.
Lemma demo_census_run : exists (md : mcdata K64) d s,
  bounded_params approx_libm md /\ is_finite (td_dt (mc_track md) : f64) = true /\ fle f0 (td_dt (mc_track md)) = true /\
  run_steps 200 20 md (initial_sim md d) 2 (Ok s) /\ (2 <= sp_n_steps (mc_params md))%N.
Proof.
  destruct demo_exists as (md & d & s & Ed & Edom & H & _).
  destruct (demo_data_dt _ _ _ _ Ed) as (E2 & E3).
  pose proof (proj1 demo_checked) as Hc. unfold demo_check in Hc. rewrite Ed, Edom in Hc. clear Ed Edom.
  apply problem_check_params in Hc. destruct (core_loop_steps _ _ _ _ _ H) as (s1 & Hr). clear H.
  rewrite E2 in Hr. exists md, d, s1. split; [exact Hc|]. rewrite E3, E2.
  split; [vm_compute; reflexivity|]. split; [vm_compute; reflexivity|]. split; [exact Hr|apply N.le_refl].
Qed.
