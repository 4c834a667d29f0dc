(** Splitting, roulette and the split factor. *)
From Coq Require Import NArith ZArith QArith Qreals List Bool Lia Permutation PeanoNat Reals Lra.
From Flocq Require Import Core.
From Coquelicot Require Import Hierarchy RInt.
From Verif Require Import Float RealOps RngModel RngSpec RngLemmas RngFacts ParticleModel NuclearModel MeshTypes Balance TrackModel CycleModel
  ProgLemmas TrackSpec CycleSpec TrackAccount CycleAccount PopSpec.
Import ListNotations.
Local Open Scope N_scope.

Local Opaque rng_next spawn_rn_seed hash_state.

Section Any.
Context {K : FloatOps}.
Implicit Types (p q : particle K) (c : container K).

Lemma same_reweighted p w : same_but_weight p (reweighted p w).
Proof. destruct p. reflexivity. Qed.

Lemma same_ignores p x w seed : same_but_weight (set_weight (set_random_number_seed p seed) w) x -> same_but_weight p x.
Proof.
  unfold same_but_weight. destruct p as [a0 a1 a2 a3 a4 a5 a6 a7 a8 a9 a10 a11 a12 a13 a14 a15 a16 a17 a18 a19], x as [b0 b1 b2 b3 b4 b5 b6 b7 b8 b9 b10 b11 b12 b13 b14 b15 b16 b17 b18 b19].
  cbn [set_random_number_seed set_identifier set_weight p_weight p_identifier p_random_number_seed]. intros H.
  injection H; intros; subst. reflexivity.
Qed.
Lemma same_ignores_seed p x seed : same_but_weight (set_random_number_seed p seed) x -> same_but_weight p x.
Proof.
  unfold same_but_weight. destruct p as [a0 a1 a2 a3 a4 a5 a6 a7 a8 a9 a10 a11 a12 a13 a14 a15 a16 a17 a18 a19], x as [b0 b1 b2 b3 b4 b5 b6 b7 b8 b9 b10 b11 b12 b13 b14 b15 b16 b17 b18 b19].
  cbn [set_random_number_seed set_identifier set_weight p_weight p_identifier p_random_number_seed]. intros H.
  injection H; intros; subst. reflexivity.
Qed.

Lemma rr_outcome p f : let (keep, q) := over_populated_rr p f in (if (keep : bool) then [q] else []) = roulette f p.
Proof. unfold over_populated_rr, draw, roulette, next_draw. destruct (flt _ _); reflexivity. Qed.

Lemma low_weight_outcome p cutoff w :
  let (keep, q) := low_weight_rr p cutoff w in (if (keep : bool) then [q] else []) = low_weight_roulette cutoff w p.
Proof.
  unfold low_weight_rr, draw, low_weight_roulette, next_draw. destruct (fle (p_weight p) _); [|reflexivity].
  destruct (fle _ cutoff); reflexivity.
Qed.

Lemma retain_flat f (l : list (particle K)) :
  retain_mut f l = flat_map (fun p => let (keep, q) := f p in if (keep : bool) then [q] else []) l.
Proof. induction l as [|p l IH]; cbn [retain_mut flat_map]; [reflexivity|]. destruct (f p) as [[] q]; cbn [app]; congruence. Qed.

Lemma flat_map_ext' {A B} (f g : A -> list B) l : (forall x, f x = g x) -> flat_map f l = flat_map g l.
Proof. intros H. induction l as [|x l IH]; cbn [flat_map]; [reflexivity|]. rewrite H, IH. reflexivity. Qed.

Lemma flat_map_flat_map {A B C} (f : A -> list B) (g : B -> list C) l :
  flat_map g (flat_map f l) = flat_map (fun x => flat_map g (f x)) l.
Proof. induction l as [|x l IH]; cbn [flat_map]; [reflexivity|]. rewrite flat_map_app, IH. reflexivity. Qed.

Lemma regulate_outcome (c : container K) f cutoff w b :
  processing (fst (regulate_population c f cutoff w b)) =
    flat_map (low_weight_roulette cutoff w) (flat_map (roulette f) (processing c)).
Proof.
  unfold regulate_population. cbn [fst processing]. rewrite retain_flat, flat_map_flat_map. apply flat_map_ext'. intros p.
  unfold regulate_one. pose proof (rr_outcome p f) as H1. destruct (over_populated_rr p f) as [once q]. rewrite <- H1.
  pose proof (low_weight_outcome q cutoff w) as H2. destruct (low_weight_rr q cutoff w) as [twice q'].
  destruct once; cbn [flat_map andb app]; [rewrite app_nil_r; exact H2|reflexivity].
Qed.

(** ** Splitting *)

Lemma split_copies_spec n : forall p l q, split_copies n p = (l, q) ->
  Forall (fun x => same_but_weight p x /\ p_weight x = p_weight p) (q :: l) /\
  p_identifier q = p_identifier p /\ p_random_number_seed q = seed_after n (p_random_number_seed p) /\
  map p_random_number_seed l = spawned_by (repeat true n) (p_random_number_seed p) /\
  map p_identifier l = map p_random_number_seed l /\ length l = n.
Proof.
  assert (Sa : forall n s, seed_after n (rng_next s) = seed_after (S n) s).
  { clear. induction n as [|n IH]; intros s; [reflexivity|]. cbn [seed_after] in * . rewrite IH. reflexivity. }
  induction n as [|n IH]; intros p l q H; cbn [split_copies] in H.
  - injection H; intros; subst. split; [constructor; [|constructor]; split; [destruct q|]; reflexivity|]. repeat split; reflexivity.
  - assert (Es : spawn p = (fst (spawn_rn_seed (p_random_number_seed p)), set_random_number_seed p (snd (spawn_rn_seed (p_random_number_seed p))))).
    { unfold spawn. destruct (spawn_rn_seed _). reflexivity. }
    rewrite Es in H. destruct (split_copies n _) as [l' q'] eqn:E. injection H; intros; subst l q'. clear H.
    destruct (IH _ _ _ E) as (I1 & I2 & I3 & I4 & I5 & I6).
    assert (En : snd (spawn_rn_seed (p_random_number_seed p)) = rng_next (p_random_number_seed p)) by reflexivity.
    assert (T : forall x, same_but_weight (set_random_number_seed p (snd (spawn_rn_seed (p_random_number_seed p)))) x /\
        p_weight x = p_weight (set_random_number_seed p (snd (spawn_rn_seed (p_random_number_seed p)))) ->
      same_but_weight p x /\ p_weight x = p_weight p).
    { intros x (Hx & Ew). split; [exact (same_ignores_seed _ _ _ Hx)|exact Ew]. }
    inversion I1 as [|? ? J1 J2]; subst.
    split; [|split; [|split; [|split; [|split]]]].
    + constructor; [apply T, J1|]. constructor; [split; [destruct p|]; reflexivity|].
      eapply Forall_impl; [|exact J2]. exact T.
    + rewrite I2. reflexivity.
    + rewrite I3. cbn [p_random_number_seed set_random_number_seed]. rewrite En. apply Sa.
    + cbn [map repeat spawned_by p_random_number_seed set_identifier set_random_number_seed]. f_equal. exact I4.
    + cbn [map]. f_equal. exact I5.
    + reflexivity.
Qed.

Lemma split_outcome p f q l : under_populated_split p f = Ok (q, l) -> is_split f p q l.
Proof.
  unfold under_populated_split, draw. intros H. rb H as n En.
  destruct (split_copies (N.to_nat n) _) as [l' q'] eqn:E. injection H; intros; subst l' q'. clear H.
  destruct (split_copies_spec _ _ _ _ E) as (I1 & I2 & I3 & I4 & I5 & I6).
  assert (Sa : forall n s, seed_after n (rng_next s) = seed_after (S n) s).
  { clear. induction n as [|n IH]; intros s; [reflexivity|]. cbn [seed_after] in * . rewrite IH. reflexivity. }
  unfold is_split. split; [|split; [exact I2|split; [|split; [|split; [exact I5|]]]]].
  - eapply Forall_impl; [|exact I1]. intros x (Hx & Ew). split; [exact (same_ignores _ _ _ _ Hx)|exact Ew].
  - rewrite I3, I6. cbn [p_random_number_seed set_weight set_random_number_seed]. apply Sa.
  - rewrite I6. exact I4.
  - rewrite I6, N2Nat.id. unfold next_draw. destruct (fto_usize _); [|discriminate]. cbn [unwrap] in En. injection En; intros; subst. reflexivity.
Qed.

Lemma split_all_outcome f : forall l ps copies, split_all f l = Ok (ps, copies) ->
  exists ll, copies = concat ll /\ Forall2 (fun p ql => is_split f p (fst ql) (snd ql)) l (combine ps ll) /\
    length ps = length l /\ length ll = length l.
Proof.
  induction l as [|p l IH]; intros ps copies H; cbn [split_all] in H.
  - injection H; intros; subst. exists []. repeat split. constructor.
  - rb H as [q c1] E. rb H as [ps' rest] E'. injection H; intros; subst. destruct (IH _ _ E') as (ll & -> & F & L1 & L2).
    exists (c1 :: ll). split; [reflexivity|]. split; [|split; cbn [length]; congruence].
    cbn [combine]. constructor; [apply split_outcome, E|exact F].
Qed.

Lemma split_population_outcome (c : container K) f cutoff w b c' b' : split_population c f cutoff w b = Ok (c', b') ->
  exists ps ll, Forall2 (fun p ql => is_split f p (fst ql) (snd ql)) (processing c) (combine ps ll) /\
    length ps = length (processing c) /\ length ll = length (processing c) /\
    processing c' = flat_map (low_weight_roulette cutoff w) (ps ++ extra_particles c ++ concat ll) /\
    processed c' = processed c /\ extra_particles c' = [] /\
    b' = bset (bset b ESplit (N.of_nat (length (extra_particles c ++ concat ll)))) EWeightRr
           (N.of_nat (length (ps ++ extra_particles c ++ concat ll) - length (processing c'))).
Proof.
  unfold split_population. intros H. rb H as [ps copies] E. injection H; intros; subst. clear H.
  destruct (split_all_outcome _ _ _ _ E) as (ll & -> & F & L1 & L2). exists ps, ll. cbn [clean_extra_vaults processing processed extra_particles].
  split; [exact F|]. split; [exact L1|]. split; [exact L2|]. split; [|split; [reflexivity|split; [reflexivity|]]].
  - rewrite retain_flat. apply flat_map_ext'. intros p. pose proof (low_weight_outcome p cutoff w) as L.
    destruct (low_weight_rr p cutoff w) as [keep q]. exact L.
  - f_equal. f_equal. f_equal. rewrite <- L1, app_length. lia.
Qed.

Lemma split_seeds_distinct p f q l : is_split f p q l -> N.of_nat (length l) <= 2 ^ 64 ->
  NoDup (map p_random_number_seed l) /\ NoDup (map p_identifier l).
Proof.
  intros (_ & _ & _ & E & Ei & _) H. rewrite Ei, E. assert (G : NoDup (spawned_by (repeat true (length l)) (rng_next (p_random_number_seed p)))).
  { apply spawned_seeds_distinct; [apply rng_next_lt|rewrite repeat_length; exact H]. }
  split; exact G.
Qed.

End Any.

(** ** Real arithmetic *)

Local Open Scope R_scope.

Lemma Rto_usize_Z z : (0 <= z < 2 ^ 64)%Z -> Rto_usize (IZR z) = Some (Z.to_N z).
Proof.
  intros H. unfold Rto_usize. replace (Rltb (-1) (IZR z)) with true; [|symmetry; apply Rltb_iff, IZR_lt; lia].
  replace (Rltb (IZR z) (IZR (2 ^ 64))) with true; [|symmetry; apply Rltb_iff, IZR_lt; lia]. cbn [andb]. rewrite Ztrunc_IZR. reflexivity.
Qed.

Lemma Zfloor_bounds x : IZR (Zfloor x) <= x < IZR (Zfloor x) + 1.
Proof. split; [apply Zfloor_lb|apply Zfloor_ub]. Qed.

(** Number of particles a split leaves. *)
Lemma split_number (p q : particle Rops) f l : 1 <= f < IZR (2 ^ 64) -> is_split (K := Rops) f p q l ->
  Z.of_nat (length (q :: l)) = (if Rlt_dec (f - IZR (Zfloor f)) (next_draw p) then Zfloor f else Zfloor f + 1)%Z.
Proof.
  intros Hf (_ & _ & _ & _ & _ & E). cbn [length]. rewrite Nat2Z.inj_succ.
  assert (F1 : (1 <= Zfloor f)%Z) by (apply Zfloor_lub; apply Hf).
  assert (F2 : (Zfloor f < 2 ^ 64)%Z) by (apply lt_IZR; apply Rle_lt_trans with (1 := Zfloor_lb f); apply Hf).
  cbn [fto_usize flt fsub ffloor f1 Rops] in E. unfold Rltb in E. destruct (Rlt_dec _ _) as [H|H].
  - rewrite <- minus_IZR, Rto_usize_Z in E by lia. injection E; intros E'. lia.
  - rewrite Rto_usize_Z in E by lia. injection E; intros E'. lia.
Qed.

Lemma split_exists (p : particle Rops) f : 1 <= f < IZR (2 ^ 64) -> exists q l, under_populated_split p f = Ok (q, l).
Proof.
  intros Hf. unfold under_populated_split, draw.
  assert (F1 : (1 <= Zfloor f)%Z) by (apply Zfloor_lub; apply Hf).
  assert (F2 : (Zfloor f < 2 ^ 64)%Z) by (apply lt_IZR; apply Rle_lt_trans with (1 := Zfloor_lb f); apply Hf).
  cbn [fto_usize flt fsub ffloor f1 Rops]. destruct (Rltb _ _).
  - rewrite <- minus_IZR, Rto_usize_Z by lia. cbn [unwrap rbind]. destruct (split_copies _ _) as [l q]. exists q, l. reflexivity.
  - rewrite Rto_usize_Z by lia. cbn [unwrap rbind]. destruct (split_copies _ _) as [l q]. exists q, l. reflexivity.
Qed.

(** *** Expectation *)

(** A step function. *)
Lemma RInt_step a b t : 0 <= t <= 1 -> is_RInt (fun r => if Rlt_dec t r then b else a) 0 1 (t * a + (1 - t) * b).
Proof.
  intros Ht. apply (is_RInt_Chasles (V := R_NormedModule) _ 0 t 1).
  - replace (t * a) with (scal (t - 0) a) by (unfold scal; cbn; unfold mult; cbn; ring).
    apply is_RInt_ext with (f := fun _ => a); [|apply (is_RInt_const (V := R_NormedModule))].
    intros r Hr. rewrite Rmin_left, Rmax_right in Hr by lra. destruct (Rlt_dec t r); [lra|reflexivity].
  - replace ((1 - t) * b) with (scal (1 - t) b) by (unfold scal; cbn; unfold mult; cbn; ring).
    apply is_RInt_ext with (f := fun _ => b); [|apply (is_RInt_const (V := R_NormedModule))].
    intros r Hr. rewrite Rmin_left, Rmax_right in Hr by lra. destruct (Rlt_dec t r); [reflexivity|lra].
Qed.

Lemma roulette_unbiased w f (pp : forall r, particle (Rops_at r)) : (forall r, p_weight (pp r) = w) -> 0 < f <= 1 ->
  is_RInt (fun r => weight_left (over_populated_rr (pp r) f)) 0 1 w.
Proof.
  intros Hw Hf. replace w with (f * (w / f) + (1 - f) * 0) at 1 by (field; lra).
  apply is_RInt_ext with (f := fun r => if Rlt_dec f r then 0 else w / f); [|apply RInt_step; lra].
  intros r _. unfold over_populated_rr, draw, weight_left. cbn [flt Rops_at Rops fsample]. unfold Rltb.
  destruct (Rlt_dec f r); cbn [fst snd]; [reflexivity|]. rewrite <- (Hw r). reflexivity.
Qed.

Lemma low_weight_unbiased w cutoff sw (pp : forall r, particle (Rops_at r)) : (forall r, p_weight (pp r) = w) -> 0 < cutoff <= 1 ->
  is_RInt (fun r => weight_left (low_weight_rr (pp r) cutoff sw)) 0 1 w.
Proof.
  intros Hw Hf. destruct (Rle_dec w (cutoff * sw)) as [L|L].
  - replace w with (cutoff * (w / cutoff) + (1 - cutoff) * 0) at 1 by (field; lra).
    apply is_RInt_ext with (f := fun r => if Rlt_dec cutoff r then 0 else w / cutoff); [|apply RInt_step; lra].
    intros r _. unfold low_weight_rr, draw, weight_left. cbn [fle fmul Rops_at Rops fsample].
    replace (Rleb (p_weight (pp r)) (cutoff * sw)) with true; [|symmetry; apply Rleb_iff; rewrite Hw; exact L].
    unfold Rleb. destruct (Rle_dec r cutoff), (Rlt_dec cutoff r); try (exfalso; lra); cbn [fst snd]; [|reflexivity].
    rewrite <- (Hw r). reflexivity.
  - replace w with (scal (1 - 0) w) at 1 by (unfold scal; cbn; unfold mult; cbn; ring).
    apply is_RInt_ext with (f := fun r => w); [|apply (is_RInt_const (V := R_NormedModule))].
    intros r _. unfold low_weight_rr, weight_left. cbn [fle fmul Rops_at Rops].
    replace (Rleb (p_weight (pp r)) (cutoff * sw)) with false; [|symmetry; apply Rleb_false; rewrite Hw; lra].
    cbn [fst snd]. symmetry. apply Hw.
Qed.

Lemma total_same r (l : list (particle (Rops_at r))) w : Forall (fun x => p_weight x = w) l -> total_weight l = INR (length l) * w.
Proof.
  unfold total_weight. induction 1 as [|x l Hx _ IH]; [cbn [map fold_right length INR]; ring|].
  cbn [map fold_right]. rewrite IH, Hx. change (length (x :: l)) with (S (length l)). rewrite S_INR. ring.
Qed.

Lemma split_weight r (p : particle (Rops_at r)) f : 1 <= f < IZR (2 ^ 64) ->
  weight_after_split (under_populated_split p f) =
    IZR (if Rlt_dec (f - IZR (Zfloor f)) r then Zfloor f else Zfloor f + 1) * (p_weight p / f).
Proof.
  intros Hf.
  assert (F1 : (1 <= Zfloor f)%Z) by (apply Zfloor_lub; apply Hf).
  assert (F2 : (Zfloor f < 2 ^ 64)%Z) by (apply lt_IZR; apply Rle_lt_trans with (1 := Zfloor_lb f); apply Hf).
  destruct (under_populated_split p f) as [[q l]| |] eqn:E.
  - pose proof (split_outcome _ _ _ _ E) as (I1 & _ & _ & _ & _ & En). cbn [weight_after_split].
    rewrite (total_same r (q :: l) (p_weight p / f)).
    + f_equal. rewrite INR_IZR_INZ. f_equal. cbn [length]. rewrite Nat2Z.inj_succ.
      unfold next_draw in En. cbn [fto_usize flt fsub ffloor f1 Rops_at Rops fsample] in En. unfold Rltb in En.
      destruct (Rlt_dec _ _) as [H|H].
      * rewrite <- minus_IZR, Rto_usize_Z in En by lia. injection En; intros E'. lia.
      * rewrite Rto_usize_Z in En by lia. injection En; intros E'. lia.
    + eapply Forall_impl; [|exact I1]. intros x (_ & Hx). exact Hx.
  - exfalso. unfold under_populated_split, draw in E. cbn [fto_usize flt fsub ffloor f1 Rops_at Rops fsample] in E.
    destruct (Rltb _ _); [rewrite <- minus_IZR in E|]; rewrite Rto_usize_Z in E by lia; cbn [unwrap rbind] in E; destruct (split_copies _ _); discriminate.
  - exfalso. unfold under_populated_split, draw in E. cbn [fto_usize flt fsub ffloor f1 Rops_at Rops fsample] in E.
    destruct (Rltb _ _); [rewrite <- minus_IZR in E|]; rewrite Rto_usize_Z in E by lia; cbn [unwrap rbind] in E; destruct (split_copies _ _); discriminate.
Qed.

Lemma split_unbiased w f (pp : forall r, particle (Rops_at r)) : (forall r, p_weight (pp r) = w) -> 1 <= f < IZR (2 ^ 64) ->
  is_RInt (fun r => weight_after_split (under_populated_split (pp r) f)) 0 1 w.
Proof.
  intros Hw Hf. pose proof (Zfloor_bounds f) as B. set (n := Zfloor f) in * .
  replace w with ((f - IZR n) * (IZR (n + 1) * (w / f)) + (1 - (f - IZR n)) * (IZR n * (w / f))) at 1
    by (rewrite plus_IZR; field; lra).
  apply is_RInt_ext with (f := fun r => if Rlt_dec (f - IZR n) r then IZR n * (w / f) else IZR (n + 1) * (w / f)); [|apply RInt_step; lra].
  intros r _. rewrite (split_weight r (pp r) f Hf), Hw. fold n. destruct (Rlt_dec _ r); reflexivity.
Qed.

(** *** The split factor *)

Lemma factor_cases (a b : N) : (0 < b)%N ->
  (flt (fdiv (fof_N a) (fof_N b) : F Rops) f1 = true <-> (a < b)%N) /\
  (flt f1 (fdiv (fof_N a) (fof_N b) : F Rops) = true <-> (b < a)%N).
Proof.
  intros Hb. cbn [flt fdiv fof_N f1 Rops]. assert (P : 0 < IZR (Z.of_N b)) by (apply IZR_lt; lia). rewrite !Rltb_iff. split; split; intros H.
  - apply N2Z.inj_lt, lt_IZR. apply (Rmult_lt_reg_r (/ IZR (Z.of_N b))); [apply Rinv_0_lt_compat, P|]. rewrite Rinv_r by lra. exact H.
  - apply (Rmult_lt_reg_r (IZR (Z.of_N b))); [exact P|]. unfold Rdiv. rewrite Rmult_assoc, Rinv_l, Rmult_1_r, Rmult_1_l by lra. apply IZR_lt. lia.
  - apply N2Z.inj_lt, lt_IZR. apply (Rmult_lt_reg_r (/ IZR (Z.of_N b))); [apply Rinv_0_lt_compat, P|]. rewrite Rinv_r by lra. exact H.
  - apply (Rmult_lt_reg_r (IZR (Z.of_N b))); [exact P|]. unfold Rdiv. rewrite Rmult_assoc, Rinv_l, Rmult_1_r, Rmult_1_l by lra. apply IZR_lt. lia.
Qed.

Lemma split_factor_is (md : mcdata Rops) (s : sim Rops) (c : container Rops) f :
  ei_n_units (mc_exec md) = 1%N -> (sp_n_particles (mc_params md) < 2 ^ 64)%N -> (0 < current_number md s c)%N ->
  compute_split_factor (K := Rops) (sp_n_particles (mc_params md)) (s_global_n s) (N.of_nat (length (processing c))) (ei_n_units (mc_exec md))
    (sp_load_balance (mc_params md)) = Ok f ->
  f = fdiv (fof_N (sp_n_particles (mc_params md))) (fof_N (current_number md s c)).
Proof.
  intros Hu Hn Hc H. rewrite Hu in H. unfold compute_split_factor, current_number in * .
  destruct (sp_load_balance (mc_params md)).
  - destruct (N.eqb_spec (N.of_nat (length (processing c))) 0) as [E|E]; [lia|]. cbn [negb] in H. rb H as t Et.
    cbn [fto_usize fceil fdiv fof_N Rops] in Et. change (IZR (Z.of_N 1)) with 1 in Et. unfold Rdiv in Et.
    rewrite Rinv_1, Rmult_1_r, Zceil_IZR, Rto_usize_Z, N2Z.id in Et by lia. cbn [unwrap] in Et.
    assert (Et' : sp_n_particles (mc_params md) = t) by congruence. rewrite Et'. congruence.
  - congruence.
Qed.

Lemma population_cases (md : mcdata Rops) (s : sim Rops) u c u0 c0 :
  ei_n_units (mc_exec md) = 1%N -> (sp_n_particles (mc_params md) < 2 ^ 64)%N ->
  source_now md (s_source_weight s) (s_unit s) (s_cont s) = Ok (u0, c0) -> (0 < current_number md s c0)%N ->
  population_phase md s = Ok (u, c) ->
  let target := sp_n_particles (mc_params md) in let now := current_number md s c0 in
  let f := fdiv (fof_N target) (fof_N now) : F Rops in let cutoff := sp_low_weight_cutoff (mc_params md) in let sw := s_source_weight s in
  ((now < target)%N -> exists b, split_population c0 f cutoff sw (u_balance u0) = Ok (c, b) /\ u = mkUnit (u_domain u0) b (u_mem u0) (u_weight u0)) /\
  ((target < now)%N -> exists b, regulate_population c0 f cutoff sw (u_balance u0) = (c, b) /\ u = mkUnit (u_domain u0) b (u_mem u0) (u_weight u0)) /\
  (target = now -> u = u0 /\ c = c0).
Proof.
  intros Hu Hn Hs Hc H target now f cutoff sw. unfold population_phase in H. rewrite Hs in H. cbn [rbind] in H. rb H as f' Ef.
  apply (split_factor_is md s c0 f' Hu Hn Hc) in Ef. subst f'. fold target now in H. fold f in H.
  destruct (factor_cases target now Hc) as (C1 & C2). fold f in C1, C2.
  split; [|split]; intros L.
  - replace (flt f f1) with false in H; [|symmetry; apply not_true_is_false; rewrite C1; lia].
    replace (flt f1 f) with true in H; [|symmetry; apply C2; exact L]. rb H as [c1 b1] E. injection H; intros; subst. exists b1. split; [exact E|reflexivity].
  - replace (flt f f1) with true in H; [|symmetry; apply C1; exact L].
    destruct (regulate_population _ _ _ _ _) as [c1 b1] eqn:E. injection H; intros; subst. exists b1. split; reflexivity.
  - replace (flt f f1) with false in H; [|symmetry; apply not_true_is_false; rewrite C1; lia].
    replace (flt f1 f) with false in H; [|symmetry; apply not_true_is_false; rewrite C2; lia]. injection H; intros; subst. split; reflexivity.
Qed.
