(** C22: outcome of a collision; C21 for a whole collision event. *)
From Coq Require Import NArith ZArith QArith Qreals List Bool Reals Lra Lia.
From Flocq Require Import Core.
From Verif Require Import Float RngModel RealOps ParticleModel NuclearModel MeshTypes Balance TrackModel CycleModel
  TrackAccount CrossingLemmas PopSpec SourceCount SegmentFacts NuclearSpec PartnerLemmas.
Import ListNotations.
Local Open Scope N_scope.

Section AnyFloat.
Context {K : FloatOps}.
Local Opaque rng_next spawn_rn_seed hash_state.

Lemma same_refl (p : particle K) : same_place p p.
Proof. repeat split. Qed.
Lemma same_trans (p q r : particle K) : same_place p q -> same_place q r -> same_place p r.
Proof.
  unfold same_place. intros (A1 & A2 & A3 & A4 & A5 & A6 & A7 & A8) (B1 & B2 & B3 & B4 & B5 & B6 & B7 & B8).
  repeat split; congruence.
Qed.
Lemma same_draw (p : particle K) : same_place p (snd (draw p)).
Proof. repeat split. Qed.
Lemma same_trajectory (p : particle K) e a : same_place p (update_trajectory p e a) /\ p_kinetic_energy (update_trajectory p e a) = e.
Proof.
  unfold update_trajectory, rotate_direction, sample_num_mfp. cbn [draw]. cbv zeta.
  match goal with |- context [if ?b then _ else _] => destruct b end; repeat split.
Qed.
Lemma same_scatter (p : particle K) m e a q : draw_scatter p m = (e, a, q) -> same_place p q /\
  e = fmul (p_kinetic_energy p) (fsub f1 (fmul (next_draw p) (fdiv f1 m))).
Proof. unfold draw_scatter. cbn [draw]. cbv zeta. intros H. injection H; intros; subst. repeat split. Qed.
Lemma same_fission (p : particle K) e a q : draw_fission p = (e, a, q) -> same_place p q /\
  e = fmul (fmul (flit (20 # 1)) (fdiv (fadd (next_draw p) f1) ftwo)) (fdiv (fadd (next_draw p) f1) ftwo).
Proof. unfold draw_fission. cbn [draw]. cbv zeta. intros H. injection H; intros; subst. repeat split. Qed.
Lemma same_spawn (p : particle K) : same_place p (snd (spawn p)).
Proof. unfold spawn. destruct (spawn_rn_seed (p_random_number_seed p)). repeat split. Qed.

(** The energy of a fission product for a draw. *)
Definition fission_energy (r : F K) : F K := fmul (fmul (flit (20 # 1)) (fdiv (fadd r f1) ftwo)) (fdiv (fadd r f1) ftwo).
Definition product_energy (e : F K) : Prop := exists s, s < two64 /\ e = fission_energy (fsample s).

Lemma fission_product (p : particle K) e a q : draw_fission p = (e, a, q) -> same_place p q /\ product_energy e /\
  e = fission_energy (next_draw p).
Proof.
  intros H. apply same_fission in H. destruct H as [A B]. split; [exact A|]. split; [|exact B]. exists (rng_next (p_random_number_seed p)).
  split; [apply RngLemmas.rng_next_lt|exact B].
Qed.

Lemma fission_products n : forall (p q : particle K) l, draw_fission_n n p = (l, q) -> same_place p q /\ length l = n /\
  Forall (fun ea => product_energy (fst ea)) l.
Proof.
  induction n as [|n IH]; intros p q l H; cbn [draw_fission_n] in H.
  - injection H; intros; subst. split; [apply same_refl|]. auto.
  - destruct (draw_fission p) as [[e a] p1] eqn:E1. destruct (draw_fission_n n p1) as [l2 p2] eqn:E2.
    injection H; intros; subst. apply fission_product in E1. destruct E1 as (S1 & P1 & _). apply IH in E2. destruct E2 as (S2 & L & P2).
    split; [eapply same_trans; eauto|]. split; [cbn [length]; congruence|]. constructor; auto.
Qed.
Lemma same_spawns n : forall (p q : particle K) l, spawn_n n p = (l, q) -> same_place p q /\ length l = n.
Proof.
  induction n as [|n IH]; intros p q l H; cbn [spawn_n] in H.
  - injection H; intros; subst. split; [apply same_refl|reflexivity].
  - pose proof (same_spawn p) as S1. destruct (spawn p) as [s p1] eqn:E1. cbn [snd] in S1. destruct (spawn_n n p1) as [l2 p2] eqn:E2.
    injection H; intros; subst. apply IH in E2. destruct E2 as (S2 & L).
    split; [eapply same_trans; eauto|]. cbn [length]. congruence.
Qed.

Lemma secondary_spec (p : particle K) s e a : same_place p (secondary p s e a) /\ p_kinetic_energy (secondary p s e a) = e.
Proof.
  unfold secondary. destruct (same_trajectory (set_identifier (set_random_number_seed p s) s) e a) as [A B]. split; [|exact B].
  eapply same_trans; [|exact A]. repeat split.
Qed.

(** What a fission does, by the number of particles. *)
Lemma fission_outcome (p : particle K) r m n : r_type r = Fission -> fto_usize (fadd (r_nu_bar r) (next_draw p)) = Some n ->
  (n = 0 -> exists q, sample_collision p r m = Ok (0, q, []) /\ same_place p q) /\
  (1 <= n <= 4 -> exists q sec, sample_collision p r m = Ok (n, q, sec) /\ N.of_nat (length sec) = n - 1 /\
     Forall (fun x => same_place p x /\ product_energy (p_kinetic_energy x)) (q :: sec) /\
     p_kinetic_energy q = fission_energy (fsample (rng_next (rng_next (p_random_number_seed p))))) /\
  (5 <= n -> sample_collision p r m = Panic).
Proof.
  intros Ht Hn. unfold sample_collision. rewrite Ht. cbn [draw].
  set (p1 := set_random_number_seed p (rng_next (p_random_number_seed p))).
  assert (S1 : same_place p p1) by (repeat split). unfold next_draw in Hn. rewrite Hn. cbn [unwrap rbind].
  split; [|split].
  - intros ->. exists p1. split; [reflexivity|exact S1].
  - intros [H1 H4]. destruct (N.eq_dec n 1) as [->|Hn1].
    + destruct (draw_fission p1) as [[e a] p2] eqn:E. apply fission_product in E. destruct E as (S2 & P2 & Q2).
      exists (update_trajectory p2 e a), []. split; [reflexivity|]. split; [reflexivity|].
      destruct (same_trajectory p2 e a) as [S3 P3]. rewrite P3. split; [|exact Q2]. constructor; [|constructor]. rewrite P3. split; [|exact P2].
      eapply same_trans; [exact S1|]. eapply same_trans; eauto.
    + assert (E5 : (n <? 5) = true) by (apply N.ltb_lt; lia).
      replace (match n with 0 => _ | 1 => _ | _ => _ end) with
        (do _ <- rassert (n <? 5) ;
          let '(energy, angle, p) := draw_fission p1 in
          let (out, p) := draw_fission_n (N.to_nat (n - 1)) p in
          let (seeds, p) := spawn_n (N.to_nat (n - 1)) p in
          let sec := map (fun '(seed, (e, a)) => secondary p seed e a) (combine seeds out) in
          Ok (n, update_trajectory p energy angle, sec)) by (destruct n as [|[?|?|]]; [lia|reflexivity|reflexivity|congruence]).
      rewrite E5. cbn [rassert rbind].
      destruct (draw_fission p1) as [[e a] p2] eqn:E. apply fission_product in E. destruct E as (S2 & P2 & Q2).
      destruct (draw_fission_n (N.to_nat (n - 1)) p2) as [out p3] eqn:E3. apply fission_products in E3. destruct E3 as (S3 & L3 & P3).
      destruct (spawn_n (N.to_nat (n - 1)) p3) as [seeds p4] eqn:E4. apply same_spawns in E4. destruct E4 as (S4 & L4).
      assert (S : same_place p p4).
      { eapply same_trans; [exact S1|]. eapply same_trans; [exact S2|]. eapply same_trans; eauto. }
      eexists. eexists. split; [reflexivity|]. split; [rewrite map_length, combine_length; lia|].
      split; [|rewrite (proj2 (same_trajectory p4 e a)); exact Q2]. constructor.
      * destruct (same_trajectory p4 e a) as [S5 P5]. rewrite P5. split; [eapply same_trans; eauto|exact P2].
      * apply Forall_forall. intros x Hx. apply in_map_iff in Hx. destruct Hx as ((s & ee & aa) & <- & Hin).
        destruct (secondary_spec p4 s ee aa) as [S5 P5]. rewrite P5. split; [eapply same_trans; eauto|].
        apply in_combine_r in Hin. exact (proj1 (Forall_forall _ _) P3 _ Hin).
  - intros H5. destruct n as [|[?|?|]]; [lia| | |lia];
      (assert (E5 : (N.pos _ <? 5) = false) by (apply N.ltb_ge; exact H5); rewrite E5; reflexivity).
Qed.

End AnyFloat.

Local Open Scope R_scope.

Lemma product_range (e : R) : product_energy (K := Rops) e -> 5 <= e <= 20.
Proof.
  intros (s & Hs & ->). pose proof (sample_unit s Hs) as [H0 H1]. unfold fission_energy.
  cbn [fmul fdiv fadd f1 flit ftwo Rops]. set (x := fsample (f := Rops) s) in * .
  unfold ftwo. cbn [flit Rops]. replace (Q2R (2 # 1)) with 2 by (unfold Q2R; cbn; lra). replace (Q2R (20 # 1)) with 20 by (unfold Q2R; cbn; lra).
  assert (Y : 1 / 2 <= (x + 1) / 2 <= 1) by lra. set (y := (x + 1) / 2) in * . clearbody y x. cbn in y. nra.
Qed.

Lemma scatter_outcome (p : particle Rops) r m : r_type r = Scatter ->
  exists q, sample_collision p r m = Ok (1%N, q, []) /\ same_place p q /\
    p_kinetic_energy q = p_kinetic_energy p * (1 - next_draw p * (1 / m)).
Proof.
  intros Ht. unfold sample_collision. rewrite Ht.
  destruct (draw_scatter p m) as [[e a] p1] eqn:E. apply same_scatter in E. destruct E as [S1 E1].
  destruct (same_trajectory p1 e a) as [S2 E2].
  exists (update_trajectory p1 e a). split; [reflexivity|]. split; [eapply same_trans; eauto|]. rewrite E2, E1. reflexivity.
Qed.

Lemma scatter_energy (e x m : R) : 0 <= e -> 0 <= x <= 1 -> 0 < m ->
  e * (1 - x * (1 / m)) <= e /\ (1 <= m -> 0 <= e * (1 - x * (1 / m))).
Proof.
  intros He [H0 H1] Hm. assert (Q : 0 < / m) by (apply Rinv_0_lt_compat; exact Hm).
  assert (P : 0 <= x * (1 / m)) by (apply Rmult_le_pos; [exact H0|lra]).
  split; [nra|]. intros H. assert (L : / m <= 1) by (rewrite <- Rinv_1; apply Rinv_le_contravar; lra).
  assert (x * (1 / m) <= 1) by nra. apply Rmult_le_pos; lra.
Qed.

(** The number of particles of a fission. *)
Lemma fission_number x : 0 <= x < 4 + 1 -> Rto_usize x = Some (Z.to_N (Zfloor x)).
Proof.
  intros [H0 H1]. unfold Rto_usize. assert (A : Rltb (-1) x = true) by (apply Rltb_iff; lra). rewrite A.
  assert (B : Rltb x (IZR (2 ^ 64)) = true) by (apply Rltb_iff; apply (Rlt_trans _ 5); [lra|apply (IZR_lt 5); reflexivity]).
  rewrite B. cbn [andb]. rewrite Ztrunc_floor by lra. reflexivity.
Qed.

(** A fission, by the value of [nu_bar] plus the draw. *)
Lemma fission_real (p : particle Rops) (r : reaction Rops) (m : R) : r_type r = Fission -> 0 <= r_nu_bar r ->
  let x := r_nu_bar r + next_draw p in
  (x < 1 -> exists q, sample_collision p r m = Ok (0%N, q, []) /\ same_place p q) /\
  (1 <= x < 5 -> exists q sec, sample_collision p r m = Ok (Z.to_N (Zfloor x), q, sec) /\
     Z.of_nat (length sec) = (Zfloor x - 1)%Z /\
     Forall (fun y : particle Rops => same_place p y /\ 5 <= p_kinetic_energy y <= 20) (q :: sec)) /\
  (5 <= x -> sample_collision p r m = Panic).
Proof.
  intros Ht Hnu x. pose proof (draw_unit p) as [D0 D1]. assert (X0 : 0 <= x) by (unfold x; lra).
  pose proof (Zfloor_lb x) as L1. pose proof (Zfloor_ub x) as L2.
  split; [|split].
  - intros H. assert (E : Zfloor x = 0%Z) by (apply Zfloor_imp; cbn; lra).
    assert (En : fto_usize (f := Rops) (fadd (r_nu_bar r) (next_draw p)) = Some 0%N).
    { cbn [fto_usize fadd Rops]. fold x. rewrite fission_number by lra. rewrite E. reflexivity. }
    exact (proj1 (fission_outcome p r m 0%N Ht En) eq_refl).
  - intros [H1 H5]. assert (En : fto_usize (f := Rops) (fadd (r_nu_bar r) (next_draw p)) = Some (Z.to_N (Zfloor x))).
    { cbn [fto_usize fadd Rops]. fold x. apply fission_number. lra. }
    assert (B1 : (1 <= Zfloor x)%Z) by (apply Zfloor_lub; exact H1).
    assert (B2 : (Zfloor x < 5)%Z) by (apply lt_IZR; lra).
    destruct (proj1 (proj2 (fission_outcome p r m _ Ht En))) as (q & sec & E1 & E2 & E3 & _); [lia|].
    exists q, sec. split; [exact E1|]. split; [lia|]. eapply Forall_impl; [|exact E3].
    intros y [Y1 Y2]. split; [exact Y1|]. apply product_range. exact Y2.
  - intros H5. destruct (fto_usize (f := Rops) (fadd (r_nu_bar r) (next_draw p))) as [n|] eqn:En.
    + apply (fission_outcome p r m n Ht En). cbn [fto_usize fadd Rops] in En. fold x in En. unfold Rto_usize in En.
      destruct (Rltb (-1) x && Rltb x (IZR (2 ^ 64)))%bool; [|discriminate]. injection En as <-.
      rewrite Ztrunc_floor by exact X0. assert (5 <= Zfloor x)%Z by (apply Zfloor_lub; exact H5). lia.
    + unfold sample_collision. rewrite Ht. cbn [draw]. unfold next_draw in En. rewrite En. reflexivity.
Qed.

(** *** Draws of exactly one *)

Lemma sample_one : fsample (f := Rops) (2 ^ 64 - 1) = 1.
Proof.
  cbn [fsample Rops]. rewrite (proj2 (RngLemmas.round53_top (2 ^ 64 - 1) ltac:(reflexivity))) by (vm_compute; discriminate).
  apply Rinv_r. apply not_0_IZR. discriminate.
Qed.

Lemma seed_of_one n : exists s, (s < two64)%N /\ RngLemmas.rng_iter n s = (2 ^ 64 - 1)%N.
Proof.
  induction n as [|n (s & Hs & E)]; [exists (2 ^ 64 - 1)%N; split; [reflexivity|reflexivity]|].
  destruct (RngLemmas.rng_iter_onto (rng_next s) s) as (k & _ & Ek); [apply RngLemmas.rng_next_lt|exact Hs|].
  exists (RngLemmas.rng_iter k s). split; [apply RngLemmas.rng_iter_lt; exact Hs|].
  replace (RngLemmas.rng_iter (S n) (RngLemmas.rng_iter k s)) with (RngLemmas.rng_iter n (RngLemmas.rng_iter k (rng_next s))).
  - rewrite Ek. exact E.
  - change (rng_next s) with (RngLemmas.rng_iter 1 s). rewrite <- !RngLemmas.rng_iter_add. f_equal. lia.
Qed.

(** ** A collision event *)

Lemma collision_partner fuel (td : track_data Rops) b mat_gid mat density (p : particle Rops) extra :
  (2 <= fuel)%nat -> density <> 0 -> vec_get (td_mats td) mat_gid = Ok mat ->
  material_data (td_nuclear td) (p_energy_group p) (mat_iso mat) ->
  Forall (fun pr => 0 <= sigma density (p_energy_group p) pr) (partners (td_nuclear td) (mat_iso mat)) ->
  weighted_macroscopic_cross_section td mat_gid density (p_energy_group p) = Ok (p_total_cross_section p) ->
  0 < p_total_cross_section p ->
  exists k iso r, nth_error (partners (td_nuclear td) (mat_iso mat)) k = Some (iso, r) /\
    0 < sigma density (p_energy_group p) (iso, r) /\
    falls_in (map (sigma density (p_energy_group p)) (partners (td_nuclear td) (mat_iso mat))) (p_total_cross_section p * next_draw p) k /\
    collision_event fuel td b mat_gid density p extra =
      (do (n, q, sec) <- sample_collision (snd (draw p)) r (mat_mass mat) ;
       Ok ((1 <=? n)%N, q, tally_collision b (r_type r) n, extra ++ sec)).
Proof.
  intros Hf Hd Em Hm Hp Ht Hs. set (ws := map (sigma density (p_energy_group p)) (partners (td_nuclear td) (mat_iso mat))).
  assert (Ews : p_total_cross_section p = Rsum ws).
  { rewrite (total_is_sum td density (p_energy_group p) Hd mat mat_gid Em Hm) in Ht. apply Ok_inj in Ht. symmetry. exact Ht. }
  pose proof (draw_unit p) as [D0 D1].
  assert (T : 0 <= p_total_cross_section p * next_draw p < INR fuel * Rsum ws).
  { rewrite <- Ews. apply le_INR in Hf. cbn [INR] in Hf. split; [apply Rmult_le_pos; lra|]. nra. }
  rewrite Ews in Hs.
  destruct (pick_loop_spec td density (p_energy_group p) Hd mat mat_gid Em Hm Hp Hs fuel _ T) as (k & iso & r & R1 & R2 & R3).
  exists k, iso, r. split; [exact R2|].
  assert (W : nth_error ws k = Some (sigma density (p_energy_group p) (iso, r))) by (unfold ws; rewrite nth_error_map, R2; reflexivity).
  assert (Hw : Forall (fun w => 0 <= w) ws) by (unfold ws; apply Forall_map; exact Hp).
  split; [exact (falls_in_weight ws _ k _ R3 W)|]. split; [exact R3|].
  unfold collision_event, get_current_xs. cbn [draw]. cbn [p_energy_group set_random_number_seed].
  change (fmul (f := Rops) (p_total_cross_section p) (fsample (rng_next (p_random_number_seed p)))) with (p_total_cross_section p * next_draw p).
  replace (p_energy_group (set_random_number_seed p (rng_next (p_random_number_seed p)))) with (p_energy_group p) by reflexivity.
  rewrite R1. cbn [rbind]. rewrite Em. cbn [rbind snd]. reflexivity.
Qed.

(** ** Consequences *)

(** A fission product can have an energy of 20: any maximum below is exceeded. *)
Lemma fission_exceeds (nd : nuclear_data Rops) (p : particle Rops) (r : reaction Rops) (m first last : R) :
  r_type r = Fission -> 1 <= r_nu_bar r < 4 ->
  nth_error (nd_energies nd) 0 = Some first -> nth_error (nd_energies nd) (length (nd_energies nd) - 1) = Some last ->
  first < 20 -> last < 20 ->
  exists s n q sec, (s < two64)%N /\ sample_collision (set_random_number_seed p s) r m = Ok (n, q, sec) /\
    p_kinetic_energy q = 20 /\ get_energy_groups nd (p_kinetic_energy q) = Ok (N.of_nat (length (nd_energies nd) - 1)).
Proof.
  intros Ht [Hn1 Hn4] Hf Hl L1 L2. destruct (seed_of_one 2) as (s & Hs & Es).
  set (ps := set_random_number_seed p s). pose proof (draw_unit ps) as [D0 D1].
  pose proof (fission_real ps r m Ht ltac:(lra)) as (_ & F2 & _). cbv zeta in F2.
  set (x := r_nu_bar r + next_draw ps) in * . assert (X : 1 <= x < 5) by (unfold x; lra).
  assert (En : fto_usize (f := Rops) (fadd (r_nu_bar r) (next_draw ps)) = Some (Z.to_N (Zfloor x))).
  { cbn [fto_usize fadd Rops]. fold x. apply fission_number. lra. }
  assert (B1 : (1 <= Zfloor x)%Z) by (apply Zfloor_lub; apply X).
  assert (B2 : (Zfloor x < 5)%Z) by (apply lt_IZR; pose proof (Zfloor_lb x); lra).
  destruct (proj1 (proj2 (fission_outcome ps r m _ Ht En))) as (q & sec & E1 & _ & _ & E4); [lia|].
  exists s, (Z.to_N (Zfloor x)), q, sec. split; [exact Hs|]. split; [exact E1|].
  assert (Eq : p_kinetic_energy q = 20).
  { rewrite E4. change (rng_next (rng_next (p_random_number_seed ps))) with (RngLemmas.rng_iter 2 s). rewrite Es, sample_one.
    unfold fission_energy, ftwo. cbn [fmul fdiv fadd f1 flit Rops].
    replace (Q2R (2 # 1)) with 2 by (unfold Q2R; cbn; lra). replace (Q2R (20 # 1)) with 20 by (unfold Q2R; cbn; lra). match goal with |- @eq _ ?a ?b => change (@eq R a b) end. field. }
  split; [exact Eq|]. rewrite Eq. apply (NuclearFacts.lookup_above nd (20 : F Rops) first last Hf Hl).
  - apply Rleb_false. exact L1.
  - apply Rltb_iff. exact L2.
Qed.

(** With a material lighter than one, scattering can leave a negative energy. *)
Lemma light_material (p : particle Rops) (r : reaction Rops) (m : R) : r_type r = Scatter -> 0 < m < 1 -> 0 < p_kinetic_energy p ->
  exists s q, (s < two64)%N /\ sample_collision (set_random_number_seed p s) r m = Ok (1%N, q, []) /\ p_kinetic_energy q < 0.
Proof.
  intros Ht [Hm Hm1] He. destruct (seed_of_one 1) as (s & Hs & Es).
  destruct (scatter_outcome (set_random_number_seed p s) r m Ht) as (q & E1 & _ & E2).
  exists s, q. split; [exact Hs|]. split; [exact E1|]. rewrite E2. cbn [p_kinetic_energy set_random_number_seed].
  unfold next_draw. change (rng_next (p_random_number_seed (set_random_number_seed p s))) with (RngLemmas.rng_iter 1 s). rewrite Es, sample_one.
  assert (1 < / m) by (rewrite <- Rinv_1; apply Rinv_lt_contravar; lra). cbn [p_kinetic_energy set_random_number_seed] in He |- * .
  assert (0 < p_kinetic_energy p * (/ m - 1)) by (apply Rmult_lt_0_compat; lra). unfold Rdiv. lra.
Qed.

Lemma absorption_none {K : FloatOps} (p : particle K) r m : r_type r = Absorption -> sample_collision p r m = Ok (0%N, p, []).
Proof. intros H. unfold sample_collision. rewrite H. reflexivity. Qed.

Lemma scatter_all (p : particle Rops) r (m : R) : r_type r = Scatter ->
  exists q, sample_collision p r m = Ok (1%N, q, []) /\ same_place p q /\
    p_kinetic_energy q = p_kinetic_energy p * (1 - next_draw p * (1 / m)) /\
    (0 <= p_kinetic_energy p -> 0 < m ->
      p_kinetic_energy q <= p_kinetic_energy p /\ (1 <= m -> 0 <= p_kinetic_energy q)).
Proof.
  intros H. destruct (scatter_outcome p r m H) as (q & E1 & E2 & E3). exists q. split; [exact E1|]. split; [exact E2|]. split; [exact E3|].
  intros He Hm. rewrite E3. apply scatter_energy; [exact He|apply draw_unit|exact Hm].
Qed.
