(** Speeds, distances and energies along a track and along a run (C63). *)
From Coq Require Import NArith ZArith QArith Qreals List Bool Reals Lra Lia Psatz.
From Verif Require Import Float RealOps RngModel ParticleModel NuclearModel MeshTypes Balance TrackModel CycleModel GridModel MeshModel GridSpec
  MeshSpec TrackSpec TrackAccount CycleSpec PopSpec SegmentSpec NearestLemmas FacetLemmas RangeFacts SegmentFacts
  NuclearSpec OutcomeLemmas GeomSpec GeomLemmas PlaneLemmas StaySpec StayLemmas StaySteps StayRun SpeedSpec.
Import ListNotations.
Local Open Scope R_scope.
Local Opaque rng_next spawn_rn_seed huge tiny.

(** ** Speeds *)

Lemma light_R : light_speed (K := Rops) = 29979200000.
Proof. unfold light_speed. cbn [flit Rops]. unfold Q2R. cbn. lra. Qed.
Lemma neutron_R : neutron_mass_energy (K := Rops) = 939565 / 1000.
Proof. unfold neutron_mass_energy. cbn [flit Rops]. unfold Q2R. cbn. lra. Qed.

(** The square of the speed is [c^2 (1 - (m / (e + m))^2)]. *)
Lemma speed_form (p : particle Rops) : 0 <= p_kinetic_energy p ->
  let m := 939565 / 1000 in let e := p_kinetic_energy p in get_speed p = 29979200000 * sqrt (1 - (m / (e + m)) * (m / (e + m))).
Proof.
  intros He. cbv zeta. unfold get_speed. cbv zeta. rewrite two_R, light_R, neutron_R. cbn [fmul fadd fdiv Float.fsqrt Rops].
  set (e := p_kinetic_energy p) in * . clearbody e. change (F Rops) with R in * . set (m := 939565 / 1000). assert (M : 0 < m) by (unfold m; lra). clearbody m.
  apply (f_equal (Rmult 29979200000)). apply f_equal. field. lra.
Qed.
Lemma ratio_bounds e m : 0 < m -> 0 <= e -> 0 < m / (e + m) <= 1 /\ (0 < e -> m / (e + m) < 1).
Proof.
  intros M He. assert (I : 0 < / (e + m)) by (apply Rinv_0_lt_compat; lra). assert (E : (e + m) * / (e + m) = 1) by (apply Rinv_r; lra).
  rewrite Rmult_plus_distr_r in E. assert (0 <= e * / (e + m)) by (apply Rmult_le_pos; lra). assert (0 < m * / (e + m)) by (apply Rmult_lt_0_compat; lra).
  unfold Rdiv. split; [lra|]. intros He'. assert (0 < e * / (e + m)) by (apply Rmult_lt_0_compat; lra). lra.
Qed.
Lemma below_light (p : particle Rops) : 0 <= p_kinetic_energy p -> get_speed p < light_speed (K := Rops).
Proof.
  intros He. rewrite (speed_form p He), light_R. set (m := 939565 / 1000). destruct (ratio_bounds (p_kinetic_energy p) m ltac:(unfold m; lra) He) as ((H1 & H2) & _).
  set (x := m / _) in * . clearbody x. assert (S : sqrt (1 - x * x) < 1); [|lra].
  apply Rlt_le_trans with (sqrt 1); [apply sqrt_lt_1; nra|rewrite sqrt_1; lra].
Qed.
Lemma faster (p q : particle Rops) : 0 <= p_kinetic_energy p -> p_kinetic_energy p < p_kinetic_energy q -> get_speed p < get_speed q.
Proof.
  intros He Hq. assert (He' : 0 <= p_kinetic_energy q) by (apply Rlt_le, (Rle_lt_trans _ _ _ He Hq)). rewrite (speed_form p He), (speed_form q He').
  set (m := 939565 / 1000). assert (M : 0 < m) by (unfold m; lra). clearbody m.
  destruct (ratio_bounds (p_kinetic_energy p) m M He) as (Hp1 & _). destruct (ratio_bounds (p_kinetic_energy q) m M He') as (Hq1 & _).
  assert (L : m / (p_kinetic_energy q + m) < m / (p_kinetic_energy p + m)).
  { unfold Rdiv. apply Rmult_lt_compat_l; [exact M|]. apply Rinv_lt_contravar; [apply Rmult_lt_0_compat; lra|lra]. }
  set (x := m / (p_kinetic_energy p + m)) in * . set (y := m / (p_kinetic_energy q + m)) in * . clearbody x y.
  apply Rmult_lt_compat_l; [lra|]. apply sqrt_lt_1; nra.
Qed.

Lemma relativity (p : particle Rops) : 0 <= p_kinetic_energy p ->
  (p_kinetic_energy p + 939565 / 1000) * sqrt (1 - get_speed p / light_speed (K := Rops) * (get_speed p / light_speed (K := Rops))) = 939565 / 1000.
Proof.
  intros He. rewrite (speed_form p He), light_R. cbv zeta. destruct (ratio_bounds (p_kinetic_energy p) (939565 / 1000) ltac:(lra) He) as ((H1 & H2) & _).
  set (e := p_kinetic_energy p) in * . clearbody e. change (F Rops) with R in * . set (m := 939565 / 1000) in * . assert (M : 0 < m) by (unfold m; lra). clearbody m.
  set (x := m / (e + m)) in * . assert (X : (e + m) * x = m) by (unfold x; field; lra). clearbody x.
  replace (29979200000 * sqrt (1 - x * x) / 29979200000) with (sqrt (1 - x * x)) by field.
  rewrite sqrt_sqrt by nra. replace (1 - (1 - x * x)) with (x * x) by ring. rewrite sqrt_square by lra. exact X.
Qed.

(** ** Distances *)

Lemma apart_along (x u : vec Rops) d : unit_vec u -> 0 <= d -> apart x (along x u d) = d.
Proof.
  intros U Hd. unfold apart, along. cbn [vx vy vz]. unfold unit_vec, dot in U. change (F Rops) with R in * .
  replace (_ + _ + _) with (d * d * (vx u * vx u + vy u * vy u + vz u * vz u)) by ring. change (F Rops) with R in * . rewrite U, Rmult_1_r. apply sqrt_square. exact Hd.
Qed.
Lemma apart_same (x : vec Rops) : apart x x = 0.
Proof. unfold apart. replace (_ + _ + _) with 0 by ring. apply sqrt_0. Qed.

Lemma apart_triangle (x y z : vec Rops) : apart x z <= apart x y + apart y z.
Proof.
  unfold apart. set (a1 := vx x - vx y). set (a2 := vy x - vy y). set (a3 := vz x - vz y). set (b1 := vx y - vx z). set (b2 := vy y - vy z). set (b3 := vz y - vz z).
  replace (vx x - vx z) with (a1 + b1) by (unfold a1, b1; ring). replace (vy x - vy z) with (a2 + b2) by (unfold a2, b2; ring).
  replace (vz x - vz z) with (a3 + b3) by (unfold a3, b3; ring). clearbody a1 a2 a3 b1 b2 b3.
  set (A := a1 * a1 + a2 * a2 + a3 * a3). set (B := b1 * b1 + b2 * b2 + b3 * b3).
  assert (HA : 0 <= A) by (unfold A; nra). assert (HB : 0 <= B) by (unfold B; nra).
  set (s := a1 * b1 + a2 * b2 + a3 * b3).
  assert (CS : s * s <= A * B).
  { pose proof (Rle_0_sqr (a1 * b2 - a2 * b1)) as Q1. pose proof (Rle_0_sqr (a1 * b3 - a3 * b1)) as Q2. pose proof (Rle_0_sqr (a2 * b3 - a3 * b2)) as Q3.
    replace (A * B) with (s * s + (Rsqr (a1 * b2 - a2 * b1) + Rsqr (a1 * b3 - a3 * b1) + Rsqr (a2 * b3 - a3 * b2))) by (unfold s, A, B, Rsqr; ring). lra. }
  pose proof (sqrt_pos A) as PA. pose proof (sqrt_pos B) as PB. pose proof (sqrt_sqrt A HA) as SA. pose proof (sqrt_sqrt B HB) as SB.
  assert (SAB : s <= sqrt A * sqrt B).
  { apply Rnot_lt_le. intros C. assert (0 <= sqrt A * sqrt B) by (apply Rmult_le_pos; assumption).
    assert (sqrt A * sqrt B * (sqrt A * sqrt B) < s * s) by nra. replace (sqrt A * sqrt B * (sqrt A * sqrt B)) with (A * B) in * ; [lra|].
    rewrite <- SA at 1. rewrite <- SB at 1. ring. }
  replace ((a1 + b1) * (a1 + b1) + (a2 + b2) * (a2 + b2) + (a3 + b3) * (a3 + b3)) with (A + 2 * s + B) by (unfold A, B, s; ring).
  apply Rsqr_incr_0_var; [|lra]. unfold Rsqr. rewrite sqrt_sqrt; [nra|].
  pose proof (Rle_0_sqr (a1 + b1)) as Q1. pose proof (Rle_0_sqr (a2 + b2)) as Q2. pose proof (Rle_0_sqr (a3 + b3)) as Q3.
  replace (A + 2 * s + B) with (Rsqr (a1 + b1) + Rsqr (a2 + b2) + Rsqr (a3 + b3)) by (unfold s, A, B, Rsqr; ring). lra.
Qed.

(** ** A segment *)

Lemma outcome_age (dom : domain Rops) (p : particle Rops) speed xs o q : outcome_after dom p speed false xs = Ok (o, q) -> 0 < speed ->
  p_segment_path_length q = speed * (p_age q - p_age p).
Proof.
  intros H Hsp. destruct (outcome_parts _ _ _ _ _ _ _ H) as (i & df & p1 & d & En & Eo & Hd & ->).
  destruct (prepared_paths p xs) as (_ & _ & _ & Pa & _). destruct (nearest_facet_first _ _ _ _ En) as ((x1 & Hp1) & _).
  assert (P1a : p_age p1 = p_age p) by (rewrite Hp1; exact Pa).
  destruct (end_clock p1 speed d o i) as (_ & E2 & E3 & _). rewrite E3, E2, P1a. unfold Reqb. destruct (Req_EM_T d 0) as [-> |N]; cbn.
  - change (F Rops) with R in * . ring.
  - set (a := p_age p). clearbody a. change (F Rops) with R in * . field. lra.
Qed.

Section Step.
Variables (g : grid Rops) (bc : String.string) (pt : partition) (dom : domain Rops).
Hypothesis B : built g bc pt (d_mesh dom).
Hypothesis Hs : sized g.
Hypothesis Hfit : fits g.

Lemma step_flew td p e keep p' nx : seg_step td dom p e keep p' nx -> flying g pt p -> 0 < p_kinetic_energy p -> Forall (flew_to p) (p' :: nx).
Proof.
  intros H ((c & L & Hin & Hst) & Hu & Ht) He. destruct (on_time_enters _ Ht) as (E1 & E2). pose proof (speed_pos p He) as Sp.
  assert (Seg : forall xs o p1, outcome_after dom p (get_speed p) false xs = Ok (o, p1) -> flew_to p p1 /\ p_direction p1 = p_direction p).
  { intros xs o p1 Ho. destruct (segment_stays g bc pt dom B Hs Hfit _ _ _ _ _ _ L Hin Hst Hu Ho) as (_ & Hd & f & df & _ & Hlen & _ & Hx & _). split; [|exact Hd].
    unfold flew_to. rewrite Hx, apart_along; [|exact Hu|apply Hlen]. exact (outcome_age _ _ _ _ _ _ Ho Sp). }
  assert (Tr : forall p1 q : particle Rops, flew_to p p1 -> p_coordinate q = p_coordinate p1 -> p_age q = p_age p1 -> flew_to p q).
  { unfold flew_to. intros p1 q H1 -> -> . exact H1. }
  inversion H as [? xs p1 cs cur p2 cfuel r mat n p3 ? gr ? Ho p1' Hcs Hcur Hpick Hmat Hcol Hg Hp'|? xs p1 conn fa p2 ? Ho p1' Hconn Hfa Hev Hm|? xs p1 Ho]; subst;
    rewrite E1, E2 in Ho; apply Seg in Ho; destruct Ho as (Ho & Hd).
  - assert (Hp2 : same_place p1' p2 /\ p_direction p2 = p_direction p1).
    { unfold get_current_xs in Hcur. rewrite draw_next in Hcur. injection Hcur as <- <-. split; [repeat split|reflexivity]. }
    destruct Hp2 as (S2 & D2). rewrite <- Hd, <- D2 in Hu.
    assert (At : forall q : particle Rops, same_place p2 q -> flew_to p q).
    { intros q Sq. pose proof (same_trans _ _ _ S2 Sq) as (A1 & _ & _ & A2 & _). apply (Tr p1); assumption. }
    pose proof (collision_directions _ _ _ _ _ _ Hcol Hu) as Hpl. constructor.
    + apply (Tr p3); [apply At; exact (proj1 (Forall_inv Hpl))| |]; destruct (1 <=? n)%N; reflexivity.
    + eapply Forall_impl; [|exact (Forall_inv_tail Hpl)]; intros q (Sq & _); exact (At q Sq).
  - constructor; [|constructor]. destruct (facet_keeps dom _ _ _ _ Hev Hm) as (C1 & _).
    apply (Tr p1); [exact Ho| |unfold clock in C1; congruence]. unfold facet_crossing_event in Hev. destruct (fa_event fa); try contradiction.
    + apply Ok_inj in Hev. subst. reflexivity.
    + apply Ok_inj in Hev. subst p2. destruct Hm as (planes & pl & _ & _ & ->). unfold reflect_particle. destruct (flt _ _); reflexivity.
    + rb Hev as d0 Ed. rb Hev as c0 Ec. rb Hev as f0' Ef. apply Ok_inj in Hev. subst. reflexivity.
  - constructor; [|constructor]. apply (Tr p1); [exact Ho|reflexivity|reflexivity].
Qed.

End Step.

(** ** A track *)

Lemma flew_within (p q : particle Rops) : 0 < p_kinetic_energy p -> flew_to p q -> within_light p q.
Proof.
  intros He H. pose proof (speed_pos p He) as S1. pose proof (below_light p (Rlt_le _ _ He)) as S2. unfold flew_to in H. unfold within_light.
  assert (A : 0 <= apart (p_coordinate p) (p_coordinate q)) by apply sqrt_pos. rewrite H in * . set (t := p_age q - p_age p) in * .
  assert (T : 0 <= t). { apply Rnot_lt_le. intros C. assert (get_speed p * t < 0) by (apply Ropp_lt_cancel; rewrite Ropp_0, Ropp_mult_distr_r; apply Rmult_lt_0_compat; lra). lra. }
  split; [unfold t in T; clear - T; change (F Rops) with R in * ; lra|]. apply Rmult_le_compat_r; [exact T|apply Rlt_le; exact S2].
Qed.
Lemma within_trans (p q r : particle Rops) : within_light p q -> within_light q r -> within_light p r.
Proof.
  intros (A1 & A2) (B1 & B2). change (F Rops) with R in * . split; [lra|]. pose proof (apart_triangle (p_coordinate p) (p_coordinate q) (p_coordinate r)).
  set (c := light_speed (K := Rops)) in * . clearbody c. change (F Rops) with R in * .
  replace (c * (p_age r - p_age p)) with (c * (p_age q - p_age p) + c * (p_age r - p_age q)) by ring. lra.
Qed.

Theorem track_light g bc pt td dom p hs p' nx : built g bc pt (d_mesh dom) -> sized g -> fits g -> heavy td ->
  track_log td dom p hs p' nx -> flying g pt p -> 0 < p_kinetic_energy p -> Forall (clean g) hs ->
  Forall happens_swiftly hs /\ Forall (within_light p) (p' :: nx).
Proof.
  intros B Hs Hfit Hh. induction 1 as [p e p' nx H|p e p1 nx1 hs p' nx2 H Hl IH]; intros Hf He Hc;
    pose proof (step_flew g bc pt dom B Hs Hfit _ _ _ _ _ _ H Hf He) as Fl; pose proof (conj (speed_pos p He) (below_light p (Rlt_le _ _ He))) as Sp.
  - split; [constructor; [split; [exact Sp|exact (Forall_inv Fl)]|constructor]|]. eapply Forall_impl; [|exact Fl]. intros q. apply flew_within. exact He.
  - destruct (step_home g bc pt dom B Hs Hfit _ _ _ _ _ _ H Hf) as (_ & A). destruct (A (Forall_inv Hc)) as (A1 & _). specialize (A1 (or_introl eq_refl)).
    pose proof (seg_clock_exact _ _ _ _ _ _ _ H (proj2 (proj2 Hf)) Hh He) as Ec. destruct (Forall_inv Ec) as (_ & He1).
    destruct (IH A1 He1 (Forall_inv_tail Hc)) as (I1 & I2). split; [constructor; [split; [exact Sp|exact (Forall_inv Fl)]|exact I1]|].
    pose proof (flew_within _ _ He (Forall_inv Fl)) as W.
    assert (J : Forall (within_light p) (p' :: nx2)) by (eapply Forall_impl; [|exact I2]; intros q; apply within_trans; exact W).
    constructor; [exact (Forall_inv J)|]. apply Forall_app. split; [|exact (Forall_inv_tail J)].
    eapply Forall_impl; [|exact (Forall_inv_tail Fl)]. intros q. apply flew_within. exact He.
Qed.

(** ** Energies *)

Lemma fission_top (p : particle Rops) : fst (fst (draw_fission p)) <= 20.
Proof.
  pose proof (draw_unit p) as H. unfold next_draw in H.
  unfold draw_fission, draw. cbv zeta. cbn [fst]. rewrite two_R. cbn [fmul flit fdiv fadd f1 Rops].
  replace (Q2R (20 # 1)) with 20 by (unfold Q2R; cbn; lra). set (u := fsample _) in * . clearbody u. change (F Rops) with R in * .
  assert (0 <= (u + 1) / 2 <= 1) by lra. nra.
Qed.
Lemma fissions_top n : forall p : particle Rops, Forall (fun ea : F Rops * F Rops => fst ea <= 20) (fst (draw_fission_n n p)).
Proof.
  induction n as [|n IH]; intros p; cbn [draw_fission_n]; [constructor|].
  pose proof (fission_top p) as H. destruct (draw_fission p) as [[e a] p1]. cbn [fst] in H. specialize (IH p1).
  destruct (draw_fission_n n p1) as [l p2]. cbn [fst] in * . constructor; [exact H|exact IH].
Qed.
Lemma collision_top (p : particle Rops) r (mass top : R) n p' nx : 0 < mass -> 20 <= top -> sample_collision p r (mass : F Rops) = Ok (n, p', nx) ->
  0 <= p_kinetic_energy p <= top -> Forall (fun q : particle Rops => p_kinetic_energy q <= top) (p' :: nx).
Proof.
  intros Hmass Htop. unfold sample_collision. intros H H0. destruct (r_type r).
  - destruct (draw_scatter p mass) as [[e a] p1] eqn:E. injection H; intros; subst. constructor; [|constructor]. rewrite updated_energy.
    unfold draw_scatter in E. rewrite draw_next in E. destruct (draw _) as [a' p1'] in E. apply (f_equal (fun x => fst (fst x))) in E. cbn [fst] in E. subst e.
    pose proof (draw_unit p) as D. cbn [fmul fsub fdiv f1 Rops]. assert (I : 0 < 1 / mass) by (apply Rdiv_lt_0_compat; lra).
    set (w := next_draw p) in * . set (e := p_kinetic_energy p) in * . clearbody w e. change (F Rops) with R in * .
    assert (0 <= w * (1 / mass)) by (apply Rmult_le_pos; lra). assert (0 <= e * (w * (1 / mass))) by (apply Rmult_le_pos; lra).
    rewrite Rmult_minus_distr_l. lra.
  - injection H; intros; subst. constructor; [apply H0|constructor].
  - destruct (draw p) as [u p1] eqn:E1.
    assert (Hp1 : p_kinetic_energy p1 = p_kinetic_energy p) by (unfold draw in E1; injection E1; intros; subst; reflexivity).
    rb H as n0 En.
    assert (Hmulti : forall n0,
      (do _ <- rassert (n0 <? 5)%N;
       (let '(energy, angle, p2) := draw_fission p1 in
        let (out, p3) := draw_fission_n (N.to_nat (n0 - 1)) p2 in
        let (seeds, p4) := spawn_n (N.to_nat (n0 - 1)) p3 in
        let sec := map (fun '(seed, (e, a)) => secondary p4 seed e a) (combine seeds out) in
        Ok (n0, update_trajectory p4 energy angle, sec))) = Ok (n, p', nx) ->
      Forall (fun q : particle Rops => p_kinetic_energy q <= top) (p' :: nx)).
    { clear H En n0. intros n0 H. rb H as t Et'.
      pose proof (fission_top p1) as Hd. destruct (draw_fission p1) as [[e a] p2]. cbn [fst] in Hd.
      pose proof (fissions_top (N.to_nat (n0 - 1)) p2) as Hn.
      destruct (draw_fission_n _ p2) as [out p3]. destruct (spawn_n _ p3) as [seeds p4]. cbn [fst] in Hn.
      cbv zeta in H. injection H; intros; subst; clear H. constructor; [rewrite updated_energy; change (F Rops) with R in * ; lra|].
      apply Forall_forall. intros q Hq. apply in_map_iff in Hq as ((seed & e' & a') & <- & Hin).
      unfold secondary. rewrite updated_energy. apply in_combine_r in Hin. rewrite Forall_forall in Hn. specialize (Hn _ Hin). cbn [fst] in Hn.
      change (F Rops) with R in * . lra. }
    destruct n0 as [|[x|x|]].
    + injection H; intros; subst. constructor; [rewrite Hp1; apply H0|constructor].
    + exact (Hmulti _ H).
    + exact (Hmulti _ H).
    + pose proof (fission_top p1) as Hd. destruct (draw_fission p1) as [[e a] p2]. injection H; intros; subst.
      constructor; [rewrite updated_energy; cbn [fst] in Hd; change (F Rops) with R in * ; lra|constructor].
Qed.

Lemma step_lively td dom (p : particle Rops) e keep p' nx top : seg_step td dom p e keep p' nx -> on_time p -> heavy td -> 20 <= top -> lively top p ->
  Forall (fun q => lively top q /\ on_time q) (p' :: nx).
Proof.
  intros H Ht Hh Htop (He & Hl). pose proof (seg_clock_exact _ _ _ _ _ _ _ H Ht Hh He) as C. destruct (seg_clock _ _ _ _ _ _ _ H Ht) as (T & _).
  assert (U : Forall (fun q : particle Rops => p_kinetic_energy q <= top) (p' :: nx)).
  { destruct (on_time_enters _ Ht) as (E1 & E2).
    inversion H as [? xs p1 cs cur p2 cfuel r mat n p3 ? g ? Ho p1' Hcs Hcur Hpick Hmat Hcol Hg Hp'|? xs p1 conn fa p2 ? Ho p1' Hconn Hfa Hev Hm|? xs p1 Ho]; subst;
      rewrite E1, E2 in Ho; destruct (outcome_clock _ _ _ _ _ _ Ho (speed_nonneg p) Ht) as (_ & _ & _ & _ & _ & _ & Ae).
    - assert (Hp2 : p_kinetic_energy p2 = p_kinetic_energy p1).
      { unfold get_current_xs, draw in Hcur. injection Hcur; intros; subst. reflexivity. }
      assert (Hmass : 1 < mat_mass mat) by (unfold heavy in Hh; rewrite Forall_forall in Hh; apply Hh; exact (vec_get_in _ _ _ Hmat)).
      pose proof (collision_top p2 r (mat_mass mat) top n p3 nx ltac:(change (F Rops) with R in * ; lra) Htop Hcol) as G.
      rewrite Hp2, Ae in G. specialize (G (conj (Rlt_le _ _ He) Hl)). constructor; [|exact (Forall_inv_tail G)].
      destruct (1 <=? n)%N; exact (Forall_inv G).
    - destruct (facet_keeps dom _ _ _ _ Hev Hm) as (_ & _ & C2). constructor; [|constructor]. rewrite C2, Ae. exact Hl.
    - constructor; [|constructor]. change (p_kinetic_energy p1 <= top). rewrite Ae. exact Hl. }
  clear - C T U. revert C T U. generalize (p' :: nx). induction l as [|q l IH]; intros C T U; constructor.
  - split; [split; [exact (proj2 (Forall_inv C))|exact (Forall_inv U)]|exact (proj1 (Forall_inv T))].
  - apply IH; [exact (Forall_inv_tail C)|exact (Forall_inv_tail T)|exact (Forall_inv_tail U)].
Qed.

(** ** A run *)

Lemma prepared_same (td : track_data Rops) (p q : particle Rops) : prepare_particle td p = Ok q -> p_kinetic_energy q = p_kinetic_energy p /\
  p_coordinate q = p_coordinate p /\ p_age q = Rmax (p_age p) 0 /\ p_num_mean_free_paths q = p_num_mean_free_paths p /\
  p_time_to_census q = (if Rleb (p_time_to_census p) 0 then p_time_to_census p + td_dt td else p_time_to_census p).
Proof.
  unfold prepare_particle. intros H. rb H as gr Eg. apply Ok_inj in H. subst q. cbn [fle f0 Rops]. destruct (Rleb _ 0); repeat split.
Qed.
Lemma started_lively g pt (md : mcdata Rops) (p : particle Rops) top : 0 < sp_e_min (mc_params md) <= sp_e_max (mc_params md) -> sp_e_max (mc_params md) <= top ->
  starts_inside g pt md p -> lively top p.
Proof.
  intros He Ht (c & r1 & r2 & _ & _ & _ & H1 & _ & E & _). unfold lively. rewrite E.
  set (a := sp_e_min _) in * . set (b := sp_e_max _) in * . clearbody a b. change (F Rops) with R in * . nra.
Qed.

Theorem run_lively g bc pt geoms mats dom fuel cf (md : mcdata Rops) n s hs : built_domain g bc pt geoms mats dom -> sized g ->
  0 <= td_dt (mc_track md) -> heavy (mc_track md) -> 0 < sp_e_min (mc_params md) <= sp_e_max (mc_params md) ->
  run_log fuel cf md dom n s hs -> (n <= sp_n_steps (mc_params md))%N ->
  let top := Rmax (sp_e_max (mc_params md)) 20 in Forall (happens_lively top) hs /\ Forall (lively top) (processed (s_cont s)).
Proof.
  intros D Hs Hdt Hh He H Hn top. assert (T1 : 20 <= top) by apply Rmax_r. assert (T2 : sp_e_max (mc_params md) <= top) by apply Rmax_l.
  destruct (run_fine (happens_lively top) (fun _ => True) (fun p => lively top p /\ on_time p) g bc pt geoms mats dom fuel cf md hs n s hs D Hs Hdt) as (A & A2).
  - intros dom' p e keep p' nx _ Hst (Hl & Ht). pose proof (step_lively _ _ _ _ _ _ _ top Hst Ht Hh T1 Hl) as S.
    split; [split; [exact Hl|exact (proj1 (Forall_inv S))]|]. intros _. split; [intros _; exact (Forall_inv S)|exact (Forall_inv_tail S)].
  - intros p q Hp (Hl & Ht & Hm). destruct (prepared_same _ _ _ Hp) as (E1 & _ & _ & E2 & E3). split; [unfold lively; rewrite E1; exact Hl|].
    split; [|rewrite E2; exact Hm]. rewrite E3. destruct (Rleb _ 0); [|exact Ht]. change (F Rops) with R in * . lra.
  - unfold same_but_weight. intros p q <- Hp. exact Hp.
  - intros p _ St Ht. pose proof (started_lively _ _ _ _ top He T2 St) as Hl. split; [exact Hl|]. intros _. split; assumption.
  - exact H.
  - exact Hn.
  - apply incl_refl.
  - assert (All : forall l : list happening, Forall (fun _ => True) l) by (intros l; apply Forall_forall; auto).
    split; [|eapply Forall_impl; [|exact (A2 (All _))]; intros p Hp; apply Hp].
    apply Forall_forall. intros h Hin. apply in_split in Hin. destruct Hin as (l1 & l2 & E). exact (fine_at _ _ _ A _ _ _ E (All _)).
Qed.

Theorem run_light g bc pt geoms mats dom fuel cf (md : mcdata Rops) n s hs : built_domain g bc pt geoms mats dom -> sized g -> fits g ->
  0 <= td_dt (mc_track md) -> heavy (mc_track md) -> 0 < sp_e_min (mc_params md) <= sp_e_max (mc_params md) ->
  run_log fuel cf md dom n s hs -> (n <= sp_n_steps (mc_params md))%N ->
  (forall hs1 h hs2, hs = hs1 ++ h :: hs2 -> Forall (clean g) hs1 -> happens_swiftly h) /\
  (Forall (clean g) hs -> Forall (reached_from hs) (processed (s_cont s))).
Proof.
  intros D Hs Hfit Hdt Hh He H Hn. set (top := Rmax (sp_e_max (mc_params md)) 20). assert (T1 : 20 <= top) by apply Rmax_r. assert (T2 : sp_e_max (mc_params md) <= top) by apply Rmax_l.
  assert (L0 : 0 < light_speed (K := Rops)) by (rewrite light_R; lra).
  destruct (run_fine happens_swiftly (clean g) (fun p => flying g pt p /\ lively top p /\ reached_from hs p) g bc pt geoms mats dom fuel cf md hs n s hs D Hs Hdt) as (A & A2).
  - intros dom' p e keep p' nx B Hst (Hf & Hl & b & Hb & Hr). pose proof Hf as (_ & _ & Ht). pose proof (step_lively _ _ _ _ _ _ _ top Hst Ht Hh T1 Hl) as S.
    pose proof (step_flew g bc pt dom' B Hs Hfit _ _ _ _ _ _ Hst Hf (proj1 Hl)) as Fl.
    split; [split; [split; [apply speed_pos; apply Hl|apply below_light, Rlt_le; apply Hl]|exact (Forall_inv Fl)]|]. intros Hc.
    destruct (step_home g bc pt dom' B Hs Hfit _ _ _ _ _ _ Hst Hf) as (_ & Hm). destruct (Hm Hc) as (Hm1 & Hm2).
    assert (Re : forall q, flew_to p q -> reached_from hs q).
    { intros q Hq. exists b. split; [exact Hb|]. destruct (flew_within _ _ (proj1 Hl) Hq) as (W1 & W2).
      pose proof (apart_triangle (p_coordinate b) (p_coordinate p) (p_coordinate q)). set (c := light_speed (K := Rops)) in * . clearbody c. change (F Rops) with R in * .
      replace (c * p_age q) with (c * p_age p + c * (p_age q - p_age p)) by ring. lra. }
    split.
    + intros Hk. split; [apply Hm1; exact Hk|]. split; [exact (proj1 (Forall_inv S))|apply Re; exact (Forall_inv Fl)].
    + apply Forall_inv_tail in S. apply Forall_inv_tail in Fl. clear - Hm2 S Fl Re. induction nx as [|q nx IH]; constructor.
      * split; [exact (Forall_inv Hm2)|]. split; [exact (proj1 (Forall_inv S))|apply Re; exact (Forall_inv Fl)].
      * apply IH; [exact (Forall_inv_tail S)|exact (Forall_inv_tail Fl)|exact (Forall_inv_tail Hm2)].
  - intros p q Hp (Hf & Hl & b & Hb & Hr). destruct (prepared_same _ _ _ Hp) as (E1 & E2 & E3 & _). split; [exact (prepared_flies g pt _ _ _ Hdt Hp Hf)|].
    split; [unfold lively; rewrite E1; exact Hl|]. exists b. split; [exact Hb|]. rewrite E2, E3.
    eapply Rle_trans; [exact Hr|]. apply Rmult_le_compat_l; [apply Rlt_le; exact L0|apply Rmax_l].
  - unfold same_but_weight. intros p q <- Hp. exact Hp.
  - intros p Hin St Ht. split; [exact I|]. intros Hc. split; [apply (starts_flying g pt md p St Ht); exact Hc|].
    split; [exact (started_lively _ _ _ _ top He T2 St)|]. exists p. split; [exact Hin|]. destruct St as (c & r1 & r2 & _ & _ & _ & _ & _ & _ & _ & _ & E).
    rewrite apart_same, E. apply Rmult_le_pos; [apply Rlt_le; exact L0|lra].
  - exact H.
  - exact Hn.
  - apply incl_refl.
  - split; [exact (fine_at _ _ _ A)|]. intros Hc. eapply Forall_impl; [|exact (A2 Hc)]. intros p Hp. apply Hp.
Qed.
