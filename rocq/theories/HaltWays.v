(** The way flown on a segment, the faces and the mean free paths (C67). *)
From Coq Require Import NArith ZArith QArith List Bool Reals Lra Lia Psatz.
From Verif Require Import Float RealOps RngModel RngLemmas ParticleModel NuclearModel MeshTypes Balance TrackModel CycleModel GridModel MeshModel GridSpec MeshSpec MeshTheorems
  TrackSpec TrackAccount PopSpec SegmentSpec NearestLemmas FacetLemmas SegmentFacts CrossingLemmas NuclearSpec OutcomeLemmas GeomSpec GeomLemmas PlaneLemmas
  StaySpec StayLemmas StaySteps StayRun SpeedSpec SpeedFacts HaltSpec HaltRng HaltGap HaltSteps.
Import ListNotations.
Local Open Scope R_scope.
Local Opaque rng_next spawn_rn_seed huge tiny.

(** ** The cross-section that a particle carries *)

Lemma updated_xs (q : particle Rops) e a : p_total_cross_section (update_trajectory q e a) = p_total_cross_section q.
Proof.
  unfold update_trajectory. rewrite draw_next. cbv zeta. unfold sample_num_mfp. rewrite draw_next. unfold rotate_direction. cbv zeta.
  destruct (flt _ _); reflexivity.
Qed.
Lemma fission_xs (p : particle Rops) e a q : draw_fission p = (e, a, q) -> p_total_cross_section q = p_total_cross_section p.
Proof. unfold draw_fission. rewrite !draw_next. cbv zeta. intros H. apply (f_equal snd) in H. cbn [snd] in H. subst q. reflexivity. Qed.
Lemma fissions_xs n : forall (p q : particle Rops) l, draw_fission_n n p = (l, q) -> p_total_cross_section q = p_total_cross_section p.
Proof.
  induction n as [|n IH]; intros p q l H; cbn [draw_fission_n] in H; [injection H as <- <-; reflexivity|].
  destruct (draw_fission p) as [[e a] p1] eqn:E1. destruct (draw_fission_n n p1) as [l2 p2] eqn:E2. injection H as <- <-.
  rewrite (IH _ _ _ E2). exact (fission_xs _ _ _ _ E1).
Qed.
Lemma spawns_xs n : forall (p q : particle Rops) l, spawn_n n p = (l, q) -> p_total_cross_section q = p_total_cross_section p.
Proof.
  induction n as [|n IH]; intros p q l H; cbn [spawn_n] in H; [injection H as <- <-; reflexivity|].
  unfold spawn in H. destruct (spawn_rn_seed _) as [s r]. destruct (spawn_n n _) as [l2 p2] eqn:E2. injection H as <- <-. exact (IH _ _ _ E2).
Qed.
Lemma collision_xs (p : particle Rops) r mass n p' nx : sample_collision p r mass = Ok (n, p', nx) -> p_total_cross_section p' = p_total_cross_section p.
Proof.
  unfold sample_collision. intros H. destruct (r_type r).
  - destruct (draw_scatter p mass) as [[e a] p1] eqn:E. injection H; intros; subst. rewrite updated_xs. unfold draw_scatter in E. rewrite !draw_next in E.
    cbv zeta in E. apply (f_equal snd) in E. cbn [snd] in E. subst p1. reflexivity.
  - injection H; intros; subst. reflexivity.
  - rewrite draw_next in H. set (p1 := set_random_number_seed p _) in H. assert (X1 : p_total_cross_section p1 = p_total_cross_section p) by reflexivity. clearbody p1.
    rb H as n0 En.
    assert (Hmulti : forall n0,
      (do _ <- rassert (n0 <? 5)%N;
       (let '(energy, angle, p2) := draw_fission p1 in
        let (out, p3) := draw_fission_n (N.to_nat (n0 - 1)) p2 in
        let (seeds, p4) := spawn_n (N.to_nat (n0 - 1)) p3 in
        let sec := map (fun '(seed, (e, a)) => secondary p4 seed e a) (combine seeds out) in
        Ok (n0, update_trajectory p4 energy angle, sec))) = Ok (n, p', nx) -> p_total_cross_section p' = p_total_cross_section p).
    { clear H En n0. intros n0 H. rb H as t Et'. destruct (draw_fission p1) as [[e a] p2] eqn:E2. destruct (draw_fission_n _ p2) as [out p3] eqn:E3.
      destruct (spawn_n _ p3) as [seeds p4] eqn:E4. cbv zeta in H. injection H; intros; subst; clear H.
      rewrite updated_xs, (spawns_xs _ _ _ _ E4), (fissions_xs _ _ _ _ E3), (fission_xs _ _ _ _ E2). exact X1. }
    destruct n0 as [|[x|x|]].
    + injection H; intros; subst. exact X1.
    + exact (Hmulti _ H).
    + exact (Hmulti _ H).
    + destruct (draw_fission p1) as [[e a] p2] eqn:E2. injection H; intros; subst. rewrite updated_xs, (fission_xs _ _ _ _ E2). exact X1.
Qed.

(** What a facet leaves alone. *)
Lemma facet_leaves (dom : domain Rops) (p1 p2 p' : particle Rops) fa :
  facet_crossing_event (set_num_segments p1 (fadd (p_num_segments p1) f1)) fa = Ok p2 ->
  match fa_event fa with
  | TransitOnProcessor => p' = p2
  | BoundaryReflection => exists planes pl, vec_get (me_geom (d_mesh dom)) (p_cell p2) = Ok planes /\ vec_get planes (p_facet p2) = Ok pl /\ p' = reflect_particle p2 pl
  | BoundaryEscape => p' = set_species (set_last_event p2 EvEscape) Unknown
  | _ => False
  end ->
  p_total_cross_section p' = p_total_cross_section p1 /\ p_num_mean_free_paths p' = p_num_mean_free_paths p1 /\ p_coordinate p' = p_coordinate p1.
Proof.
  intros Hev Hm. unfold facet_crossing_event in Hev. destruct (fa_event fa); try contradiction.
  - apply Ok_inj in Hev. subst. repeat split; reflexivity.
  - apply Ok_inj in Hev. subst p2. destruct Hm as (planes & pl & _ & _ & ->). unfold reflect_particle. destruct (flt _ _); repeat split; reflexivity.
  - rb Hev as d0 Ed. rb Hev as c0 Ec. rb Hev as f0' Ef. apply Ok_inj in Hev. subst. repeat split; reflexivity.
Qed.

Section Ways.
Variables (g : grid Rops) (bc : String.string) (pt : partition) (dom : domain Rops).
Hypothesis B : built g bc pt (d_mesh dom).
Hypothesis Hs : sized g.
Hypothesis Hfit : fits g.

(** A way inside a cell is not longer than the three sides. *)
Lemma way_inside t (x u : vec Rops) d : in_cell g t x -> in_cell g t (along x u d) -> unit_vec u -> 0 <= d -> d < huge.
Proof.
  intros H1 H2 U Hd. unfold fits in Hfit. destruct (unit_parts u U) as (Ux & Uy & Uz). destruct t as [[a b] c]. unfold in_cell, along in * . cbn [vx vy vz] in * .
  unfold unit_vec, dot in U. change (F Rops) with R in * .
  assert (Ax : Rabs (vx u) * d <= g_dx g) by (unfold Rabs; destruct (Rcase_abs _); nra).
  assert (Ay : Rabs (vy u) * d <= g_dy g) by (unfold Rabs; destruct (Rcase_abs _); nra).
  assert (Az : Rabs (vz u) * d <= g_dz g) by (unfold Rabs; destruct (Rcase_abs _); nra).
  assert (S : 1 <= Rabs (vx u) + Rabs (vy u) + Rabs (vz u)) by (unfold Rabs; destruct (Rcase_abs (vx u)), (Rcase_abs (vy u)), (Rcase_abs (vz u)); nra).
  change (F Rops) with R in * . nra.
Qed.

(** The way to the next face, along each axis. *)
Lemma step_way td p e keep p' nx c : seg_step td dom p e keep p' nx -> flying g pt p -> local_to_global pt (N.to_nat (p_cell p)) c ->
  let t := cell_idx_to_tuple (g_dims g) c in let L := flight (Flew p e p') in
  0 <= L /\
  match e with
  | SegFacet _ => keep = true -> exists f c', (f < 6)%nat /\ local_to_global pt (N.to_nat (p_cell p')) c' /\ forall a,
      let after := gap g (cell_idx_to_tuple (g_dims g) c') a (p_coordinate p') (p_direction p') in
      if match a, face_axis f with AX, AX | AY, AY | AZ, AZ => true | _, _ => false end
      then gap g t a (p_coordinate p) (p_direction p) <= L /\ after = side g a
      else gap g t a (p_coordinate p) (p_direction p) - L <= after
  | _ => True
  end.
Proof.
  intros H ((c0 & L0 & Hin & Hst) & Hu & Ht) L. unfold local_to_global in L, L0. rewrite L in L0. injection L0 as <-. fold (local_to_global pt (N.to_nat (p_cell p)) c) in L.
  destruct (on_time_enters _ Ht) as (E1 & E2). cbv zeta. set (t := cell_idx_to_tuple (g_dims g) c) in * .
  split. { cbn [flight]. apply sqrt_pos. }
  inversion H as [? xs p1 cs cur p2 cfuel r mat n p3 ? gr ? Ho p1' Hcs Hcur Hpick Hmat Hcol Hg Hp'|? xs p1 conn fa p2 ? Ho p1' Hconn Hfa Hev Hm|? xs p1 Ho]; subst; try exact I.
  rewrite E1, E2 in Ho; destruct (segment_stays g bc pt dom B Hs Hfit _ _ _ _ _ _ L Hin Hst Hu Ho) as (Hc & Hd & f & df & Hlv & Hlen & Hpos & Hx & Hface); fold t in Hlv.
  pose proof Hlv as (Hf & Hout & Hz & Hway). intros Hk.
  destruct (Hface eq_refl) as (Elen & k & Hk24 & Ek & Ekf). rewrite Elen in Hx.
  assert (Efl : flight (Flew p (SegFacet (fa_event fa)) p') = df).
  { destruct (facet_leaves dom _ _ _ _ Hev Hm) as (_ & _ & Ex). cbn [flight]. rewrite Ex, Hx. apply apart_along; [exact Hu|lra]. }
  rewrite Efl. rewrite <- Hc in L.
  assert (Hz1 : beyond g t f (p_coordinate p1) = 0) by (rewrite Hx; exact Hz).
  assert (Hat : facet_at (d_mesh dom) (N.to_nat (p_cell p1)) k fa).
  { exists conn. apply vec_get_nth in Hconn. apply vec_get_nth in Hfa. rewrite Ek, Nat2N.id in Hfa. auto. }
  pose proof (boundary_events _ _ _ _ _ _ _ _ B L Hat) as Hbe. fold t in Hbe.
  destruct (adjacency_back _ _ _ _ _ _ _ _ B L Hat) as (j & k' & fa' & Ea & _ & _ & _ & Hnext). fold t in Hnext.
  pose proof (gap_reached g t f (p_coordinate p) (p_direction p) df Hf Hu ltac:(lra) Hout Hz) as Greach.
  assert (Gfl : forall a, gap g t a (p_coordinate p) (p_direction p) - df <= gap g t a (p_coordinate p1) (p_direction p)).
  { intros a. rewrite Hx. apply gap_flown; [exact Hu|lra]. }
  assert (Same : forall a, match a, face_axis f with AX, AX | AY, AY | AZ, AZ => true | _, _ => false end = true -> a = face_axis f).
  { intros a. destruct a; destruct (face_axis f); intros X; congruence || discriminate X. }
  assert (Fin : forall t' x' u', (forall a, gap g t' a x' u' = (if match a, face_axis f with AX, AX | AY, AY | AZ, AZ => true | _, _ => false end then side g a else gap g t a (p_coordinate p1) (p_direction p))) ->
    forall a, if match a, face_axis f with AX, AX | AY, AY | AZ, AZ => true | _, _ => false end
      then gap g t a (p_coordinate p) (p_direction p) <= df /\ gap g t' a x' u' = side g a
      else gap g t a (p_coordinate p) (p_direction p) - df <= gap g t' a x' u').
  { intros t' x' u' G a. rewrite G. specialize (Same a). destruct (match a, face_axis f with AX, AX | AY, AY | AZ, AZ => true | _, _ => false end).
    - rewrite (Same eq_refl). split; [exact Greach|reflexivity].
    - apply Gfl. }
  destruct (on_boundary (g_dims g) t (k / 4)) eqn:Eb.
  - assert (Hrq : fa_event fa = BoundaryReflection \/ fa_event fa = BoundaryEscape).
    { unfold requested in Hbe. destruct (String.eqb bc _); [injection Hbe as <-; auto|]. destruct (String.eqb bc _); [injection Hbe as <-; auto|].
      destruct (String.eqb bc _); [|discriminate Hbe]. destruct (face_up _); injection Hbe as <-; auto. }
    unfold facet_crossing_event in Hev. destruct Hrq as [Er|Er]; rewrite Er in * ; [|discriminate Hk].
    apply Ok_inj in Hev. subst p2. destruct Hm as (planes & pl & G1 & G2 & ->).
    unfold p1' in G1, G2. cbn [p_cell p_facet set_last_event set_num_segments] in G1, G2. apply vec_get_nth in G1. apply vec_get_nth in G2. rewrite Ek, Nat2N.id in G2.
    destruct (reflected_in_mesh _ _ _ _ _ _ _ _ _ (set_last_event p1' EvReflection) B Hs L G1 G2) as (u' & Eu' & U1 & U3 & U2). rewrite Eu'.
    rewrite Ekf in U2, U3. cbn [p_direction set_last_event set_num_segments p1'] in U1, U3. rewrite Hd in U1, U3.
    exists f, c. split; [exact Hf|]. split; [exact L|]. fold t. cbn [p_coordinate p_direction set_direction set_last_event set_num_segments p1'].
    apply Fin. intros a. exact (gap_turned g t f a (p_coordinate p1) (p_direction p) u' Hs Hf Hout Hz1 U1 U3 U2).
  - rewrite Ekf in Eb. destruct (Hnext eq_refl) as (-> & c' & L' & Et'). rewrite Ekf in Et'.
    rewrite Hbe in * . unfold facet_crossing_event in Hev. rewrite Hbe, Ea in Hev. cbn [loc_domain loc_cell loc_facet unwrap rbind] in Hev.
    apply Ok_inj in Hev. subst p2 p'. exists f, c'. split; [exact Hf|].
    cbn [p_cell p_coordinate p_direction set_last_event set_facet set_cell set_domain set_num_segments p1']. rewrite Nat2N.id, Et', Hd. split; [exact L'|].
    apply Fin. intros a. exact (gap_crossed g _ t f a (p_coordinate p1) (p_direction p) Hs Hf Eb Hout Hz1).
Qed.

(** The number of mean free paths. *)
Lemma step_optics td p e keep p' nx X : seg_step td dom p e keep p' nx -> flying g pt p -> 0 <= p_total_cross_section p' <= X -> 1 <= X ->
  let L := flight (Flew p e p') in
  match e with
  | SegCollision _ _ => (forall n, paths_left p n -> n <= X * L) /\ (keep = true -> fresh p') /\ Forall fresh nx
  | SegFacet _ => nx = [] /\ forall n, paths_left p n -> exists n', paths_left p' n' /\ n - X * L <= n'
  | SegCensus => nx = [] /\ keep = false
  end.
Proof.
  intros H ((c & L & Hin & Hst) & Hu & Ht) HX HX1. destruct (on_time_enters _ Ht) as (E1 & E2). cbv zeta. set (t := cell_idx_to_tuple (g_dims g) c) in * .
  pose proof huge_pos as Hhuge.
  assert (Seg : forall xs o p1, outcome_after dom p (get_speed p) false xs = Ok (o, p1) ->
    0 <= p_segment_path_length p1 < huge /\ apart (p_coordinate p) (p_coordinate p1) = p_segment_path_length p1).
  { intros xs o p1 Ho. destruct (segment_stays g bc pt dom B Hs Hfit _ _ _ _ _ _ L Hin Hst Hu Ho) as (_ & _ & f & df & Hlv & Hlen & _ & Hx & _). fold t in Hlv.
    destruct Hlv as (_ & _ & _ & Hway). split.
    - split; [lra|]. apply (way_inside t (p_coordinate p) (p_direction p)); [exact Hin|apply Hway; lra|exact Hu|lra].
    - rewrite Hx. apply apart_along; [exact Hu|lra]. }
  inversion H as [? xs p1 cs cur p2 cfuel r mat n p3 ? gr ? Ho p1' Hcs Hcur Hpick Hmat Hcol Hg Hp'|? xs p1 conn fa p2 ? Ho p1' Hconn Hfa Hev Hm|? xs p1 Ho]; subst;
    rewrite E1, E2 in Ho.
  - destruct (Seg _ _ _ Ho) as (HL & EL). destruct (outcome_paths _ _ _ _ _ _ Ho) as (Exs & n0 & df & Hn0 & Hcoll & _). specialize (Hcoll eq_refl ltac:(lra)).
    assert (Hp2 : same_place p1' p2 /\ p_direction p2 = p_direction p1 /\ p_total_cross_section p2 = p_total_cross_section p1).
    { unfold get_current_xs in Hcur. rewrite draw_next in Hcur. apply (f_equal snd) in Hcur. cbn [snd] in Hcur. subst p2. split; [repeat split|split; reflexivity]. }
    destruct Hp2 as (S2 & D2 & X2).
    assert (U2 : unit_vec (p_direction p2)).
    { destruct (segment_stays g bc pt dom B Hs Hfit _ _ _ _ _ _ L Hin Hst Hu Ho) as (_ & Hd & _). rewrite D2, Hd. exact Hu. }
    pose proof (Forall_inv (collision_directions _ _ _ _ _ _ Hcol U2)) as ((A1 & _) & _).
    set (p' := (let p4 := set_energy_group p3 gr in if (1 <=? n)%N then p4 else set_species p4 Unknown)) in * .
    assert (P' : p_coordinate p' = p_coordinate p3 /\ p_total_cross_section p' = p_total_cross_section p3 /\ (fresh p3 -> fresh p')).
    { unfold p'. destruct (1 <=? n)%N; auto. }
    clearbody p'. destruct P' as (P1 & P2 & P3). rewrite P2, (collision_xs _ _ _ _ _ _ Hcol), X2, Exs in HX.
    assert (Efl : flight (Flew p (SegCollision (r_type r) n) p') = p_segment_path_length p1).
    { cbn [flight]. rewrite P1, A1, (proj1 S2). exact EL. }
    rewrite Efl. split; [|split].
    + intros n1 Hn1. rewrite (paths_unique _ _ _ Hn1 Hn0). rewrite Hcoll in * . unfold mean_path in * . destruct (Req_EM_T xs 0) as [E|E].
      * pose proof (paths_nonneg _ _ Ht Hn0). change (F Rops) with R in * . nra.
      * replace (X * (n0 * (1 / xs))) with (n0 * (X / xs)) by (field; exact E). pose proof (paths_nonneg _ _ Ht Hn0).
        assert (1 <= X / xs). { apply Rmult_le_reg_r with xs; [lra|]. unfold Rdiv. rewrite Rmult_assoc, Rinv_l by exact E. lra. }
        change (F Rops) with R in * . nra.
    + intros Hk. apply P3. apply (proj1 (collision_fresh _ _ _ _ _ _ Hcol)). apply N.leb_le. exact Hk.
    + exact (proj2 (collision_fresh _ _ _ _ _ _ Hcol)).
  - split; [reflexivity|]. destruct (Seg _ _ _ Ho) as (HL & EL). destruct (outcome_paths _ _ _ _ _ _ Ho) as (Exs & n0 & df & Hn0 & _ & Hfac). specialize (Hfac eq_refl).
    destruct Hfac as (Edf & Hlt & En). destruct (facet_leaves dom _ _ _ _ Hev Hm) as (F1 & F2 & F3). rewrite F1, Exs in HX.
    assert (Efl : flight (Flew p (SegFacet (fa_event fa)) p') = p_segment_path_length p1).
    { cbn [flight]. rewrite F3. exact EL. }
    rewrite Efl. intros n1 Hn1. rewrite (paths_unique _ _ _ Hn1 Hn0). exists (p_num_mean_free_paths p').
    rewrite F2, En. set (l := p_segment_path_length p1) in * . clearbody l. change (F Rops) with R in l.
    assert (Hlt' : l < n0 * mean_path xs). { rewrite <- Edf in Hlt. pose proof (Rmin_r huge (n0 * mean_path xs)). change (F Rops) with R in * . lra. }
    assert (M : 0 < mean_path xs /\ l / mean_path xs <= X * l).
    { unfold mean_path. destruct (Req_EM_T xs 0) as [E|E].
      - split; [lra|]. apply Rmult_le_reg_r with huge; [lra|]. unfold Rdiv. rewrite Rmult_assoc, Rinv_l by lra. assert (0 <= X * l) by nra. nra.
      - assert (0 < xs) by lra. split; [apply Rdiv_lt_0_compat; lra|]. replace (l / (1 / xs)) with (l * xs) by (field; exact E). nra. }
    destruct M as (M0 & M1). split; [|lra]. left. rewrite F2, En. split; [|reflexivity].
    assert (l / mean_path xs < n0). { apply Rmult_lt_reg_r with (mean_path xs); [exact M0|]. unfold Rdiv. rewrite Rmult_assoc, Rinv_l by lra. lra. }
    apply Rgt_not_eq. unfold Rgt. change (F Rops) with R in * . lra.
  - split; reflexivity.
Qed.

End Ways.
