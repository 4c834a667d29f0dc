(** Segments stay in their cells (C59). *)
From Coq Require Import NArith ZArith QArith Qreals List Bool Reals Lra Lia Psatz.
From Verif Require Import Float RealOps RngModel ParticleModel NuclearModel MeshTypes Balance TrackModel CycleModel GridModel MeshModel GridSpec GridLemmas
  FloodLemmas MeshFacts MeshSpec MeshTheorems TrackSpec TrackAccount CycleSpec PopSpec SegmentSpec NearestLemmas FacetLemmas SegmentFacts CrossingLemmas
  NuclearSpec OutcomeLemmas GeomSpec GeomLemmas PlaneLemmas StaySpec StayLemmas.
Import ListNotations.
Local Open Scope R_scope.
Local Opaque rng_next spawn_rn_seed huge tiny.

(** ** The place at the end of a segment *)

Lemma outcome_place (dom : domain Rops) (p : particle Rops) speed xs o q :
  outcome_after dom p speed false xs = Ok (o, q) ->
  exists ds i df dc dz, distances_now (d_mesh dom) p ds /\ facet_choice ds i df /\
    first_event dc dz df o (p_segment_path_length q) /\ 0 <= p_segment_path_length q /\
    (o = OutFacetCrossing -> p_facet q = i) /\ p_direction q = p_direction p /\ p_cell q = p_cell p /\
    (0 < df < huge -> p_coordinate q = along (p_coordinate p) (p_direction p) (p_segment_path_length q)).
Proof.
  intros H. destruct (outcome_parts _ _ _ _ _ _ _ H) as (i & df & p1 & d & En & Eo & Hd & ->).
  destruct (prepared_paths p xs) as (Hn & Hm & Ht & Ha & Hc & Hu & Hx & Hs).
  destruct (nearest_facet_first _ _ _ _ En) as (Hp1 & ds & Hds & Enf & Hh).
  destruct (end_clock p1 speed d o i) as (_ & _ & El & _ & _ & Ec & Eu & Ecl). rewrite El, Eu, Ecl.
  exists ds, i, df. do 2 eexists. split.
  { destruct Hds as (pls & A & B). exists pls. unfold plane_tolerance in B. rewrite Hc, Hx, Hu in B. rewrite Hc in A. auto. }
  pose proof (choice_right ds) as Hch. cbv zeta in Hch.
  assert (Edf : i = fst (compute_nearest (K := Rops) ds) /\ df = Rmax (snd (compute_nearest (K := Rops) ds)) 0).
  { injection Enf; intros E1 E2. split; [exact E2|exact E1]. }
  destruct Edf as (Ei & Edf). rewrite <- Ei, <- Edf in Hch. split; [exact Hch|].
  split; [apply event_is; exact Eo|]. split; [cbn [fle f0 Rops] in Hd; apply Rleb_iff in Hd; exact Hd|]. split.
  { intros ->. unfold segment_end. cbv zeta. destruct (feq d f0); reflexivity. }
  split; [destruct Hp1 as (y & ->); exact Hu|]. split; [destruct Hp1 as (y & ->); exact Hc|].
  intros (H0 & H1). rewrite Ec.
  assert (Hp : p1 = prepared_for p xs).
  { unfold nearest_facet in En. rb En as [nf0 p0] E0. rb En as t Et. injection En; intros; subst p0. clear En.
    destruct (proj2 (search_first _ _) _ _ E0) as (_ & ds' & Hds' & Enf0).
    assert (ds' = ds).
    { destruct Hds as (pls & A & B), Hds' as (pls' & A' & B'). rewrite A in A'. injection A'; intros; subst pls'. rewrite B in B'. congruence. }
    subst ds'. eapply search_stays; [exact E0| |].
    - rewrite Enf0. cbn [feq fhuge Rops]. apply Reqb_false. intros C. rewrite Edf in H1. change (IZR (10 ^ 76)) with huge in C.
      assert (E' : snd (compute_nearest (K := Rops) ds) = huge) by exact C. rewrite E' in H1. pose proof (Rmax_l huge 0). lra.
    - rewrite Enf0. apply andb_false_iff. right. cbn [fle f0 Rops]. apply Rleb_false.
      set (y := snd (compute_nearest (K := Rops) ds)) in * . unfold Rmax in Edf. destruct (Rle_dec y 0); lra. }
  subst p1. rewrite Hx, Hu. reflexivity.
Qed.

(** ** Faces and planes *)

(** On the plane of face [f] of a cell. *)
Definition on_plane_of (f : nat) (g : grid Rops) (r : vec Rops) : Prop :=
  match f with 0%nat | 1%nat => on_x_plane g r | 2%nat | 3%nat => on_y_plane g r | _ => on_z_plane g r end.

Lemma real_succ n : real_of n + 1 = real_of (n + 1).
Proof. unfold real_of. rewrite N2Z.inj_add, plus_IZR. reflexivity. Qed.

Lemma face_plane (g : grid Rops) t f (r : vec Rops) : (f < 6)%nat -> beyond g t f r = 0 -> on_plane_of f g r.
Proof.
  intros Hf H. destruct t as [[x y] z]. unfold beyond in H.
  do 6 (destruct f as [|f]; [cbn [on_plane_of]; unfold on_x_plane, on_y_plane, on_z_plane; rewrite ?real_succ in H;
    match type of H with ?v - real_of ?n * _ = 0 => exists n; lra | real_of ?n * _ - ?v = 0 => exists n; lra end|]).
  lia.
Qed.

Lemma off_faces_stays (g : grid Rops) t x u : off_faces g x -> stays_a_while g t x u.
Proof.
  intros (Hx & Hy & Hz) f Hf H. exfalso. apply (face_plane _ _ _ _ Hf) in H.
  do 6 (destruct f as [|f]; [cbn [on_plane_of] in H; contradiction|]). lia.
Qed.

Lemma off_edges_one (g : grid Rops) f f' x : (f < 6)%nat -> (f' < 6)%nat -> off_edges g x -> on_plane_of f g x -> on_plane_of f' g x ->
  face_axis f = face_axis f'.
Proof.
  intros Hf Hf' (Hxy & Hxz & Hyz) H H'.
  do 6 (destruct f as [|f]; [do 6 (destruct f' as [|f']; [cbn [on_plane_of] in H, H'; cbn [face_axis]; reflexivity || (exfalso; tauto)|]); lia|]). lia.
Qed.

(** The other face orthogonal to the same axis. *)
Lemma same_axis (g : grid Rops) t f f' x : sized g -> (f < 6)%nat -> (f' < 6)%nat -> face_axis f = face_axis f' -> f <> f' ->
  f' = opposite_face f /\ (beyond g t f x = 0 -> beyond g t f' x < 0).
Proof.
  intros (Sx & Sy & Sz) Hf Hf' Ha Hn. destruct t as [[a b] c].
  do 6 (destruct f as [|f]; [do 6 (destruct f' as [|f']; [cbn [face_axis] in Ha; first [discriminate Ha | congruence |
    split; [reflexivity|unfold beyond; intros H; lra]]|]); lia|]). lia.
Qed.

(** Across a face. *)
Lemma across (g : grid Rops) d t f x : sized g -> (f < 6)%nat -> on_boundary d t f = false -> in_cell g t x -> beyond g t f x = 0 ->
  in_cell g (one_step t f) x /\ beyond g (one_step t f) (opposite_face f) x = 0.
Proof.
  intros (Sx & Sy & Sz) Hf Hb Hin H. destruct t as [[a b] c]. unfold on_boundary in Hb. unfold one_step.
  assert (P : forall n, n <> 0%N -> real_of (n - 1) + 1 = real_of n) by (intros n Hn; rewrite real_succ; f_equal; lia).
  do 6 (destruct f as [|f]; [cbn [face_axis face_up coord size set_coord opposite_face] in * ; try apply N.eqb_neq in Hb; unfold in_cell, beyond in * ;
    cbn beta iota in * ; rewrite <- ?real_succ; rewrite ?(P _ Hb); try (pose proof (P _ Hb)); nra|]). lia.
Qed.

Lemma outward_opposite u f : (f < 6)%nat -> dot u (outward (opposite_face f)) = - dot u (outward f).
Proof. intros Hf. unfold dot. do 6 (destruct f as [|f]; [cbn [opposite_face outward vx vy vz]; rring|]). lia. Qed.

Lemma crossed_stays (g : grid Rops) d t f x u : sized g -> (f < 6)%nat -> on_boundary d t f = false -> in_cell g t x -> beyond g t f x = 0 ->
  0 < dot u (outward f) -> off_edges g x -> stays_a_while g (one_step t f) x u.
Proof.
  intros S Hf Hb Hin H0 Hu Ho f' Hf' H'. destruct (across g d t f x S Hf Hb Hin H0) as (_ & Hop).
  assert (Hof : (opposite_face f < 6)%nat) by (do 6 (destruct f as [|f]; [cbn [opposite_face]; lia|]); lia).
  pose proof (off_edges_one g (opposite_face f) f' x Hof Hf' Ho (face_plane _ _ _ _ Hof Hop) (face_plane _ _ _ _ Hf' H')) as Ha.
  destruct (Nat.eq_dec (opposite_face f) f') as [<-|Hn].
  - rewrite outward_opposite by exact Hf. lra.
  - destruct (same_axis g (one_step t f) _ _ x S Hof Hf' Ha Hn) as (_ & Hlt). specialize (Hlt Hop). lra.
Qed.

Lemma turned_stays (g : grid Rops) t f x u' : sized g -> (f < 6)%nat -> beyond g t f x = 0 -> off_edges g x ->
  dot u' (outward f) <= 0 -> stays_a_while g t x u'.
Proof.
  intros S Hf H0 Ho Hu f' Hf' H'.
  pose proof (off_edges_one g f f' x Hf Hf' Ho (face_plane _ _ _ _ Hf H0) (face_plane _ _ _ _ Hf' H')) as Ha.
  destruct (Nat.eq_dec f f') as [<-|Hn]; [exact Hu|].
  destruct (same_axis g t _ _ x S Hf Hf' Ha Hn) as (_ & Hlt). specialize (Hlt H0). lra.
Qed.

(** ** Directions after a collision *)

Lemma double_range (r : R) : 0 <= r <= 1 -> -1 <= r * @ftwo Rops - 1 <= 1.
Proof. intros H. rewrite two_R. lra. Qed.

Lemma scatter_direction (p : particle Rops) m e a q : draw_scatter p m = (e, a, q) -> p_direction q = p_direction p /\ -1 <= a <= 1.
Proof.
  unfold draw_scatter. rewrite draw_next. cbn [fst snd]. rewrite draw_next. intros H. injection H as <- <- <-. split; [reflexivity|].
  exact (double_range _ (draw_unit (set_random_number_seed p (rng_next (p_random_number_seed p))))).
Qed.
Lemma fission_direction (p : particle Rops) e a q : draw_fission p = (e, a, q) -> p_direction q = p_direction p /\ -1 <= a <= 1.
Proof.
  unfold draw_fission. rewrite draw_next. cbn [fst snd]. rewrite draw_next. intros H. injection H as <- <- <-. split; [reflexivity|].
  exact (double_range _ (draw_unit (set_random_number_seed p (rng_next (p_random_number_seed p))))).
Qed.
Lemma fission_directions n : forall (p q : particle Rops) l, draw_fission_n n p = (l, q) -> p_direction q = p_direction p /\
  Forall (fun ea : R * R => -1 <= snd ea <= 1) l.
Proof.
  induction n as [|n IH]; intros p q l H; cbn [draw_fission_n] in H.
  - injection H as <- <-. split; [reflexivity|constructor].
  - destruct (draw_fission p) as [[e a] p1] eqn:E1. destruct (draw_fission_n n p1) as [l2 p2] eqn:E2.
    injection H as <- <-. apply fission_direction in E1. destruct E1 as (S1 & P1). apply IH in E2. destruct E2 as (S2 & P2).
    split; [congruence|]. constructor; assumption.
Qed.
Lemma spawn_direction n : forall (p q : particle Rops) l, spawn_n n p = (l, q) -> p_direction q = p_direction p.
Proof.
  induction n as [|n IH]; intros p q l H; cbn [spawn_n] in H.
  - injection H as <- <-. reflexivity.
  - unfold spawn in H. destruct (spawn_rn_seed (p_random_number_seed p)) as [s r]. destruct (spawn_n n _) as [l2 p2] eqn:E2.
    injection H as <- <-. apply IH in E2. exact E2.
Qed.

Lemma collision_directions (p : particle Rops) r mass n p' nx : sample_collision p r mass = Ok (n, p', nx) -> unit_vec (p_direction p) ->
  Forall (fun q : particle Rops => same_place p q /\ unit_vec (p_direction q)) (p' :: nx).
Proof.
  intros H Hu.
  assert (Tr : forall (q : particle Rops) e a, same_place p q -> p_direction q = p_direction p -> -1 <= a <= 1 ->
    same_place p (update_trajectory q e a) /\ unit_vec (p_direction (update_trajectory q e a))).
  { intros q e a Hq Ed Ha. split; [eapply same_trans; [exact Hq|apply same_trajectory]|].
    apply (trajectory q e a); [rewrite Ed; exact Hu|exact Ha]. }
  unfold sample_collision in H. destruct (r_type r).
  - destruct (draw_scatter p mass) as [[e a] p1] eqn:E. injection H as <- <- <-. constructor; [|constructor].
    destruct (scatter_direction _ _ _ _ _ E). apply Tr; [exact (proj1 (same_scatter _ _ _ _ _ E))|assumption|assumption].
  - injection H as <- <- <-. constructor; [split; [apply same_refl|exact Hu]|constructor].
  - rewrite draw_next in H. set (p1 := set_random_number_seed p _) in H.
    assert (S1 : same_place p p1) by (repeat split). assert (D1 : p_direction p1 = p_direction p) by reflexivity. clearbody p1.
    rb H as n0 En.
    assert (Hmulti : forall n0,
      (do _ <- rassert (n0 <? 5)%N;
       (let '(energy, angle, p2) := draw_fission p1 in
        let (out, p3) := draw_fission_n (N.to_nat (n0 - 1)) p2 in
        let (seeds, p4) := spawn_n (N.to_nat (n0 - 1)) p3 in
        let sec := map (fun '(seed, (e, a)) => secondary p4 seed e a) (combine seeds out) in
        Ok (n0, update_trajectory p4 energy angle, sec))) = Ok (n, p', nx) ->
      Forall (fun q : particle Rops => same_place p q /\ unit_vec (p_direction q)) (p' :: nx)).
    { clear H En n0. intros n0 H. rb H as t Et'.
      destruct (draw_fission p1) as [[e a] p2] eqn:E2. destruct (draw_fission_n _ p2) as [out p3] eqn:E3. destruct (spawn_n _ p3) as [seeds p4] eqn:E4.
      pose proof (fission_direction _ _ _ _ E2) as (D2 & A2). pose proof (fission_directions _ _ _ _ E3) as (D3 & A3). pose proof (spawn_direction _ _ _ _ E4) as D4.
      assert (S4 : same_place p p4).
      { eapply same_trans; [exact S1|]. eapply same_trans; [exact (proj1 (same_fission _ _ _ _ E2))|].
        eapply same_trans; [exact (proj1 (fission_products _ _ _ _ E3))|exact (proj1 (same_spawns _ _ _ _ E4))]. }
      assert (D : p_direction p4 = p_direction p) by congruence.
      cbv zeta in H. injection H; intros; subst; clear H. constructor; [apply Tr; assumption|].
      apply Forall_forall. intros q Hq. apply in_map_iff in Hq as ((seed & e' & a') & <- & Hin). unfold secondary.
      apply Tr; [eapply same_trans; [exact S4|repeat split]|exact D|]. apply in_combine_r in Hin.
      exact (proj1 (Forall_forall _ _) A3 _ Hin). }
    destruct n0 as [|[x|x|]].
    + injection H as <- <- <-. constructor; [split; [exact S1|rewrite D1; exact Hu]|constructor].
    + exact (Hmulti _ H).
    + exact (Hmulti _ H).
    + destruct (draw_fission p1) as [[e a] p2] eqn:E2. pose proof (fission_direction _ _ _ _ E2) as (D2 & A2).
      injection H as <- <- <-. constructor; [|constructor]. apply Tr; [|congruence|exact A2].
      eapply same_trans; [exact S1|exact (proj1 (same_fission _ _ _ _ E2))].
Qed.

(** ** One segment *)

Section Segment.
Variables (g : grid Rops) (bc : String.string) (pt : partition) (dom : domain Rops).
Hypothesis B : built g bc pt (d_mesh dom).
Hypothesis Hs : sized g.
Hypothesis Hfit : fits g.

Lemma segment_stays (p : particle Rops) speed xs o q c :
  local_to_global pt (N.to_nat (p_cell p)) c -> in_cell g (cell_idx_to_tuple (g_dims g) c) (p_coordinate p) ->
  stays_a_while g (cell_idx_to_tuple (g_dims g) c) (p_coordinate p) (p_direction p) -> unit_vec (p_direction p) ->
  outcome_after dom p speed false xs = Ok (o, q) ->
  p_cell q = p_cell p /\ p_direction q = p_direction p /\
  exists f df, leaves_by g (cell_idx_to_tuple (g_dims g) c) (p_coordinate p) (p_direction p) f df /\
    0 <= p_segment_path_length q <= df /\ 0 < df /\
    p_coordinate q = along (p_coordinate p) (p_direction p) (p_segment_path_length q) /\
    (o = OutFacetCrossing -> p_segment_path_length q = df /\ exists k, (k < 24)%nat /\ p_facet q = N.of_nat k /\ (k / 4)%nat = f).
Proof.
  intros L Hin Hst Hu H. destruct (outcome_place _ _ _ _ _ _ H) as (ds & i & df & dc & dz & Hds & Hch & Hev & H0 & Hf & Hd & Hc & Hpl).
  destruct (nearest_exit g bc pt (d_mesh dom) (N.to_nat (p_cell p)) c B Hs Hfit L p ds i df) as (Hi & Hdf & Hlv); try assumption.
  { rewrite N2Nat.id. reflexivity. }
  split; [exact Hc|]. split; [exact Hd|]. exists (N.to_nat i / 4)%nat, df. split; [exact Hlv|].
  split; [split; [exact H0|]|split; [lra|split; [apply Hpl; exact Hdf|]]].
  - destruct o; cbn [first_event] in Hev; lra.
  - intros ->. split; [apply Hev|]. exists (N.to_nat i). split; [exact Hi|]. rewrite N2Nat.id. split; [apply Hf; reflexivity|reflexivity].
Qed.

Lemma step_home td p e keep p' nx : seg_step td dom p e keep p' nx -> flying g pt p ->
  at_home g pt p' /\
  (clean g (Flew p e p') -> (keep = true \/ e = SegCensus -> flying g pt p') /\ Forall (flying g pt) nx).
Proof.
  intros H ((c & L & Hin & Hst) & Hu & Ht). destruct (on_time_enters _ Ht) as (E1 & E2).
  destruct (seg_clock _ _ _ _ _ _ _ H Ht) as (Hck & _). pose proof (Forall_inv Hck) as (Hck1 & _). apply Forall_inv_tail in Hck.
  set (t := cell_idx_to_tuple (g_dims g) c) in * .
  inversion H as [? xs p1 cs cur p2 cfuel r mat n p3 ? gr ? Ho p1' Hcs Hcur Hpick Hmat Hcol Hg Hp'|? xs p1 conn fa p2 ? Ho p1' Hconn Hfa Hev Hm|? xs p1 Ho]; subst;
    rewrite E1, E2 in Ho; destruct (segment_stays _ _ _ _ _ _ L Hin Hst Hu Ho) as (Hc & Hd & f & df & Hlv & Hlen & Hpos & Hx & Hface); fold t in Hlv;
    pose proof Hlv as (Hf & Hout & Hz & Hway);
    (assert (Hin1 : in_cell g t (p_coordinate p1)) by (rewrite Hx; apply Hway; lra)); rewrite <- Hc in L; rewrite <- Hd in Hu.
  - (* collision *)
    assert (Hp2 : same_place p1' p2 /\ p_direction p2 = p_direction p1).
    { unfold get_current_xs in Hcur. rewrite draw_next in Hcur. injection Hcur as <- <-. split; [repeat split|reflexivity]. }
    destruct Hp2 as (S2 & D2). rewrite <- D2 in Hu. pose proof (collision_directions _ _ _ _ _ _ Hcol Hu) as Hdir.
    assert (At : forall q : particle Rops, same_place p2 q -> p_cell q = p_cell p1 /\ p_coordinate q = p_coordinate p1).
    { intros q Sq. pose proof (same_trans _ _ _ S2 Sq) as (A1 & _ & _ & _ & _ & A2 & _). split; [exact A2|exact A1]. }
    pose proof (Forall_inv Hdir) as (S3 & U3). apply Forall_inv_tail in Hdir. destruct (At p3 S3) as (C3 & X3).
    set (p' := (let p4 := set_energy_group p3 gr in if (1 <=? n)%N then p4 else set_species p4 Unknown)) in * .
    assert (P' : p_cell p' = p_cell p1 /\ p_coordinate p' = p_coordinate p1 /\ unit_vec (p_direction p')).
    { unfold p'. destruct (1 <=? n)%N; auto. }
    clearbody p'. destruct P' as (Cp & Xp & Up). split.
    { exists c. rewrite Cp, Xp. auto. }
    intros Hcl. cbn [clean] in Hcl. split.
    + intros _. split; [|split; [exact Up|exact Hck1]]. exists c. rewrite Cp, Xp in * . split; [exact L|]. split; [exact Hin1|apply off_faces_stays; exact Hcl].
    + rewrite Xp in Hcl. clear - Hdir Hck At L Hin1 Hcl. induction Hdir as [|q l (Sq & Uq) _ IH]; constructor; [|apply IH; exact (Forall_inv_tail Hck)].
      destruct (At q Sq) as (Cq & Xq). split; [|split; [exact Uq|exact (proj1 (Forall_inv Hck))]]. exists c. rewrite Cq, Xq.
      split; [exact L|]. split; [exact Hin1|apply off_faces_stays; exact Hcl].
  - (* facet *)
    destruct (Hface eq_refl) as (Elen & k & Hk & Ek & Ekf). rewrite Elen in Hx.
    assert (Hz1 : beyond g t f (p_coordinate p1) = 0) by (rewrite Hx; exact Hz).
    rewrite Hd in Hu. rewrite <- Hd in Hout.
    assert (Hat : facet_at (d_mesh dom) (N.to_nat (p_cell p1)) k fa).
    { exists conn. apply vec_get_nth in Hconn. apply vec_get_nth in Hfa. rewrite Ek, Nat2N.id in Hfa. auto. }
    pose proof (boundary_events _ _ _ _ _ _ _ _ B L Hat) as Hbe. fold t in Hbe.
    destruct (adjacency_back _ _ _ _ _ _ _ _ B L Hat) as (j & k' & fa' & Ea & _ & _ & _ & Hnext). fold t in Hnext.
    destruct (on_boundary (g_dims g) t (k / 4)) eqn:Eb.
    + (* boundary *)
      assert (Hrq : fa_event fa = BoundaryReflection \/ fa_event fa = BoundaryEscape).
      { unfold requested in Hbe. destruct (String.eqb bc _); [injection Hbe as <-; auto|]. destruct (String.eqb bc _); [injection Hbe as <-; auto|].
        destruct (String.eqb bc _); [|discriminate Hbe]. destruct (face_up _); injection Hbe as <-; auto. }
      unfold facet_crossing_event in Hev. destruct Hrq as [Er|Er]; rewrite Er in * .
      * apply Ok_inj in Hev. subst p2. destruct Hm as (planes & pl & G1 & G2 & ->).
        unfold p1' in G1, G2. cbn [p_cell p_facet set_last_event set_num_segments] in G1, G2. apply vec_get_nth in G1. apply vec_get_nth in G2. rewrite Ek, Nat2N.id in G2.
        destruct (reflected_in_mesh _ _ _ _ _ _ _ _ _ (set_last_event p1' EvReflection) B Hs L G1 G2) as (u' & Eu' & U1 & _ & U2). rewrite Eu' in * .
        rewrite Ekf in U2. cbn [p_direction set_last_event set_num_segments p1'] in U1. split.
        { exists c. auto. }
        intros Hcl. cbn [clean p_coordinate set_direction set_last_event set_num_segments p1'] in Hcl. split; [|constructor]. intros _.
        split; [|split; [|exact Hck1]].
        { exists c. split; [exact L|]. split; [exact Hin1|]. apply (turned_stays g t f); assumption. }
        { cbn [p_direction set_direction]. unfold unit_vec. rewrite U1, Hd. exact Hu. }
      * apply Ok_inj in Hev. subst p2 p'. split; [exists c; auto|].
        intros _. split; [intros [C|C]; discriminate C|constructor].
    + rewrite Ekf in Eb. destruct (Hnext eq_refl) as (-> & c' & L' & Et'). rewrite Ekf in Et'.
      rewrite Hbe in * . unfold facet_crossing_event in Hev. rewrite Hbe, Ea in Hev. cbn [loc_domain loc_cell loc_facet unwrap rbind] in Hev.
      apply Ok_inj in Hev. subst p2 p'. destruct (across g _ t f _ Hs Hf Eb Hin1 Hz1) as (Hin2 & _). split.
      { exists c'. cbn [p_cell p_coordinate set_last_event set_facet set_cell]. rewrite Nat2N.id, Et'. auto. }
      intros Hcl. cbn [clean p_coordinate set_last_event set_facet set_cell set_domain set_num_segments p1'] in Hcl. split; [|constructor].
      intros _. split; [|split; [|exact Hck1]].
      { exists c'. cbn [p_cell p_coordinate p_direction set_last_event set_facet set_cell set_domain set_num_segments p1']. rewrite Nat2N.id, Et'.
        split; [exact L'|]. split; [exact Hin2|]. apply (crossed_stays g (g_dims g)); assumption. }
      { cbn [p_direction set_last_event set_facet set_cell set_domain set_num_segments p1']. rewrite Hd. exact Hu. }
  - (* census *)
    split; [exists c; auto|]. intros Hcl. cbn [clean p_coordinate set_num_segments] in Hcl. split; [|constructor]. intros _.
    split; [|split; [exact Hu|exact Hck1]]. exists c. split; [exact L|]. split; [exact Hin1|]. apply off_faces_stays. exact Hcl.
Qed.

End Segment.
