(** One segment: the event that ends it and the clock of the particle. *)
From Coq Require Import NArith ZArith QArith Qreals List Bool Lia Reals Lra.
From Verif Require Import Float RealOps RngModel RngLemmas ParticleModel NuclearModel MeshTypes Balance TrackModel CycleModel
  TrackSpec CycleSpec TrackAccount CycleAccount CycleFacts PopSpec RangeSpec RangeFacts SourceLemmas RunKeeps SegmentSpec NearestLemmas FacetLemmas.
Import ListNotations.
Local Open Scope N_scope.
Local Opaque rng_next spawn_rn_seed.

Section Any.
Context {K : FloatOps}.

(** The particle before the search of the facet. *)
Definition prepared_for (p : particle K) (xs : F K) : particle K :=
  let p := set_mean_free_path (set_total_cross_section p xs) (if feq xs f0 then fhuge else fdiv f1 xs) in
  if feq (p_num_mean_free_paths p) f0 then sample_num_mfp p else p.
(** The handler before the forced collision. *)
Definition nearest_event (p : particle K) (speed df : F K) : F K * segment_outcome :=
  handler_update (handler_update (handler_update handler_default OutCollision (fmul (p_num_mean_free_paths p) (p_mean_free_path p)))
    OutCensus (fmul speed (p_time_to_census p))) OutFacetCrossing df.
(** The particle once the event is known; [p] has been moved by the search. *)
Definition segment_end (p : particle K) (speed d : F K) (o : segment_outcome) (facet : N) : particle K :=
  let p := set_segment_path_length (set_normal_dot p f0) d in
  let p := set_num_mean_free_paths p (fsub (p_num_mean_free_paths p) (fdiv (p_segment_path_length p) (p_mean_free_path p))) in
  let p :=
    match o with
    | OutCollision => set_last_event (set_num_mean_free_paths p f0) EvCollision
    | OutFacetCrossing => set_last_event (set_facet p facet) EvTransitExit
    | OutCensus => set_last_event (set_time_to_census p (fmin f0 (p_time_to_census p))) EvCensus
    end in
  if feq d f0 then p else
  let p := move_particle_along_segment p in
  let t := fdiv d speed in
  let p := set_time_to_census p (fsub (p_time_to_census p) t) in
  let p := set_age p (fadd (p_age p) t) in
  set_time_to_census p (fmax (p_time_to_census p) f0).

Lemma outcome_parts (dom : domain K) p speed force xs o q :
  outcome_after dom p speed force xs = Ok (o, q) ->
  exists i df p1 d, nearest_facet (prepared_for p xs) (d_mesh dom) = Ok ((i, df), p1) /\
    (d, o) = (if force then (ftiny, OutCollision) else nearest_event (prepared_for p xs) speed df) /\
    fle f0 d = true /\ q = segment_end p1 speed d o i.
Proof.
  intros H. unfold outcome_after in H. fold (prepared_for p xs) in H. cbv zeta in H.
  rb H as [[i df] p1] E.
  match type of H with (let '(_, _) := ?h in _) = _ => remember h as hh eqn:Eh; destruct hh as [d o'] end.
  rb H as t Et. exists i, df, p1, d. split; [exact E|].
  assert (Eo : o' = o /\ q = segment_end p1 speed d o' i).
  { unfold segment_end. destruct o';
      match type of H with (if ?c then _ else _) = _ => destruct c eqn:Ec end; injection H; intros; subst;
      (split; [reflexivity|]); cbn [p_segment_path_length set_last_event set_facet set_num_mean_free_paths set_segment_path_length set_time_to_census] in Ec;
      cbv zeta; rewrite Ec; reflexivity. }
  destruct Eo as (<- & ->). split; [|split; [|reflexivity]].
  - rewrite Eh. destruct force; reflexivity.
  - destruct (fle f0 d); [reflexivity|discriminate].
Qed.

Lemma forced_collision (dom : domain K) p speed xs o q : outcome_after dom p speed true xs = Ok (o, q) ->
  o = OutCollision /\ p_segment_path_length q = ftiny.
Proof.
  intros H. destruct (outcome_parts _ _ _ _ _ _ _ H) as (i & df & p1 & d & _ & E & _ & ->).
  injection E; intros; subst. split; [reflexivity|]. unfold segment_end. cbv zeta. destruct (feq _ f0); reflexivity.
Qed.

Lemma run_outcome td dom (p : particle K) ng m o q m' : run_seq ng (outcome td dom p) m = Ok ((o, q), m') ->
  exists xs, xs_found td dom ng m p xs /\ outcome_after dom (entering p) (get_speed p) (out_of_paths p) xs = Ok (o, q).
Proof.
  unfold outcome. fold (out_of_paths p). cbv zeta.
  replace (p_cell (if out_of_paths p then set_num_mean_free_paths p fsmall else p)) with (p_cell p) by (destruct (out_of_paths p); reflexivity).
  replace (p_energy_group (if out_of_paths p then set_num_mean_free_paths p fsmall else p)) with (p_energy_group p) by (destruct (out_of_paths p); reflexivity).
  fold (entering p). unfold get_xs. cbn [pbind run_seq]. intros H. rb H as v Ev.
  assert (Hv : nth_error (m_cache m) (N.to_nat (slot ng (p_cell p) (p_energy_group p))) = Some v).
  { unfold vec_get in Ev. destruct (nth_error _ _); [|discriminate]. cbn in Ev. congruence. }
  assert (G : forall xs m0, run_seq ng (lift (outcome_after dom (entering p) (get_speed p) (out_of_paths p) xs)) m0 = Ok ((o, q), m') ->
    outcome_after dom (entering p) (get_speed p) (out_of_paths p) xs = Ok (o, q)).
  { intros xs m0 G. destruct (outcome_after _ _ _ _ xs) as [[o' q']| |]; cbn in G; [|discriminate|discriminate]. congruence. }
  destruct (flt f0 v) eqn:Ef; cbn [pbind] in H.
  - exists v. split; [exists v; rewrite Ef; auto|]. exact (G _ _ H).
  - destruct (cell_cross_section td dom (p_cell p) (p_energy_group p)) as [xs| |] eqn:Ex; cbn [lift pbind run_seq] in H; try discriminate.
    rb H as w Ew. exists xs. split; [exists v; rewrite Ef; auto|]. exact (G _ _ H).
Qed.

Lemma Ok_inj {A} (a b : A) : Ok a = Ok b -> a = b. Proof. congruence. Qed.

(** A sourced particle. *)
Lemma generate_parts (p : particle K) m c v x q : generate_coordinate_3dg p m c v = Ok (x, q) ->
  q = set_random_number_seed p (rng_next (rng_next (rng_next (rng_next (p_random_number_seed p))))).
Proof.
  unfold generate_coordinate_3dg, draw. intros H. rb H as center Hc. rb H as points Hpt.
  destruct (fold_barycentric _ _ _) as [[[a b] cc] d]. destruct points as [[q0 q1] q2]. injection H; intros; subst. reflexivity.
Qed.

Lemma source_parts (md : mcdata K) w dom c v x p : source_particle md w dom c v x = Ok p ->
  exists s coord q,
    generate_coordinate_3dg (set_identifier (set_random_number_seed particle_default (fst (spawn_rn_seed x))) s) (d_mesh dom) c v = Ok (coord, q) /\
    let s1 := rng_next (p_random_number_seed q) in let s2 := rng_next s1 in let s3 := rng_next s2 in
    let s4 := rng_next s3 in let s5 := rng_next s4 in
    p = set_time_to_census (set_random_number_seed (set_num_mean_free_paths (set_kinetic_energy (set_direction
          (set_weight (set_cell (set_domain (set_coordinate (set_identifier particle_default s) coord) (d_global_domain dom)) c) w)
          (p_direction (sample_isotropic q)))
          (fadd (fmul (fsample s3) (fsub (sp_e_max (mc_params md)) (sp_e_min (mc_params md)))) (sp_e_min (mc_params md))))
          (fmul (fneg f1) (fln (fsample s4)))) s5) (fmul (td_dt (mc_track md)) (fsample s5)).
Proof.
  unfold source_particle. destruct (spawn_rn_seed x) as [sd s] eqn:Es. intros H. rb H as [coord q] E. exists s, coord, q.
  split; [cbn [fst]; exact E|]. pose proof (generate_parts _ _ _ _ _ _ E) as Eq. clear E Es.
  apply Ok_inj in H. rewrite <- H, Eq. clear H Eq. generalize (rng_next (rng_next (rng_next (rng_next sd)))). intros t. reflexivity.
Qed.

(** What a collision leaves of the clock. *)
Definition clock (p : particle K) : F K * F K := (p_time_to_census p, p_age p).

Lemma update_trajectory_clock (p : particle K) e a : clock (update_trajectory p e a) = clock p.
Proof. unfold update_trajectory, draw, rotate_direction, sample_num_mfp, draw. cbv zeta. destruct (flt _ (flit (1 # 1000000))); reflexivity. Qed.
Lemma draw_fission_n_clock n : forall (p : particle K), clock (snd (draw_fission_n n p)) = clock p.
Proof.
  induction n as [|n IH]; intros p; cbn [draw_fission_n]; [reflexivity|].
  unfold draw_fission, draw. cbv zeta.
  match goal with |- context [draw_fission_n n ?q] => specialize (IH q); destruct (draw_fission_n n q) as [l p2] end.
  exact IH.
Qed.
Lemma spawn_n_clock n : forall (p : particle K), clock (snd (spawn_n n p)) = clock p.
Proof.
  induction n as [|n IH]; intros p; cbn [spawn_n]; [reflexivity|].
  unfold spawn. destruct (spawn_rn_seed _) as [s r].
  match goal with |- context [spawn_n n ?q] => specialize (IH q); destruct (spawn_n n q) as [l p2] end. exact IH.
Qed.

Lemma collision_clock (p : particle K) r mass n p' nx : sample_collision p r mass = Ok (n, p', nx) ->
  clock p' = clock p /\ Forall (fun q => clock q = clock p) nx.
Proof.
  unfold sample_collision. destruct (r_type r).
  - unfold draw_scatter, draw. cbv zeta. intros H. injection H; intros; subst. rewrite update_trajectory_clock. split; [reflexivity|constructor].
  - intros H. injection H; intros; subst. split; [reflexivity|constructor].
  - destruct (draw p) as [u p1] eqn:E1.
    assert (Hp1 : clock p1 = clock p) by (unfold draw in E1; injection E1; intros; subst; reflexivity).
    intros H. rb H as n0 En.
    assert (Hmulti : forall n0,
      (do _ <- rassert (n0 <? 5);
       (let '(energy, angle, p2) := draw_fission p1 in
        let (out, p3) := draw_fission_n (N.to_nat (n0 - 1)) p2 in
        let (seeds, p4) := spawn_n (N.to_nat (n0 - 1)) p3 in
        let sec := map (fun '(seed, (e, a)) => secondary p4 seed e a) (combine seeds out) in
        Ok (n0, update_trajectory p4 energy angle, sec))) = Ok (n, p', nx) ->
      clock p' = clock p /\ Forall (fun q => clock q = clock p) nx).
    { clear H En n0. intros n0 H. rb H as t Et'.
      destruct (draw_fission p1) as [[e a] p2] eqn:Ed.
      assert (Hp2 : clock p2 = clock p) by (rewrite <- Hp1; unfold draw_fission, draw in Ed; injection Ed; intros; subst; reflexivity).
      pose proof (draw_fission_n_clock (N.to_nat (n0 - 1)) p2) as Hn. destruct (draw_fission_n _ p2) as [out p3].
      pose proof (spawn_n_clock (N.to_nat (n0 - 1)) p3) as Hs. destruct (spawn_n _ p3) as [seeds p4]. cbn [snd] in * .
      cbv zeta in H. injection H; intros; subst; clear H.
      assert (Hc : clock p4 = clock p) by congruence. split; [rewrite update_trajectory_clock; exact Hc|].
      apply Forall_forall. intros q Hq. apply in_map_iff in Hq as ((seed & e' & a') & <- & Hin).
      unfold secondary. rewrite update_trajectory_clock. exact Hc. }
    destruct n0 as [|[x|x|]].
    + injection H; intros; subst. auto.
    + exact (Hmulti _ H).
    + exact (Hmulti _ H).
    + destruct (draw_fission p1) as [[e a] p2] eqn:Ed.
      assert (Hp2 : clock p2 = clock p) by (rewrite <- Hp1; unfold draw_fission, draw in Ed; injection Ed; intros; subst; reflexivity).
      injection H; intros; subst. rewrite update_trajectory_clock. auto.
Qed.

End Any.

Local Open Scope R_scope.
Local Opaque huge tiny.

Lemma sample_unit s : (s < two64)%N -> 0 <= fsample (f := Rops) s <= 1.
Proof.
  intros Hs. cbn [fsample Rops]. pose proof (round53_le s Hs) as HL.
  assert (H2 : 0 < IZR (Z.of_N two64)) by (apply (IZR_lt 0); reflexivity).
  assert (H : 0 <= IZR (Z.of_N (round53 s)) <= IZR (Z.of_N two64)) by (split; apply IZR_le; lia).
  split; [apply Rmult_le_pos; [lra|left; apply Rinv_0_lt_compat; lra]|].
  apply Rmult_le_reg_r with (IZR (Z.of_N two64)); [lra|]. unfold Rdiv. rewrite Rmult_assoc, Rinv_l by lra. lra.
Qed.
Lemma draw_unit (p : particle Rops) : 0 <= next_draw p <= 1.
Proof. apply sample_unit, rng_next_lt. Qed.
Lemma minus_ln_pos r : 0 <= r <= 1 -> 0 <= - ln r.
Proof.
  intros (H0 & H1). destruct (Rle_lt_or_eq_dec _ _ H0) as [H|H].
  - destruct (Rle_lt_or_eq_dec _ _ H1) as [H'|H']; [pose proof (ln_increasing r 1 H H'); rewrite ln_1 in *; lra|subst r; rewrite ln_1; lra].
  - subst r. unfold ln. destruct (Rlt_dec 0 0) as [C|C]; [exfalso; exact (Rlt_irrefl _ C)|]. rewrite Ropp_0. apply Rle_refl.
Qed.

Lemma prepared_paths (p : particle Rops) xs : 
  paths_left p (p_num_mean_free_paths (prepared_for p xs)) /\
  p_mean_free_path (prepared_for p xs) = mean_path xs /\
  p_time_to_census (prepared_for p xs) = p_time_to_census p /\ p_age (prepared_for p xs) = p_age p /\
  p_cell (prepared_for p xs) = p_cell p /\ p_direction (prepared_for p xs) = p_direction p /\
  p_coordinate (prepared_for p xs) = p_coordinate p /\ p_num_segments (prepared_for p xs) = p_num_segments p.
Proof.
  assert (Hm : (if feq (xs : F Rops) f0 then fhuge else fdiv f1 xs) = mean_path xs).
  { cbn [feq fhuge fdiv f1 f0 Rops]. unfold mean_path, Reqb. destruct (Req_EM_T xs 0); reflexivity. }
  unfold prepared_for. cbv zeta. rewrite Hm.
  cbn [p_num_mean_free_paths set_mean_free_path set_total_cross_section feq Rops f0].
  destruct (Reqb (p_num_mean_free_paths p) 0) eqn:E; [apply Reqb_iff in E|apply Reqb_false in E].
  - split; [right; split; [exact E|]|repeat split].
    unfold sample_num_mfp, draw. cbn [p_num_mean_free_paths set_num_mean_free_paths p_random_number_seed set_mean_free_path set_total_cross_section].
    unfold next_draw. cbn [fneg f1 fmul fln Rops]. ring.
  - split; [left; split; [exact E|reflexivity]|repeat split].
Qed.

Lemma event_is (p : particle Rops) speed df d o : (d, o) = nearest_event p speed df ->
  first_event (Rmin huge (p_num_mean_free_paths p * p_mean_free_path p)) (speed * p_time_to_census p) df o d.
Proof.
  assert (G : forall dc dz df d o,
    (d, o) = (let h1 := (if Rltb dc huge then (dc, OutCollision) else (huge, OutCollision)) in
              let h2 := (if Rltb dz (fst h1) then (dz, OutCensus) else h1) in
              if Rltb df (fst h2) then (df, OutFacetCrossing) else h2) ->
    first_event (Rmin huge dc) dz df o d).
  { clear. intros dc dz df d o. cbv zeta.
    assert (E1 : (if Rltb dc huge then (dc, OutCollision) else (huge, OutCollision)) = (Rmin huge dc, OutCollision)).
    { unfold Rltb. destruct (Rlt_dec dc huge); f_equal; [rewrite Rmin_right; lra|rewrite Rmin_left; lra]. }
    rewrite E1. cbn [fst]. set (dc' := Rmin huge dc).
    destruct (Rltb dz dc') eqn:E2; [apply Rltb_iff in E2|apply Rltb_false in E2]; cbn [fst];
      match goal with |- context [Rltb df ?x] => destruct (Rltb df x) eqn:E3; [apply Rltb_iff in E3|apply Rltb_false in E3] end;
      intros H; injection H; intros; subst; cbn [first_event]; lra. }
  exact (G _ _ _ _ _).
Qed.

Lemma end_clock (p1 : particle Rops) speed d o i :
  let q := segment_end p1 speed d o i in
  let t1 := match o with OutCensus => Rmin 0 (p_time_to_census p1) | _ => p_time_to_census p1 end in
  p_time_to_census q = (if Reqb d 0 then t1 else Rmax (t1 - d / speed) 0) /\
  p_age q = (if Reqb d 0 then p_age p1 else p_age p1 + d / speed) /\
  p_segment_path_length q = d /\
  p_num_mean_free_paths q = match o with OutCollision => 0 | _ => p_num_mean_free_paths p1 - d / p_mean_free_path p1 end /\
  p_kinetic_energy q = p_kinetic_energy p1 /\
  p_coordinate q = along (p_coordinate p1) (p_direction p1) d /\ p_direction q = p_direction p1 /\ p_cell q = p_cell p1.
Proof.
  cbv zeta. unfold segment_end. cbv zeta. cbn [feq f0 Rops].
  assert (Ha : d = 0 -> p_coordinate p1 = along (p_coordinate p1) (p_direction p1) d).
  { intros ->. unfold along. destruct (p_coordinate p1) as [x y z]. cbn [vx vy vz].
    assert (G : forall a b : R, a = a + b * 0) by (intros; ring).
    f_equal; exact (G _ _). }
  destruct (Reqb d 0) eqn:E; [apply Reqb_iff in E|apply Reqb_false in E]; destruct o; repeat split; try exact (Ha E).
Qed.

(** C25 *)
Lemma outcome_first (dom : domain Rops) (p : particle Rops) speed xs o q :
  outcome_after dom p speed false xs = Ok (o, q) ->
  exists n ds i df, paths_left p n /\ distances_now (d_mesh dom) p ds /\ facet_choice ds i df /\
    first_event (Rmin huge (n * mean_path xs)) (speed * p_time_to_census p) df o (p_segment_path_length q) /\
    (o = OutFacetCrossing -> p_facet q = i) /\
    (df < huge -> p_num_segments p <= 10000000 -> 
     p_coordinate q = along (p_coordinate p) (p_direction p) (p_segment_path_length q)).
Proof.
  intros H. destruct (outcome_parts _ _ _ _ _ _ _ H) as (i & df & p1 & d & En & Eo & Hd & ->).
  destruct (prepared_paths p xs) as (Hn & Hm & Ht & Ha & Hc & Hu & Hx & Hs).
  destruct (nearest_facet_first _ _ _ _ En) as (Hp1 & ds & Hds & Enf & Hh).
  exists (p_num_mean_free_paths (prepared_for p xs)), ds, i, df. split; [exact Hn|]. split.
  { destruct Hds as (pls & A & B). exists pls. unfold plane_tolerance in B. rewrite Hc, Hx, Hu in B. rewrite Hc in A. auto. }
  pose proof (choice_right ds) as Hch. cbv zeta in Hch.
  assert (Edf : i = fst (compute_nearest (K := Rops) ds) /\ df = Rmax (snd (compute_nearest (K := Rops) ds)) 0).
  { injection Enf; intros E1 E2. split; [exact E2|exact E1]. }
  destruct Edf as (Ei & Edf). rewrite <- Ei, <- Edf in Hch. split; [exact Hch|].
  destruct (end_clock p1 speed d o i) as (_ & _ & El & _ & _ & Ec & _). rewrite El.
  split; [rewrite <- Hm, <- Ht; apply event_is; exact Eo|]. split.
  - intros ->. unfold segment_end. cbv zeta. destruct (feq d f0); reflexivity.
  - intros Hdf Hseg. rewrite Ec.
    assert (Hp : p1 = prepared_for p xs).
    { unfold nearest_facet in En. rb En as [nf0 p0] E0. rb En as t Et. injection En; intros; subst p0. clear En.
      destruct (proj2 (search_first _ _) _ _ E0) as (_ & ds' & Hds' & Enf0).
      assert (ds' = ds).
      { destruct Hds as (pls & A & B), Hds' as (pls' & A' & B'). rewrite A in A'. injection A'; intros; subst pls'. rewrite B in B'. congruence. }
      subst ds'. eapply search_stays; [exact E0| |].
      - rewrite Enf0. cbn [feq fhuge Rops]. apply Reqb_false. intros C.
        rewrite Edf in Hdf. change (IZR (10 ^ 76)) with huge in C.
        assert (E' : snd (compute_nearest (K := Rops) ds) = huge) by exact C.
        rewrite E' in Hdf. pose proof (Rmax_l huge 0). lra.
      - rewrite Hs. apply andb_false_iff. left. cbn [flt fof_N Rops]. apply Rltb_false. exact Hseg. }
    subst p1. rewrite Hx, Hu. reflexivity.
Qed.

Lemma outcome_nearest td dom (p : particle Rops) ng m o q m' : run_seq ng (outcome td dom p) m = Ok ((o, q), m') ->
  (p_num_mean_free_paths p < 0 /\ o = OutCollision /\ p_segment_path_length q = tiny) \/
  (0 <= p_num_mean_free_paths p /\
   exists xs n ds i df, xs_found td dom ng m p xs /\ paths_left p n /\ distances_now (d_mesh dom) p ds /\ facet_choice ds i df /\
    first_event (Rmin huge (n * mean_path xs)) (get_speed p * p_time_to_census p) df o (p_segment_path_length q) /\
    (o = OutFacetCrossing -> p_facet q = i) /\
    (df < huge -> p_num_segments p <= 10000000 ->
     p_coordinate q = along (p_coordinate p) (p_direction p) (p_segment_path_length q))).
Proof.
  intros H. destruct (run_outcome _ _ _ _ _ _ _ _ H) as (xs & Hxs & Ho). unfold entering in Ho.
  assert (Hop : out_of_paths p = Rltb (p_num_mean_free_paths p) 0) by reflexivity.
  destruct (out_of_paths p) eqn:E; symmetry in Hop.
  - apply Rltb_iff in Hop. left. split; [exact Hop|]. exact (forced_collision _ _ _ _ _ _ Ho).
  - apply Rltb_false in Hop. right. split; [exact Hop|]. exists xs.
    destruct (outcome_first _ _ _ _ _ _ Ho) as (n & ds & i & df & R). exists n, ds, i, df. split; [exact Hxs|exact R].
Qed.

(** ** The clock (C26) *)

Lemma speed_nonneg (p : particle Rops) : 0 <= get_speed p.
Proof.
  unfold get_speed, light_speed. cbv zeta. cbn [fmul Float.fsqrt Rops flit].
  apply Rmult_le_pos; [|apply sqrt_pos]. unfold Q2R. cbn. lra.
Qed.

Lemma speed_pos (p : particle Rops) : 0 < p_kinetic_energy p -> 0 < get_speed p.
Proof.
  intros He. unfold get_speed, light_speed, neutron_mass_energy, ftwo. cbv zeta. cbn [fmul Float.fsqrt Rops flit fadd f1 fdiv].
  set (M := Q2R _).
  assert (HM : 0 < M) by (unfold M, Q2R; cbn; lra).
  apply Rmult_lt_0_compat; [unfold Q2R; cbn; lra|]. apply sqrt_lt_R0.
  apply Rmult_lt_0_compat; [apply Rmult_lt_0_compat; lra|]. apply Rinv_0_lt_compat. apply Rmult_lt_0_compat; lra.
Qed.

Lemma facet_choice_nonneg ds i d : facet_choice ds i d -> 0 <= d <= huge.
Proof. pose proof huge_pos. intros [(_ & H0 & _)|[(_ & -> & _)|(_ & ->)]]; lra. Qed.

Lemma outcome_clock (dom : domain Rops) (p : particle Rops) speed xs o q :
  outcome_after dom p speed false xs = Ok (o, q) -> 0 <= speed -> on_time p ->
  on_time q /\ p_time_to_census q <= p_time_to_census p /\ p_age p <= p_age q /\
  age_at_census q <= age_at_census p /\
  (0 < speed -> age_at_census q = age_at_census p) /\
  (o = OutCensus -> p_time_to_census q = 0) /\ p_kinetic_energy q = p_kinetic_energy p.
Proof.
  intros H Hsp (Ht & Hn). destruct (outcome_parts _ _ _ _ _ _ _ H) as (i & df & p1 & d & En & Eo & Hd & ->).
  destruct (prepared_paths p xs) as (Pn & Pm & Pt & Pa & _).
  destruct (nearest_facet_first _ _ _ _ En) as ((x1 & Hp1) & ds & Hds & Enf & Hh).
  assert (Hdf : 0 <= df).
  { pose proof (choice_right ds) as Hch. cbv zeta in Hch. apply facet_choice_nonneg in Hch.
    injection Enf; intros E1 E2. rewrite E1. exact (proj1 Hch). }
  cbn [fle f0 Rops] in Hd. apply Rleb_iff in Hd.
  apply event_is in Eo. rewrite Pm, Pt in Eo.
  assert (Hnn : 0 <= p_num_mean_free_paths (prepared_for p xs)).
  { destruct Pn as [(_ & ->)|(_ & ->)]; [exact Hn|apply minus_ln_pos, draw_unit]. }
  assert (P1t : p_time_to_census p1 = p_time_to_census p) by (rewrite Hp1; exact Pt).
  assert (P1a : p_age p1 = p_age p) by (rewrite Hp1; exact Pa).
  assert (P1m : p_mean_free_path p1 = mean_path xs) by (rewrite Hp1; exact Pm).
  assert (P1e : p_kinetic_energy p1 = p_kinetic_energy p).
  { rewrite Hp1. unfold prepared_for. cbv zeta. destruct (feq _ f0); reflexivity. }
  assert (P1n : p_num_mean_free_paths p1 = p_num_mean_free_paths (prepared_for p xs)) by (rewrite Hp1; reflexivity).
  rewrite <- P1n in Eo, Hnn. clear Pn P1n Hp1 Hds Enf Hh En H.
  destruct (end_clock p1 speed d o i) as (E1 & E2 & _ & E3 & E4 & _).
  rewrite P1t in E1. rewrite P1a in E2. rewrite P1m in E3. rewrite P1e in E4.
  set (q := segment_end p1 speed d o i) in * . clearbody q. clear P1t P1a P1m P1e.
  assert (Gn : 0 <= p_num_mean_free_paths q).
  { rewrite E3. revert Hnn Eo. generalize (p_num_mean_free_paths p1 : R). intros n Hnn Eo.
    assert (C : d < n * mean_path xs -> 0 <= n - d / mean_path xs).
    { intros C. destruct (Rle_dec (mean_path xs) 0) as [M|M].
      - exfalso. pose proof (Rmult_le_compat_l n _ _ Hnn M) as C'. rewrite Rmult_0_r in C'. lra.
      - apply Rnot_le_lt in M. apply Rmult_le_reg_r with (mean_path xs); [exact M|].
        unfold Rdiv. rewrite Rmult_minus_distr_r, Rmult_assoc, Rinv_l by lra. lra. }
    pose proof (Rmin_r huge (n * mean_path xs)) as Hm. 
    destruct o; cbn [first_event] in Eo; [apply Rle_refl|apply C; lra|apply C; lra]. }
  set (t := p_time_to_census p : R) in * . change (0 <= t) in Ht.
  set (tq := p_time_to_census q : R) in * . set (aq := p_age q : R) in * . set (ap := p_age p : R) in * .
  assert (Hdz : d <= speed * t) by (destruct o; cbn [first_event] in Eo; lra).
  assert (Hpos : 0 < speed -> 0 <= d / speed <= t).
  { intros Hs. split; [apply Rmult_le_pos; [lra|left; apply Rinv_0_lt_compat; exact Hs]|].
    apply Rmult_le_reg_r with speed; [exact Hs|]. unfold Rdiv. rewrite Rmult_assoc, Rinv_l by lra. lra. }
  assert (Hzero : 0 = speed -> d = 0) by (intros <-; lra).
  assert (Gcore : 0 <= tq /\ tq <= t /\ ap <= aq /\ aq + tq <= ap + t /\ (0 < speed -> o <> OutCensus -> aq + tq = ap + t) /\
                  (o = OutCensus -> tq = 0) /\ (0 < speed -> o = OutCensus -> aq = ap + t)).
  { destruct (Rle_lt_or_eq_dec _ _ Hsp) as [Hs|Hs].
    - specialize (Hpos Hs).
      assert (Ecensus : o = OutCensus -> d / speed = t).
      { intros ->. cbn [first_event] in Eo. destruct Eo as (-> & _). unfold Rdiv. rewrite (Rmult_comm speed), Rmult_assoc, Rinv_r by lra. lra. }
      rewrite (Rmin_left 0 t Ht) in E1.
      destruct (Reqb d 0) eqn:Z.
      + apply Reqb_iff in Z. assert (Z' : d / speed = 0) by (rewrite Z; unfold Rdiv; ring).
        destruct o; try specialize (Ecensus eq_refl); rewrite E1, E2; repeat split; intros; try congruence; lra.
      + assert (M1 : Rmax (t - d / speed) 0 = t - d / speed) by (apply Rmax_left; lra).
        assert (M2 : Rmax (0 - d / speed) 0 = 0) by (apply Rmax_right; lra).
        destruct o; cbv iota in E1; (first [rewrite M1 in E1|rewrite M2 in E1]); try specialize (Ecensus eq_refl); rewrite E1, E2; repeat split; intros; try congruence; lra.
    - specialize (Hzero Hs). rewrite (Rmin_left 0 t Ht) in E1.
      replace (Reqb d 0) with true in E1, E2 by (symmetry; apply Reqb_iff; exact Hzero).
      destruct o; rewrite E1, E2; repeat split; intros; try congruence; lra. }
  destruct Gcore as (G1 & G2 & G3 & G4 & G5 & G6 & G7).
  split; [split; [exact G1|exact Gn]|]. split; [exact G2|]. split; [exact G3|].
  split; [exact G4|]. split; [|split; [exact G6|exact E4]].
  intros Hs. unfold age_at_census. fold t tq aq ap. destruct o; [apply G5; [exact Hs|congruence]|apply G5; [exact Hs|congruence]|].
  change (aq + tq = ap + t). rewrite (G6 eq_refl), (G7 Hs eq_refl). ring.
Qed.

(** Collisions leave the number of mean free paths non negative. *)
Lemma sampled_paths (p : particle Rops) : 0 <= p_num_mean_free_paths (sample_num_mfp p).
Proof.
  unfold sample_num_mfp, draw. cbn [p_num_mean_free_paths set_num_mean_free_paths fneg f1 fmul fln Rops].
  pose proof (minus_ln_pos _ (draw_unit p)) as H. unfold next_draw in H.
  match goal with |- 0 <= ?a => replace a with (- ln (fsample (f := Rops) (rng_next (p_random_number_seed p)))); [exact H|] end.
  match goal with |- @eq _ ?a ?b => change (@eq R a b) end. cbn [fsample Rops]. ring.
Qed.
Lemma updated_paths (p : particle Rops) e a : 0 <= p_num_mean_free_paths (update_trajectory p e a).
Proof. unfold update_trajectory. destruct (draw p) as [u p1]. cbv zeta. apply sampled_paths. Qed.

Lemma draw_fission_paths (p : particle Rops) :
  p_num_mean_free_paths (snd (draw_fission p)) = p_num_mean_free_paths p.
Proof. reflexivity. Qed.

Lemma collision_paths (p : particle Rops) r mass n p' nx : sample_collision p r mass = Ok (n, p', nx) ->
  0 <= p_num_mean_free_paths p -> Forall (fun q : particle Rops => 0 <= p_num_mean_free_paths q) (p' :: nx).
Proof.
  unfold sample_collision. intros H H0. destruct (r_type r).
  - destruct (draw_scatter p mass) as [[e a] p1]. injection H; intros; subst. constructor; [apply updated_paths|constructor].
  - injection H; intros; subst. constructor; [exact H0|constructor].
  - destruct (draw p) as [u p1] eqn:E1.
    assert (Hp1 : p_num_mean_free_paths p1 = p_num_mean_free_paths p) by (unfold draw in E1; injection E1; intros; subst; reflexivity).
    rb H as n0 En.
    assert (Hmulti : forall n0,
      (do _ <- rassert (n0 <? 5)%N;
       (let '(energy, angle, p2) := draw_fission p1 in
        let (out, p3) := draw_fission_n (N.to_nat (n0 - 1)) p2 in
        let (seeds, p4) := spawn_n (N.to_nat (n0 - 1)) p3 in
        let sec := map (fun '(seed, (e, a)) => secondary p4 seed e a) (combine seeds out) in
        Ok (n0, update_trajectory p4 energy angle, sec))) = Ok (n, p', nx) ->
      Forall (fun q : particle Rops => 0 <= p_num_mean_free_paths q) (p' :: nx)).
    { clear H En n0. intros n0 H. rb H as t Et'.
      destruct (draw_fission p1) as [[e a] p2]. destruct (draw_fission_n _ p2) as [out p3]. destruct (spawn_n _ p3) as [seeds p4].
      cbv zeta in H. injection H; intros; subst; clear H. constructor; [apply updated_paths|].
      apply Forall_forall. intros q Hq. apply in_map_iff in Hq as ((seed & e' & a') & <- & Hin). apply updated_paths. }
    destruct n0 as [|[x|x|]].
    + injection H; intros; subst. constructor; [rewrite Hp1; exact H0|constructor].
    + exact (Hmulti _ H).
    + exact (Hmulti _ H).
    + destruct (draw_fission p1) as [[e a] p2]. injection H; intros; subst. constructor; [apply updated_paths|constructor].
Qed.

(** With materials heavier than a neutron all the energies are positive. *)
Lemma scatter_energy e u (mass : R) : 0 < e -> 0 <= u <= 1 -> 1 < mass -> 0 < e * (1 - u * (1 / mass)).
Proof.
  intros He Hu Hm. apply Rmult_lt_0_compat; [exact He|].
  assert (H : 0 < 1 / mass < 1).
  { unfold Rdiv. rewrite Rmult_1_l. split; [apply Rinv_0_lt_compat; lra|]. rewrite <- Rinv_1. apply Rinv_lt_contravar; lra. }
  assert (u * (1 / mass) <= 1 * (1 / mass)) by (apply Rmult_le_compat_r; lra). lra.
Qed.
Lemma fission_energy u : 0 <= u <= 1 -> 0 < 20 * ((u + 1) / 2) * ((u + 1) / 2).
Proof. intros Hu. assert (0 < (u + 1) / 2) by lra. repeat apply Rmult_lt_0_compat; lra. Qed.

Lemma draw_fission_energy (p : particle Rops) : 0 < fst (fst (draw_fission p)).
Proof.
  pose proof (fission_energy _ (draw_unit p)) as H. unfold next_draw in H.
  unfold draw_fission, draw. cbv zeta. cbn [fst]. unfold ftwo. cbn [fmul flit fdiv fadd f1 Rops].
  replace (Q2R (20 # 1)) with 20 by (unfold Q2R; cbn; lra).
  replace (Q2R 2) with 2 by (unfold Q2R; cbn; lra).
  exact H.
Qed.
Lemma draw_fission_n_energy n : forall p : particle Rops, Forall (fun ea => 0 < fst ea) (fst (draw_fission_n n p)).
Proof.
  induction n as [|n IH]; intros p; cbn [draw_fission_n]; [constructor|].
  pose proof (draw_fission_energy p) as H. destruct (draw_fission p) as [[e a] p1]. cbn [fst] in H. specialize (IH p1).
  destruct (draw_fission_n n p1) as [l p2]. cbn [fst] in * . constructor; [exact H|exact IH].
Qed.
Lemma updated_energy (p : particle Rops) e a : p_kinetic_energy (update_trajectory p e a) = e.
Proof. exact (proj2 (ce_inv _ _ _ (update_trajectory_ce p e a))). Qed.

Lemma collision_energy (p : particle Rops) r (mass : R) n p' nx : 1 < mass ->
  sample_collision p r (mass : F Rops) = Ok (n, p', nx) ->
  0 < p_kinetic_energy p -> Forall (fun q : particle Rops => 0 < p_kinetic_energy q) (p' :: nx).
Proof.
  intros Hmass. unfold sample_collision. intros H H0. destruct (r_type r).
  - destruct (draw_scatter p mass) as [[e a] p1] eqn:E. injection H; intros; subst. constructor; [|constructor]. rewrite updated_energy.
    pose proof (scatter_energy _ _ _ H0 (draw_unit p) Hmass) as G. unfold next_draw in G.
    unfold draw_scatter, draw in E. cbv zeta in E. assert (E' : e = (fst (fst (e, a, p1)))) by reflexivity. rewrite E', <- E. exact G.
  - injection H; intros; subst. constructor; [exact H0|constructor].
  - destruct (draw p) as [u p1] eqn:E1.
    assert (Hp1 : p_kinetic_energy p1 = p_kinetic_energy p) by (unfold draw in E1; injection E1; intros; subst; reflexivity).
    rb H as n0 En.
    assert (Hmulti : forall n0,
      (do _ <- rassert (n0 <? 5)%N;
       (let '(energy, angle, p2) := draw_fission p1 in
        let (out, p3) := draw_fission_n (N.to_nat (n0 - 1)) p2 in
        let (seeds, p4) := spawn_n (N.to_nat (n0 - 1)) p3 in
        let sec := map (fun '(seed, (e, a)) => secondary p4 seed e a) (combine seeds out) in
        Ok (n0, update_trajectory p4 energy angle, sec))) = Ok (n, p', nx) ->
      Forall (fun q : particle Rops => 0 < p_kinetic_energy q) (p' :: nx)).
    { clear H En n0. intros n0 H. rb H as t Et'.
      pose proof (draw_fission_energy p1) as Hd. destruct (draw_fission p1) as [[e a] p2]. cbn [fst] in Hd.
      pose proof (draw_fission_n_energy (N.to_nat (n0 - 1)) p2) as Hn.
      destruct (draw_fission_n _ p2) as [out p3]. destruct (spawn_n _ p3) as [seeds p4]. cbn [fst] in Hn.
      cbv zeta in H. injection H; intros; subst; clear H. constructor; [rewrite updated_energy; exact Hd|].
      apply Forall_forall. intros q Hq. apply in_map_iff in Hq as ((seed & e' & a') & <- & Hin).
      unfold secondary. rewrite updated_energy. apply in_combine_r in Hin. rewrite Forall_forall in Hn. exact (Hn _ Hin). }
    destruct n0 as [|[x|x|]].
    + injection H; intros; subst. constructor; [rewrite Hp1; exact H0|constructor].
    + exact (Hmulti _ H).
    + exact (Hmulti _ H).
    + pose proof (draw_fission_energy p1) as Hd. destruct (draw_fission p1) as [[e a] p2]. injection H; intros; subst.
      constructor; [rewrite updated_energy; exact Hd|constructor].
Qed.

Lemma on_time_enters (p : particle Rops) : on_time p -> out_of_paths p = false /\ entering p = p.
Proof.
  intros (_ & H). assert (E : out_of_paths p = false) by (apply Rltb_false; exact H). split; [exact E|]. unfold entering. rewrite E. reflexivity.
Qed.

Lemma clock_later (p1 q p : particle Rops) : clock q = clock p1 -> later p p1 -> later p q.
Proof.
  unfold clock, later, age_at_census. intros E. assert (E1 : p_time_to_census q = p_time_to_census p1) by congruence.
  assert (E2 : p_age q = p_age p1) by congruence. rewrite E1, E2. auto.
Qed.

Lemma facet_keeps (dom : domain Rops) (p1 p2 p' : particle Rops) fa :
  facet_crossing_event (set_num_segments p1 (fadd (p_num_segments p1) f1)) fa = Ok p2 ->
  match fa_event fa with
  | TransitOnProcessor => p' = p2
  | BoundaryReflection =>
      exists planes pl, vec_get (me_geom (d_mesh dom)) (p_cell p2) = Ok planes /\
        vec_get planes (p_facet p2) = Ok pl /\ p' = reflect_particle p2 pl
  | BoundaryEscape => p' = set_species (set_last_event p2 EvEscape) Unknown
  | _ => False
  end -> clock p' = clock p1 /\ p_num_mean_free_paths p' = p_num_mean_free_paths p1 /\ p_kinetic_energy p' = p_kinetic_energy p1.
Proof.
  unfold facet_crossing_event. intros H Hm. destruct (fa_event fa); try contradiction.
  - injection H; intros; subst. repeat split.
  - injection H; intros; subst. destruct Hm as (pls & pl & _ & _ & ->). unfold reflect_particle. destruct (flt f0 _); repeat split.
  - rb H as d Ed. rb H as c Ec. rb H as f Ef. injection H; intros; subst. repeat split.
Qed.

Lemma seg_clock td dom (p : particle Rops) e keep p' nx : seg_step td dom p e keep p' nx -> on_time p ->
  Forall (fun q : particle Rops => on_time q /\ later p q) (p' :: nx) /\
  (e = SegCensus -> p_time_to_census p' = 0).
Proof.
  intros H Ht. destruct (on_time_enters _ Ht) as (E1 & E2).
  inversion H as [? xs p1 cs cur p2 cfuel r mat n p3 ? g ? Ho p1' Hcs Hcur Hpick Hmat Hcol Hg Hp'|? xs p1 conn fa p2 ? Ho p1' Hconn Hfa Hev Hm|? xs p1 Ho]; subst.
  - rewrite E1, E2 in Ho. destruct (outcome_clock _ _ _ _ _ _ Ho (speed_nonneg p) Ht) as ((A1 & A2) & A3 & A4 & A5 & _).
    assert (Hp2 : clock p2 = clock p1 /\ p_num_mean_free_paths p2 = p_num_mean_free_paths p1).
    { unfold get_current_xs, draw in Hcur. injection Hcur; intros; subst. split; reflexivity. }
    destruct (collision_clock _ _ _ _ _ _ Hcol) as (C1 & C2).
    pose proof (collision_paths _ _ _ _ _ _ Hcol ltac:(rewrite (proj2 Hp2); exact A2)) as C3.
    assert (L : later p p1) by (repeat split; assumption).
    assert (T : 0 <= p_time_to_census p1) by exact A1.
    assert (G : forall q : particle Rops, clock q = clock p2 -> 0 <= p_num_mean_free_paths q -> on_time q /\ later p q).
    { intros q Hq Hn. rewrite (proj1 Hp2) in Hq. split; [|exact (clock_later _ _ _ Hq L)].
      split; [|exact Hn]. unfold clock in Hq. assert (Eq : p_time_to_census q = p_time_to_census p1) by congruence. rewrite Eq. exact T. }
    split; [|discriminate]. constructor.
    + destruct (1 <=? n)%N; apply G; try exact C1; exact (Forall_inv C3).
    + apply Forall_inv_tail in C3. clear - C2 C3 G. induction C2 as [|q l Hq _ IH]; constructor.
      * apply G; [exact Hq|exact (Forall_inv C3)].
      * apply IH. exact (Forall_inv_tail C3).
  - rewrite E1, E2 in Ho. destruct (outcome_clock _ _ _ _ _ _ Ho (speed_nonneg p) Ht) as ((A1 & A2) & A3 & A4 & A5 & _).
    destruct (facet_keeps dom _ _ _ _ Hev Hm) as (C1 & C2 & _).
    split; [|discriminate]. constructor; [|constructor]. split.
    + split; [|rewrite C2; exact A2]. unfold clock in C1. assert (Eq : p_time_to_census p' = p_time_to_census p1) by congruence. rewrite Eq. exact A1.
    + apply (clock_later p1); [exact C1|repeat split; assumption].
  - rewrite E1, E2 in Ho. destruct (outcome_clock _ _ _ _ _ _ Ho (speed_nonneg p) Ht) as ((A1 & A2) & A3 & A4 & A5 & _ & A6 & _).
    split; [constructor; [|constructor]; split; [split; assumption|repeat split; assumption]|intros _; exact (A6 eq_refl)].
Qed.

Lemma seg_clock_exact td dom (p : particle Rops) e keep p' nx : seg_step td dom p e keep p' nx -> on_time p ->
  heavy td -> 0 < p_kinetic_energy p ->
  Forall (fun q : particle Rops => age_at_census q = age_at_census p /\ 0 < p_kinetic_energy q) (p' :: nx).
Proof.
  intros H Ht Hh He. destruct (on_time_enters _ Ht) as (E1 & E2).
  inversion H as [? xs p1 cs cur p2 cfuel r mat n p3 ? g ? Ho p1' Hcs Hcur Hpick Hmat Hcol Hg Hp'|? xs p1 conn fa p2 ? Ho p1' Hconn Hfa Hev Hm|? xs p1 Ho]; subst;
    rewrite E1, E2 in Ho; destruct (outcome_clock _ _ _ _ _ _ Ho (speed_nonneg p) Ht) as (_ & _ & _ & _ & A & _ & Ae);
    specialize (A (speed_pos p He)).
  - assert (Hp2 : clock p2 = clock p1 /\ p_kinetic_energy p2 = p_kinetic_energy p1).
    { unfold get_current_xs, draw in Hcur. injection Hcur; intros; subst. split; reflexivity. }
    destruct (collision_clock _ _ _ _ _ _ Hcol) as (C1 & C2).
    assert (Hmass : 1 < mat_mass mat).
    { unfold heavy in Hh. rewrite Forall_forall in Hh. apply Hh. unfold vec_get in Hmat. destruct (nth_error _ _) eqn:En; [|discriminate].
      cbn in Hmat. injection Hmat; intros; subst. eapply nth_error_In; eauto. }
    pose proof (collision_energy _ _ _ _ _ _ Hmass Hcol ltac:(rewrite (proj2 Hp2), Ae; exact He)) as C3.
    assert (G : forall q : particle Rops, clock q = clock p2 -> age_at_census q = age_at_census p).
    { intros q Hq. rewrite (proj1 Hp2) in Hq. rewrite <- A. unfold clock in Hq. unfold age_at_census. congruence. }
    constructor.
    + destruct (1 <=? n)%N; (split; [apply G; exact C1|exact (Forall_inv C3)]).
    + apply Forall_inv_tail in C3. clear - C2 C3 G. induction C2 as [|q l Hq _ IH]; constructor.
      * split; [apply G; exact Hq|exact (Forall_inv C3)].
      * apply IH. exact (Forall_inv_tail C3).
  - destruct (facet_keeps dom _ _ _ _ Hev Hm) as (C1 & _ & C2). constructor; [|constructor].
    split; [|rewrite C2, Ae; exact He]. rewrite <- A. unfold clock in C1. unfold age_at_census. congruence.
  - constructor; [|constructor]. split; [exact A|]. change (0 < p_kinetic_energy p1). rewrite Ae. exact He.
Qed.

Lemma later_trans (p q r : particle Rops) : later p q -> later q r -> later p r.
Proof. unfold later. intros (A & B & C) (A' & B' & C'). repeat split; lra. Qed.

(** A whole track. *)
Lemma path_clock td dom (p : particle Rops) evs p' nx : track_path td dom p evs p' nx -> on_time p ->
  Forall (fun q : particle Rops => on_time q /\ later p q) (p' :: nx) /\
  (p_species p = Known -> p_species p' = Known -> p_time_to_census p' = 0).
Proof.
  induction 1 as [p e p' nx Hs|p e p1 nx1 evs p' nx2 Hs Hp IH]; intros Ht.
  - destruct (seg_clock _ _ _ _ _ _ _ Hs Ht) as (A & B). split; [exact A|]. intros Hk Hk'. apply B.
    inversion Hs; subst; clear Hs.
    + destruct (1 <=? n)%N; discriminate.
    + destruct (fa_event fa); try discriminate; try contradiction. subst. discriminate.
    + reflexivity.
  - destruct (seg_clock _ _ _ _ _ _ _ Hs Ht) as (A & _).
    pose proof (Forall_inv A) as (A1 & A2). pose proof (Forall_inv_tail A) as A3. destruct (IH A1) as (B & C).
    split.
    + assert (B' : Forall (fun q : particle Rops => on_time q /\ later p q) (p' :: nx2)).
      { eapply Forall_impl; [|exact B]. intros q (Q1 & Q2). split; [exact Q1|exact (later_trans _ _ _ A2 Q2)]. }
      constructor; [exact (Forall_inv B')|]. apply Forall_app. split; [exact A3|exact (Forall_inv_tail B')].
    + intros Hk. apply C. destruct (seg_step_count _ _ _ _ _ _ _ Hs Hk) as (_ & S1 & _). apply S1. reflexivity.
Qed.

Lemma path_clock_exact td dom (p : particle Rops) evs p' nx : track_path td dom p evs p' nx -> on_time p ->
  heavy td -> 0 < p_kinetic_energy p ->
  Forall (fun q : particle Rops => age_at_census q = age_at_census p /\ 0 < p_kinetic_energy q) (p' :: nx).
Proof.
  intros H Ht Hh. revert Ht. induction H as [p e p' nx Hs|p e p1 nx1 evs p' nx2 Hs Hp IH]; intros Ht He.
  - exact (seg_clock_exact _ _ _ _ _ _ _ Hs Ht Hh He).
  - pose proof (seg_clock_exact _ _ _ _ _ _ _ Hs Ht Hh He) as A. destruct (seg_clock _ _ _ _ _ _ _ Hs Ht) as (B & _).
    pose proof (Forall_inv A) as (A1 & A2). pose proof (Forall_inv_tail A) as A3. pose proof (Forall_inv B) as (B1 & _).
    specialize (IH B1 A2).
    assert (I : Forall (fun q : particle Rops => age_at_census q = age_at_census p /\ 0 < p_kinetic_energy q) (p' :: nx2)).
    { eapply Forall_impl; [|exact IH]. intros q (Q1 & Q2). split; [congruence|exact Q2]. }
    constructor; [exact (Forall_inv I)|]. apply Forall_app. split; [exact A3|exact (Forall_inv_tail I)].
Qed.

(** ** Whole runs *)

Lemma same_clock (p q : particle Rops) : same_but_weight p q -> clock q = clock p /\
  p_num_mean_free_paths q = p_num_mean_free_paths p /\ p_kinetic_energy q = p_kinetic_energy p /\ p_species q = p_species p.
Proof. unfold same_but_weight. intros <-. repeat split. Qed.

Lemma sourced_clock (md : mcdata Rops) w dom c v x (p : particle Rops) : 0 <= td_dt (mc_track md) ->
  source_particle md w dom c v x = Ok p -> on_time p /\ p_time_to_census p <= td_dt (mc_track md) /\ p_age p = 0.
Proof.
  intros Hdt H. destruct (source_parts _ _ _ _ _ _ _ H) as (s & coord & q & E & Ep).
  set (s3 := rng_next (rng_next (rng_next (p_random_number_seed q)))) in * .
  pose proof (sample_unit _ (rng_next_lt (rng_next s3))) as H5.
  pose proof (sample_unit _ (rng_next_lt s3)) as H4.
  rewrite Ep. unfold on_time. cbn [p_time_to_census p_num_mean_free_paths p_age set_time_to_census set_num_mean_free_paths set_kinetic_energy
    set_direction set_random_number_seed set_weight set_cell set_domain set_coordinate set_identifier particle_default fmul fneg fln f1 f0 Rops].
  split; [split|split; [|reflexivity]].
  - apply Rmult_le_pos; [exact Hdt|exact (proj1 H5)].
  - pose proof (minus_ln_pos _ H4) as G. 
    match goal with |- 0 <= ?a => replace a with (- ln (fsample (f := Rops) (rng_next s3))); [exact G|] end.
    match goal with |- @eq _ ?a ?b => change (@eq R a b) end. unfold s3. cbn [fsample Rops]. ring.
  - rewrite <- (Rmult_1_r (td_dt (mc_track md))) at 2. apply Rmult_le_compat_l; [exact Hdt|exact (proj2 H5)].
Qed.

(** C11: particles are kept for the next cycle at census, with no time left. *)
Theorem kept_at_census fuel cf (md : mcdata Rops) d n s : 0 <= td_dt (mc_track md) ->
  run_steps fuel cf md (initial_sim md d) n (Ok s) -> (n <= sp_n_steps (mc_params md))%N ->
  Forall (fun p : particle Rops => p_species p = Known /\ p_last_event p = EvCensus /\ p_time_to_census p = 0 /\
            0 <= p_num_mean_free_paths p /\ 0 <= p_age p) (processed (s_cont s)).
Proof.
  intros Hdt H Hn.
  eapply (run_keeps md (d_mesh d) (fun p : particle Rops => on_time p /\ p_species p = Known)); [| | | |reflexivity|exact H|reflexivity|exact Hn].
  - intros p (A & B & C & D & E). split; [split; [rewrite C; apply Rle_refl|exact D]|exact A].
  - intros p q Hs (A & B). destruct (same_clock _ _ Hs) as (E1 & E2 & _ & E3). unfold clock in E1.
    assert (E : p_time_to_census q = p_time_to_census p) by congruence. unfold on_time. rewrite E, E2, E3. auto.
  - intros w dom c v x p _ _ E. split; [exact (proj1 (sourced_clock _ _ _ _ _ _ _ Hdt E))|eapply source_particle_species; exact E].
  - intros dom p q evs p' nx _ (A & Hk) E T.
    assert (Q : on_time q /\ p_species q = Known /\ 0 <= p_age q).
    { unfold prepare_particle in E. rb E as g Eg. apply Ok_inj in E. subst q. destruct A as (A1 & A2).
      destruct (fle (p_time_to_census p) f0); repeat split; try exact Hk; try exact A2; try exact A1;
        cbn [p_age p_time_to_census set_energy_group set_age set_time_to_census fadd Rops]; try apply Rmax_r.
      apply Rplus_le_le_0_compat; assumption. }
    destruct Q as (Q1 & Q2 & Q3). destruct (path_clock _ _ _ _ _ _ T Q1) as (B & C). split.
    + intros _ Hv. assert (Hk' : p_species p' = Known) by (unfold is_valid in Hv; destruct (p_species p'); congruence).
      pose proof (Forall_inv B) as ((_ & B1) & (_ & B2 & _)).
      split; [exact Hk'|]. split; [exact (path_census _ _ _ _ _ _ T Q2 Hk')|]. split; [exact (C Q2 Hk')|]. split; [exact B1|].
      eapply Rle_trans; [exact Q3|exact B2].
    + apply Forall_inv_tail in B. assert (V : all_valid nx) by (exact (proj1 (track_path_accounted _ _ _ _ _ _ T Q2))).
      clear - B V. induction B as [|r l (R1 & _) _ IH]; constructor; [split; [exact R1|exact (Forall_inv V)]|exact (IH (Forall_inv_tail V))].
Qed.
