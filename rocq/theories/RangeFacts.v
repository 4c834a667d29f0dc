(** Cells and energy groups of the particles stay in range. *)
From Coq Require Import NArith PeanoNat List Bool Lia Permutation.
From Verif Require Import Float RngModel RngLemmas ParticleModel NuclearModel MeshTypes Balance TrackModel CycleModel
  ProgLemmas TrackSpec CycleSpec TrackAccount CycleAccount CycleFacts ScheduleSpec ScheduleLemmas RangeSpec.
Import ListNotations.
Local Open Scope N_scope.
Local Open Scope float_scope.
Local Opaque rng_next spawn_rn_seed.

Section Range.
Context {K : FloatOps}.

(** ** Energy groups *)

Lemma energy_search_range fuel : forall es (e : F K) low high g,
  low < high -> energy_search fuel es e low high = Ok g -> low <= g /\ g < high.
Proof.
  induction fuel as [|fuel IH]; intros es e low high g Hl H; cbn [energy_search] in H;
    destruct (N.eqb_spec high (low + 1)) as [E|E].
  - injection H; intros; subst. lia.
  - discriminate.
  - injection H; intros; subst. lia.
  - rb H as em E1.
    assert (Hm : low < (high + low) / 2 /\ (high + low) / 2 < high).
    { assert (low + 1 <= (high + low) / 2) by (apply N.div_le_lower_bound; lia).
      split; [lia|apply N.div_lt_upper_bound; lia]. }
    destruct (e <. em); apply IH in H; lia.
Qed.

Lemma get_energy_groups_range (nd : nuclear_data K) e g n :
  N.of_nat (length (nd_energies nd)) = n + 1 -> 0 < n ->
  (forall el, nth_error (nd_energies nd) (length (nd_energies nd) - 1) = Some el -> (el <. e) = false) ->
  get_energy_groups nd e = Ok g -> g < n.
Proof.
  intros Hl Hn Hlast H. unfold get_energy_groups in H. rb H as e0 E0.
  destruct (e <=. e0); [injection H; intros; subst; lia|].
  rb H as el El. unfold vec_get in El.
  replace (N.to_nat (N.of_nat (length (nd_energies nd)) - 1)) with (length (nd_energies nd) - 1)%nat in El by lia.
  destruct (nth_error (nd_energies nd) (length (nd_energies nd) - 1)) as [el'|] eqn:En; [|discriminate].
  cbn in El. injection El; intros; subst. rewrite (Hlast _ eq_refl) in H.
  apply energy_search_range in H; lia.
Qed.

(** ** Operations that change neither cell nor energy *)

Definition ce (p : particle K) : N * F K := (p_cell p, p_kinetic_energy p).

Lemma draw_ce (p : particle K) : ce (snd (draw p)) = ce p.
Proof. reflexivity. Qed.
Lemma sample_num_mfp_ce (p : particle K) : ce (sample_num_mfp p) = ce p.
Proof. reflexivity. Qed.
Lemma sample_isotropic_ce (p : particle K) : ce (sample_isotropic p) = ce p.
Proof. reflexivity. Qed.
Lemma rotate_ce (p : particle K) a b c d : ce (rotate_direction p a b c d) = ce p.
Proof. unfold rotate_direction. cbv zeta. destruct (_ <. _); reflexivity. Qed.
Lemma update_trajectory_ce (p : particle K) e a : ce (update_trajectory p e a) = (p_cell p, e).
Proof. unfold update_trajectory. cbv zeta. destruct (draw p) as [r p1] eqn:E. rewrite sample_num_mfp_ce, rotate_ce.
  unfold ce. cbn. f_equal. unfold draw in E. injection E; intros; subst. reflexivity. Qed.
Lemma ce_inv (p : particle K) c e : ce p = (c, e) -> p_cell p = c /\ p_kinetic_energy p = e.
Proof. unfold ce. intros H. split; [exact (f_equal fst H)|exact (f_equal snd H)]. Qed.
Lemma spawn_ce (p : particle K) : ce (snd (spawn p)) = ce p.
Proof. unfold spawn. destruct (spawn_rn_seed _) as [s q]. reflexivity. Qed.
Lemma spawn_n_ce n : forall (p : particle K), ce (snd (spawn_n n p)) = ce p.
Proof.
  induction n as [|n IH]; intros p; cbn [spawn_n]; [reflexivity|].
  pose proof (spawn_ce p) as Hs. destruct (spawn p) as [s p1]. cbn [snd] in Hs.
  specialize (IH p1). destruct (spawn_n n p1) as [l p2]. cbn [snd] in * . congruence.
Qed.

(** ** Energies after a collision *)

Variable ok : F K -> Prop.
Variable md : mcdata K.
Hypothesis Hsafe : safe_energies md ok.

Lemma draw_fission_ok (p : particle K) : let '(e, a, p') := draw_fission p in ok e /\ ce p' = ce p.
Proof. unfold draw_fission, draw. cbv zeta. split; [|reflexivity]. apply (se_fission _ _ Hsafe). apply rng_next_lt. Qed.
Lemma draw_fission_n_ok n : forall (p : particle K),
  Forall (fun ea => ok (fst ea)) (fst (draw_fission_n n p)) /\ ce (snd (draw_fission_n n p)) = ce p.
Proof.
  induction n as [|n IH]; intros p; cbn [draw_fission_n]; [split; [constructor|reflexivity]|].
  pose proof (draw_fission_ok p) as Hd. destruct (draw_fission p) as [[e a] p1]. destruct Hd as (Ho & Hc).
  specialize (IH p1). destruct (draw_fission_n n p1) as [l p2]. cbn [fst snd] in * . destruct IH as (I1 & I2).
  split; [constructor; auto|congruence].
Qed.

Lemma sample_collision_ok (p : particle K) r mat n p' nx :
  In mat (td_mats (mc_track md)) -> ok (p_kinetic_energy p) ->
  sample_collision p r (mat_mass mat) = Ok (n, p', nx) ->
  p_cell p' = p_cell p /\ ok (p_kinetic_energy p') /\
  Forall (fun q => p_cell q = p_cell p /\ ok (p_kinetic_energy q)) nx.
Proof.
  intros Hm He. unfold sample_collision. destruct (r_type r) eqn:Et; intros H.
  - destruct (draw_scatter p (mat_mass mat)) as [[e a] p1] eqn:E1.
    assert (Ho : ok e /\ ce p1 = ce p).
    { unfold draw_scatter, draw in E1. cbv zeta in E1. injection E1; intros; subst. split; [|reflexivity].
      apply (se_scatter _ _ Hsafe); auto. apply rng_next_lt. }
    destruct Ho as (Ho & Hc). injection H; intros; subst.
    destruct (ce_inv _ _ _ (update_trajectory_ce p1 e a)) as (Hu1 & Hu2). destruct (ce_inv _ _ _ Hc) as (Hc1 & Hc2).
    rewrite Hu1, Hu2. split; [congruence|]. split; [exact Ho|constructor].
  - injection H; intros; subst. split; [reflexivity|]. split; [exact He|constructor].
  - destruct (draw p) as [u p1] eqn:E1.
    assert (Hp1 : ce p1 = ce p) by (change p1 with (snd (u, p1)); rewrite <- E1; reflexivity).
    rb H as n0 En.
    assert (Hmulti : forall n0,
      (do _ <- rassert (n0 <? 5);
       (let '(energy, angle, p2) := draw_fission p1 in
        let (out, p3) := draw_fission_n (N.to_nat (n0 - 1)) p2 in
        let (seeds, p4) := spawn_n (N.to_nat (n0 - 1)) p3 in
        let sec := map (fun '(seed, (e, a)) => secondary p4 seed e a) (combine seeds out) in
        Ok (n0, update_trajectory p4 energy angle, sec))) = Ok (n, p', nx) ->
      p_cell p' = p_cell p /\ ok (p_kinetic_energy p') /\
      Forall (fun q => p_cell q = p_cell p /\ ok (p_kinetic_energy q)) nx).
    { clear H En n0. intros n0 H. rb H as t Et'.
      pose proof (draw_fission_ok p1) as Hd. destruct (draw_fission p1) as [[e a] p2]. destruct Hd as (Ho & Hc2).
      pose proof (draw_fission_n_ok (N.to_nat (n0 - 1)) p2) as Hn. destruct (draw_fission_n _ p2) as [out p3].
      pose proof (spawn_n_ce (N.to_nat (n0 - 1)) p3) as Hs. destruct (spawn_n _ p3) as [seeds p4]. cbn [fst snd] in * .
      destruct Hn as (Hout & Hc3). cbv zeta in H. injection H; intros; subst; clear H.
      assert (Hc : p_cell p4 = p_cell p).
      { apply (f_equal fst) in Hs, Hc3, Hc2, Hp1. unfold ce in Hs, Hc3, Hc2, Hp1. cbn [fst] in Hs, Hc3, Hc2, Hp1. congruence. }
      destruct (ce_inv _ _ _ (update_trajectory_ce p4 e a)) as (Hu1 & Hu2).
      rewrite Hu1, Hu2. split; [exact Hc|]. split; [exact Ho|].
      apply Forall_forall. intros q Hq. apply in_map_iff in Hq as ((seed & e' & a') & <- & Hin).
      apply in_combine_r in Hin. rewrite Forall_forall in Hout. specialize (Hout _ Hin). cbn in Hout.
      unfold secondary.
      match goal with |- context [update_trajectory ?q0 e' a'] =>
        destruct (ce_inv _ _ _ (update_trajectory_ce q0 e' a')) as (Hv1 & Hv2); rewrite Hv1, Hv2 end.
      split; [exact Hc|exact Hout]. }
    destruct n0 as [|[x|x|]].
    + injection H; intros; subst. destruct (ce_inv _ _ _ Hp1) as (A & B). rewrite A, B. repeat split; auto.
    + exact (Hmulti _ H).
    + exact (Hmulti _ H).
    + pose proof (draw_fission_ok p1) as Hd. destruct (draw_fission p1) as [[e a] p2]. destruct Hd as (Ho & Hc2).
      injection H; intros; subst.
      destruct (ce_inv _ _ _ (update_trajectory_ce p2 e a)) as (Hu1 & Hu2).
      destruct (ce_inv _ _ _ Hc2). destruct (ce_inv _ _ _ Hp1). rewrite Hu1, Hu2. split; [congruence|]. split; [exact Ho|constructor].
Qed.

(** ** A segment *)

Lemma outcome_after_energy (dom : domain K) (p : particle K) sp fc xs o p' :
  outcome_after dom p sp fc xs = Ok (o, p') -> p_kinetic_energy p' = p_kinetic_energy p.
Proof.
  unfold outcome_after. intros H. rb H as [nf p1] E.
  assert (Hnf : p_kinetic_energy p1 = p_kinetic_energy p).
  { unfold nearest_facet, mct_nf_3dg in E. rb E as [nf' p2] E2. rb E as u E3.
    injection E; intros; subst; clear E. rb E2 as planes E4.
    assert (G : forall fuel m co di tol pls (p : particle K) i mf nf p',
        mct_nf_loop fuel m co di tol pls p i mf = Ok (nf, p') -> p_kinetic_energy p' = p_kinetic_energy p).
    { clear. induction fuel as [|fuel IH]; cbn [mct_nf_loop]; intros m co di tol pls p i mf nf p' H; [discriminate|].
      rb H as ds E1. rb H as [[[rt p1] i1] mf1] E2.
      assert (G : p_kinetic_energy p1 = p_kinetic_energy p).
      { unfold check_nearest_validity in E2.
        match type of E2 with (if ?c then _ else _) = _ => destruct c end.
        - rb E2 as mv E3. injection E2; intros; subst; clear E2. reflexivity.
        - injection E2; intros; subst; clear E2. reflexivity. }
      destruct rt.
      - rewrite <- G. eapply IH; eauto.
      - injection H; intros; subst; clear H. exact G. }
    rewrite (G _ _ _ _ _ _ _ _ _ _ _ E2). destruct (_ ==. f0); reflexivity. }
  match type of H with (let '(_, _) := ?h in _) = _ => destruct h as [mdist oo] end.
  rb H as u E2.
  match type of H with (if ?c then _ else _) = _ => destruct c end;
    injection H; intros; subst; clear H; destruct o; cbn; auto.
Qed.

Variable dom : domain K.
Hypothesis Hsound : sound_problem md dom.
Let td := mc_track md.
Let ng := sp_n_groups (mc_params md).

Definition fine (p : particle K) : Prop := placed ok dom p /\ p_energy_group p < ng.

Lemma group_in_range e g : ok e -> get_energy_groups (td_nuclear td) e = Ok g -> g < ng.
Proof.
  intros He H. eapply get_energy_groups_range; [apply (sd_energies _ _ Hsound)|apply (sd_groups _ _ Hsound)| |exact H].
  intros el El. eapply (se_last _ _ Hsafe); eauto.
Qed.

Lemma vec_get_in {A} (l : list A) i x : vec_get l i = Ok x -> In x l.
Proof. unfold vec_get. destruct (nth_error l (N.to_nat i)) eqn:E; [|discriminate]. cbn. intros H. injection H; intros; subst. eapply nth_error_In; eauto. Qed.

Lemma solo_segment_fine cf p k p' b nx x : fine p -> solo_segment cf td dom p = Ok (k, p', b, nx, x) ->
  fine p' /\ Forall (placed ok dom) nx.
Proof.
  intros ((Hc & He) & Hg) H. unfold solo_segment in H. rb H as xs E1. rb H as [o q] E2.
  set (p0 := if p_num_mean_free_paths p <. f0 then set_num_mean_free_paths p fsmall else p) in * .
  assert (Hq0 : p_cell q = p_cell p /\ p_energy_group q = p_energy_group p /\ p_kinetic_energy q = p_kinetic_energy p).
  { pose proof (outcome_after_place _ _ _ _ _ _ _ E2) as (A & B). pose proof (outcome_after_energy _ _ _ _ _ _ _ E2) as C.
    rewrite A, B, C. unfold p0. destruct (p_num_mean_free_paths p <. f0); repeat split; reflexivity. }
  destruct Hq0 as (Qc & Qg & Qe). clear E2.
  rb H as [[[k1 p1] b1] nx1] E3. injection H; intros; subst k1 p1 b1 nx1 x; clear H.
  set (q1 := set_num_segments q (p_num_segments q +. f1)) in * .
  assert (Q1 : p_cell q1 = p_cell p /\ p_energy_group q1 = p_energy_group p /\ p_kinetic_energy q1 = p_kinetic_energy p)
    by (cbn; auto). destruct Q1 as (Qc1 & Qg1 & Qe1). clearbody q1. clear q Qc Qg Qe p0.
  destruct o; cbn [after_segment] in E3.
  - unfold on_collision in E3. rb E3 as cs E4. rb E3 as [[[k2 p2] b2] nx2] E5. rb E3 as g E6.
    injection E3; intros; subst; clear E3.
    unfold collision_event in E5. destruct (get_current_xs q1) as [cur p3] eqn:E7.
    assert (Hp3 : p_cell p3 = p_cell p /\ p_kinetic_energy p3 = p_kinetic_energy p).
    { unfold get_current_xs, draw in E7. cbv zeta in E7. injection E7; intros; subst. cbn. auto. }
    destruct Hp3 as (A3 & B3).
    rb E5 as r E8. rb E5 as mat E9. rb E5 as [[n p4] sec] E10. injection E5; intros; subst; clear E5.
    apply vec_get_in in E9.
    assert (He3 : ok (p_kinetic_energy p3)) by congruence.
    destruct (sample_collision_ok _ _ _ _ _ _ E9 He3 E10) as (A & B & C).
    split.
    + split; [split|].
      * destruct (1 <=? n); cbn; congruence.
      * destruct (1 <=? n); cbn; exact B.
      * apply group_in_range in E6; [|exact B]. destruct (1 <=? n); cbn; exact E6.
    + cbn [app]. eapply Forall_impl; [|exact C]. intros q (D & E). split; [rewrite D, A3; exact Hc|exact E].
  - unfold on_facet in E3. rb E3 as conn E4. rb E3 as fa E5. rb E3 as p2 E6.
    assert (Hp2 : p_cell p2 < n_cells dom /\ p_kinetic_energy p2 = p_kinetic_energy p /\ p_energy_group p2 = p_energy_group p).
    { pose proof (facet_event_last _ _ _ E6) as Hev. pose proof (vec_get_in _ _ _ E4) as I4. pose proof (vec_get_in _ _ _ E5) as I5.
      unfold facet_crossing_event in E6. destruct (fa_event fa) eqn:Ef.
      - discriminate.
      - injection E6; intros; subst. cbn. rewrite Qc1. auto.
      - injection E6; intros; subst. cbn. rewrite Qc1. auto.
      - rb E6 as d0 E7. rb E6 as c0 E8. rb E6 as f0' E9. injection E6; intros; subst. cbn. split; [|auto].
        destruct (loc_cell (fa_adjacent fa)) as [c1|] eqn:E10; [|discriminate]. cbn in E8. injection E8; intros; subst.
        eapply (sd_mesh _ _ Hsound); eauto.
      - destruct (p_last_event p2) eqn:El; try discriminate; try discriminate Hev; try discriminate E3. }
    destruct Hp2 as (A2 & B2 & C2).
    assert (F2 : fine p2) by (split; [split; [exact A2|rewrite B2; exact He]|rewrite C2; exact Hg]).
    destruct (p_last_event p2).
    + discriminate.
    + injection E3; intros; subst. split; [exact F2|constructor].
    + discriminate.
    + injection E3; intros; subst. split; [|constructor]. destruct F2 as ((F21 & F22) & F23). split; [split|]; auto.
    + rb E3 as pls E7. rb E3 as pl E8. injection E3; intros; subst. split; [|constructor].
      unfold reflect_particle. cbv zeta. destruct (f0 <. _); [|exact F2]. destruct F2 as ((F21 & F22) & F23). split; [split|]; auto.
    + discriminate.
  - injection E3; intros; subst. split; [|constructor]. split; [split|]; congruence.
Qed.

Lemma reaches_fine p q : fine p -> reaches td dom p q -> fine q.
Proof. intros Hf H. induction H; auto. apply IHreaches. eapply solo_segment_fine; eauto. Qed.

Lemma prepare_fine p p0 : placed ok dom p -> prepare_particle td p = Ok p0 -> fine p0.
Proof.
  intros (Hc & He) H. unfold prepare_particle in H. rb H as g E. injection H; intros; subst; clear H.
  assert (Hk : p_kinetic_energy (if p_time_to_census p <=. f0 then set_time_to_census p (p_time_to_census p +. td_dt td) else p)
             = p_kinetic_energy p) by (destruct (_ <=. f0); reflexivity).
  assert (Hl : p_cell (if p_time_to_census p <=. f0 then set_time_to_census p (p_time_to_census p +. td_dt td) else p)
             = p_cell p) by (destruct (_ <=. f0); reflexivity).
  cbn in E. rewrite Hk in E. apply group_in_range in E; [|exact He].
  split; [split|]; cbn.
  - rewrite Hl. exact Hc.
  - rewrite Hk. exact He.
  - exact E.
Qed.

Lemma placed_stays p : placed ok dom p -> stays_in_range td dom ng p.
Proof.
  intros Hp p0 q H0 Hq. pose proof (reaches_fine _ _ (prepare_fine _ _ Hp H0) Hq) as ((Hc & _) & Hg). split; assumption.
Qed.

Lemma solo_track_fine fuel : forall cf p p' b nx l, fine p -> solo_track fuel cf td dom p = Ok (p', b, nx, l) ->
  placed ok dom p' /\ Forall (placed ok dom) nx.
Proof.
  induction fuel as [|fuel IH]; intros cf p p' b nx l Hf H; cbn [solo_track] in H; [discriminate|].
  rb H as [[[[k p1] b1] nx1] x] E. destruct (solo_segment_fine _ _ _ _ _ _ _ Hf E) as (F1 & F2).
  destruct k.
  - rb H as [[[p2 b2] nx2] l2] E2. destruct (IH _ _ _ _ _ _ F1 E2) as (G1 & G2).
    injection H; intros; subst. split; [exact G1|]. apply Forall_app. auto.
  - injection H; intros; subst. split; [apply F1|exact F2].
Qed.

Lemma solo_fine fuel cf p p' b nx l : placed ok dom p -> solo fuel cf td dom p = Ok (p', b, nx, l) ->
  placed ok dom p' /\ Forall (placed ok dom) nx.
Proof. intros Hp H. unfold solo in H. rb H as p0 E. eapply solo_track_fine; eauto using prepare_fine. Qed.

Lemma solos_fine fuel cf ps : forall rs, Forall (placed ok dom) ps -> rmap (solo fuel cf td dom) ps = Ok rs ->
  Forall (placed ok dom) (finals rs) /\ Forall (placed ok dom) (created rs).
Proof.
  induction ps as [|p ps IH]; intros rs Hp H; cbn [rmap] in H.
  - injection H; intros; subst. split; constructor.
  - inversion Hp; subst. rb H as [[[p' b] nx] l] E. rb H as rs' E'. injection H; intros; subst.
    destruct (IH _ H3 E') as (I1 & I2). destruct (solo_fine _ _ _ _ _ _ _ H2 E) as (J1 & J2).
    split; [constructor; auto|]. unfold created. cbn [map concat]. apply Forall_app. auto.
Qed.

End Range.
