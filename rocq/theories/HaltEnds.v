(** Tracks end (C67). *)
From Coq Require Import NArith ZArith QArith List Bool Reals Lra Lia Psatz.
From Verif Require Import Float RealOps RngModel RngLemmas ParticleModel NuclearModel MeshTypes Balance TrackModel CycleModel GridModel MeshModel GridSpec MeshSpec MeshTheorems
  TrackSpec TrackAccount PopSpec SegmentSpec AssignLemmas NearestLemmas FacetLemmas SegmentFacts CrossingLemmas NuclearSpec NuclearFacts OutcomeLemmas GeomSpec GeomLemmas PlaneLemmas
  ScheduleSpec FluxLog StaySpec StayLemmas StaySteps StayRun SpeedSpec SpeedFacts LifeSpec HaltSpec HaltRng HaltGap HaltSteps HaltWays HaltLine.
Import ListNotations.
Local Open Scope R_scope.
Local Opaque rng_next spawn_rn_seed huge tiny.

(** ** Everything but the search for a partner ends by itself *)

Lemma cross_section_fuel {K : FloatOps} (td : track_data K) dom c g : cell_cross_section td dom c g <> NoFuel.
Proof.
  unfold cell_cross_section. apply rbind_fuel; [apply vec_get_fuel|]. intros cs _. unfold weighted_macroscopic_cross_section.
  apply rbind_fuel; [apply vec_get_fuel|]. intros mat _. apply rbind_fuel; [|discriminate]. apply rmap_fuel. intros iso _.
  unfold macroscopic_total_cross_section. destruct (orb _ _); [discriminate|]. apply rbind_fuel; [|discriminate].
  unfold get_total_cross_section. apply rbind_fuel; [apply vec_get_fuel|]. intros rs _. apply rbind_fuel; [|discriminate]. apply rmap_fuel. intros r _. apply vec_get_fuel.
Qed.
Lemma outcome_fuel {K : FloatOps} (dom : domain K) p speed force xs : outcome_after dom p speed force xs <> NoFuel.
Proof.
  unfold outcome_after. cbv zeta. apply rbind_fuel.
  - unfold nearest_facet. apply rbind_fuel; [apply search_first|]. intros [nf q] _. apply rbind_fuel; [apply rassert_fuel|discriminate].
  - intros [nf q] _. destruct (if force then _ else _) as [d o]. apply rbind_fuel; [apply rassert_fuel|]. intros _ _. destruct (feq _ f0); discriminate.
Qed.
Lemma facet_fuel {K : FloatOps} (dom : domain K) p b ex : on_facet dom p b ex <> NoFuel.
Proof.
  unfold on_facet. apply rbind_fuel; [apply vec_get_fuel|]. intros conn _. apply rbind_fuel; [apply vec_get_fuel|]. intros fa _. apply rbind_fuel.
  - unfold facet_crossing_event. destruct (fa_event fa); try discriminate; (apply rbind_fuel; [apply unwrap_fuel|]; intros ? _; apply rbind_fuel; [apply unwrap_fuel|]; intros ? _;
      apply rbind_fuel; [apply unwrap_fuel|discriminate]).
  - intros q _. destruct (p_last_event q); try discriminate. apply rbind_fuel; [apply vec_get_fuel|]. intros pls _. apply rbind_fuel; [apply vec_get_fuel|discriminate].
Qed.
Lemma sample_fuel {K : FloatOps} (p : particle K) r m : sample_collision p r m <> NoFuel.
Proof.
  unfold sample_collision. destruct (r_type r); [destruct (draw_scatter p m) as [[e a] q]; discriminate|discriminate|].
  destruct (draw p) as [u q]. apply rbind_fuel; [apply unwrap_fuel|]. intros n _.
  assert (Hm : forall n, (do _ <- rassert (n <? 5)%N;
       (let '(energy, angle, p2) := draw_fission q in
        let (out, p3) := draw_fission_n (N.to_nat (n - 1)) p2 in
        let (seeds, p4) := spawn_n (N.to_nat (n - 1)) p3 in
        let sec := map (fun '(seed, (e, a)) => secondary p4 seed e a) (combine seeds out) in
        Ok (n, update_trajectory p4 energy angle, sec))) <> NoFuel).
  { intros n0. apply rbind_fuel; [apply rassert_fuel|]. intros _ _. destruct (draw_fission q) as [[e a] q1]. destruct (draw_fission_n _ q1) as [l q2]. destruct (spawn_n _ q2) as [l2 q3]. discriminate. }
  destruct n as [|[x|x|]]; [discriminate|apply Hm|apply Hm|]. destruct (draw_fission q) as [[e a] q1]. discriminate.
Qed.

(** ** With a right cross-section so does that search *)

Lemma outcome_group (dom : domain Rops) (p : particle Rops) speed force xs o q : outcome_after dom p speed force xs = Ok (o, q) ->
  p_energy_group q = p_energy_group p /\ p_cell q = p_cell p /\ p_total_cross_section q = xs.
Proof.
  intros H. destruct (outcome_parts _ _ _ _ _ _ _ H) as (i & df & p1 & d & Enf & _ & _ & ->). destruct (nearest_facet_first _ _ _ _ Enf) as ((x1 & Hp1) & _).
  assert (P : p_energy_group p1 = p_energy_group p /\ p_cell p1 = p_cell p /\ p_total_cross_section p1 = xs).
  { rewrite Hp1. unfold prepared_for. cbv zeta. match goal with |- context [if feq ?a ?b then sample_num_mfp _ else _] => destruct (feq a b) end; repeat split. }
  destruct P as (<- & <- & <-). unfold segment_end. cbv zeta. destruct (feq d f0); destruct o; repeat split.
Qed.

Lemma segment_fuel cf td dom (p : particle Rops) : (2 <= cf)%nat -> answered td dom -> solo_segment cf td dom p <> NoFuel.
Proof.
  intros Hcf [A1 A2]. unfold solo_segment. apply rbind_fuel; [apply cross_section_fuel|]. intros xs Ex. cbv zeta. apply rbind_fuel; [apply outcome_fuel|].
  intros [o q] Eo. apply rbind_fuel; [|intros [[[k p'] b] nx] _; discriminate]. destruct (outcome_group _ _ _ _ _ _ _ Eo) as (G1 & G2 & G3).
  assert (G4 : p_energy_group q = p_energy_group p /\ p_cell q = p_cell p) by (rewrite G1, G2; destruct (flt _ _); split; reflexivity). clear G1 G2. destruct G4 as (G1 & G2).
  destruct o; cbn [after_segment]; [|apply facet_fuel|discriminate]. unfold on_collision. apply rbind_fuel; [apply vec_get_fuel|]. intros cs Ecs.
  cbn [p_cell set_num_segments] in Ecs. rewrite G2 in Ecs. pose proof (A2 _ _ _ _ Ecs Ex) as (X0 & D0 & mat & Em & Hm & Hsig).
  apply rbind_fuel.
  - destruct (collision_partner cf td (binc balance_zero ENumSegments 1) (cs_material cs) mat (cs_number_density cs) (set_num_segments q (fadd (p_num_segments q) f1)) [] Hcf D0 Em) as (k & iso & r & _ & _ & _ & E);
      cbn [p_energy_group p_total_cross_section set_num_segments]; rewrite ?G1, ?G3; [exact Hm|exact Hsig| |exact X0|].
    + unfold cell_cross_section in Ex. rewrite Ecs in Ex. cbn [rbind] in Ex. exact Ex.
    + change (Float.fadd (p_num_segments q) f1) with (fadd (p_num_segments q) f1) in E. rewrite E. apply rbind_fuel; [apply sample_fuel|]. intros [[n p2] sec] _. discriminate.
  - intros [[[k p2] b2] nx2] _. apply rbind_fuel; [|intros; discriminate].
    destruct (lookup_total (td_nuclear td) (p_kinetic_energy p2) A1) as (gr & -> & _). discriminate.
Qed.

(** ** The track *)

Lemma solo_line cf td dom (p : particle Rops) keep p1 b nx x : solo_segment cf td dom p = Ok (keep, p1, b, nx, x) ->
  exists e, seg_step td dom p e keep p1 nx /\ cell_cross_section td dom (p_cell p) (p_energy_group p) = Ok (p_total_cross_section p1).
Proof.
  intros H. destruct (solo_step _ _ _ _ _ _ _ _ _ H) as (e & St & _). exists e. split; [exact St|].
  unfold solo_segment in H. rb H as xs Ex. cbv zeta in H. rb H as [o q] Eo. rb H as [[[k p'] b'] nx'] Ea. injection H; intros; subst; clear H. rewrite Ex. f_equal.
  destruct (outcome_group _ _ _ _ _ _ _ Eo) as (_ & _ & G3). rewrite <- G3. clear Ex Eo G3. destruct o; cbn [after_segment] in Ea.
  - unfold on_collision in Ea. rb Ea as cs Ecs. rb Ea as [[[k p2] b2] nx2] Ec. rb Ea as gr Eg. injection Ea; intros; subst; clear Ea. cbn [p_total_cross_section set_energy_group].
    unfold collision_event in Ec. destruct (get_current_xs _) as [cur q2] eqn:Ecur. rb Ec as r Er. rb Ec as mat Em. rb Ec as [[n p3] sec] Es. injection Ec; intros; subst; clear Ec.
    match goal with |- _ = p_total_cross_section (if ?b then _ else _) => destruct b | _ => idtac end; cbn [p_total_cross_section set_energy_group set_species];
    rewrite (collision_xs _ _ _ _ _ _ Es); unfold get_current_xs in Ecur; rewrite draw_next in Ecur; apply (f_equal snd) in Ecur; cbn [snd] in Ecur; subst q2; reflexivity.
  - unfold on_facet in Ea. rb Ea as conn Ec. rb Ea as fa Ef. rb Ea as p2 Ep.
    assert (G : p_total_cross_section p2 = p_total_cross_section q).
    { unfold facet_crossing_event in Ep. destruct (fa_event fa); try discriminate Ep; try (apply Ok_inj in Ep; subst p2; reflexivity);
        rb Ep as d0 Ed; rb Ep as c0 Ec0; rb Ep as f0' Ef0; apply Ok_inj in Ep; subst p2; reflexivity. }
    rewrite <- G. destruct (p_last_event p2); try discriminate Ea.
    + injection Ea; intros; subst. reflexivity.
    + injection Ea; intros; subst. reflexivity.
    + rb Ea as pls Epl. rb Ea as pl Epl2. injection Ea; intros; subst. unfold reflect_particle. destruct (flt _ _); reflexivity.
  - injection Ea; intros; subst. reflexivity.
Qed.

Lemma unfinished_line fuel cf td dom : (2 <= cf)%nat -> answered td dom -> forall p : particle Rops, solo_track fuel cf td dom p = NoFuel ->
  exists hs q, line td dom p hs q /\ length hs = fuel.
Proof.
  intros Hcf Ha. induction fuel as [|fuel IH]; intros p H; [exists [], p; split; [constructor|reflexivity]|]. cbn [solo_track] in H.
  pose proof (segment_fuel cf td dom p Hcf Ha) as Hn. destruct (solo_segment cf td dom p) as [[[[[k p1] b1] nx1] x]| |] eqn:E; cbn [rbind] in H; [|discriminate H|congruence].
  destruct k; [|discriminate H]. destruct (solo_line _ _ _ _ _ _ _ _ _ E) as (e & St & Ex).
  assert (E2 : solo_track fuel cf td dom p1 = NoFuel) by (destruct (solo_track fuel cf td dom p1) as [[[[p2 b2] nx2] l2]| |]; [discriminate H|discriminate H|reflexivity]).
  destruct (IH _ E2) as (hs & q & Hl & <-). exists (Flew p e p1 :: hs), q. split; [eapply line_on; eauto|reflexivity].
Qed.

Theorem track_ends g bc pt td (dom : domain Rops) X fuel cf p : built g bc pt (d_mesh dom) -> sized g -> fits g -> heavy td -> 0 <= td_dt td ->
  no_denser td dom X -> 1 <= X -> answered td dom -> (2 <= cf)%nat -> flying g pt p -> 0 < p_kinetic_energy p ->
  most_segments g X (p_time_to_census p) < INR fuel ->
  solo_track fuel cf td dom p <> NoFuel \/ exists hs q, line td dom p hs q /\ ~ Forall (regular g) hs.
Proof.
  intros B Hs Hf Hh Hdt Hx HX Ha Hcf Hfl He Hb. destruct (solo_track fuel cf td dom p) as [x| |] eqn:E; [left; discriminate|left; discriminate|right].
  destruct (unfinished_line _ _ _ _ Hcf Ha _ E) as (hs & q & Hl & Hn). exists hs, q. split; [exact Hl|]. intros Hr.
  pose proof (line_bound g bc pt td dom X B Hs Hf Hh Hdt Hx HX hs p q Hl (conj Hfl He) Hr) as A. rewrite Hn in A. lra.
Qed.

(** ** The bounds on lines, in the order of their hypotheses in HaltProps.v *)
Section Bounds.
Variables (g : grid Rops) (bc : String.string) (pt : partition) (td : track_data Rops) (dom : domain Rops) (X : R) (hs : list happening) (p q : particle Rops).
Hypotheses (B : built g bc pt (d_mesh dom)) (Hs : sized g) (Hf : fits g) (Hh : heavy td) (Hdt : 0 <= td_dt td) (Hx : no_denser td dom X) (HX : 1 <= X)
  (Hl : line td dom p hs q) (Hfl : flying g pt p) (He : 0 < p_kinetic_energy p) (Hr : Forall (regular g) hs).
Lemma path_bound : 0 <= path hs <= light_speed (K := Rops) * (p_time_to_census p - p_time_to_census q).
Proof using All. exact (proj2 (line_path g bc pt td dom B Hs Hf Hh Hdt hs p q Hl (conj Hfl He) Hr)). Qed.
Lemma collisions_bound : INR (collisions hs) <= most_collisions X (path hs).
Proof using All. exact (line_most_collisions g bc pt td dom X B Hs Hf Hh Hdt Hx HX hs p q Hl (conj Hfl He) Hr). Qed.
Lemma crossings_bound : INR (crossings hs) <= cells_within g (path hs) + 3 * (INR (collisions hs) + 1).
Proof using All. exact (line_most_crossings g bc pt td dom X B Hs Hf Hh Hdt Hx HX hs p q Hl (conj Hfl He) Hr). Qed.
Lemma segments_bound : INR (length hs) <= most_segments g X (p_time_to_census p).
Proof using All. exact (line_bound g bc pt td dom X B Hs Hf Hh Hdt Hx HX hs p q Hl (conj Hfl He) Hr). Qed.
End Bounds.
Lemma sampled_paths (p : particle Rops) n : paths_left (sample_num_mfp p) n -> / 2 ^ 53 <= n.
Proof. apply fresh_paths, sampled_fresh. Qed.
