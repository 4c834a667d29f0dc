(** What a segment does to the way to the next face and to the number of mean free paths (C67). *)
From Coq Require Import NArith ZArith QArith List Bool Reals Lra Lia Psatz.
From Verif Require Import Float RealOps RngModel RngLemmas ParticleModel NuclearModel MeshTypes Balance TrackModel CycleModel GridModel MeshModel GridSpec MeshSpec MeshTheorems
  TrackSpec TrackAccount PopSpec SegmentSpec NearestLemmas FacetLemmas SegmentFacts CrossingLemmas NuclearSpec OutcomeLemmas GeomSpec GeomLemmas PlaneLemmas
  StaySpec StayLemmas StaySteps StayRun SpeedSpec SpeedFacts HaltSpec HaltRng HaltGap.
Import ListNotations.
Local Open Scope R_scope.
Local Opaque rng_next spawn_rn_seed huge tiny.

(** The number of mean free paths was just drawn. *)
Definition fresh (q : particle Rops) : Prop :=
  p_num_mean_free_paths q = - ln (fsample (f := Rops) (p_random_number_seed q)) /\ (p_random_number_seed q < two64)%N.

Lemma sampled_fresh (q : particle Rops) : fresh (sample_num_mfp q).
Proof.
  unfold sample_num_mfp. rewrite draw_next. unfold fresh. cbn [p_num_mean_free_paths p_random_number_seed set_num_mean_free_paths set_random_number_seed].
  split; [|apply rng_next_lt]. unfold next_draw. cbn [fneg f1 fmul Float.fln Rops].
  match goal with |- @eq _ ?a ?b => change (@eq R a b) end. ring.
Qed.
Lemma updated_fresh (q : particle Rops) e a : fresh (update_trajectory q e a).
Proof. unfold update_trajectory. rewrite draw_next. cbv zeta. apply sampled_fresh. Qed.

Lemma collision_fresh (p : particle Rops) r mass n p' nx : sample_collision p r mass = Ok (n, p', nx) -> ((1 <= n)%N -> fresh p') /\ Forall fresh nx.
Proof.
  unfold sample_collision. intros H. destruct (r_type r).
  - destruct (draw_scatter p mass) as [[e a] p1]. injection H; intros; subst. split; [intros _; apply updated_fresh|constructor].
  - injection H; intros; subst. split; [lia|constructor].
  - destruct (draw p) as [u p1]. rb H as n0 En.
    assert (Hmulti : forall n0,
      (do _ <- rassert (n0 <? 5)%N;
       (let '(energy, angle, p2) := draw_fission p1 in
        let (out, p3) := draw_fission_n (N.to_nat (n0 - 1)) p2 in
        let (seeds, p4) := spawn_n (N.to_nat (n0 - 1)) p3 in
        let sec := map (fun '(seed, (e, a)) => secondary p4 seed e a) (combine seeds out) in
        Ok (n0, update_trajectory p4 energy angle, sec))) = Ok (n, p', nx) -> ((1 <= n)%N -> fresh p') /\ Forall fresh nx).
    { clear H En n0. intros n0 H. rb H as t Et'. destruct (draw_fission p1) as [[e a] p2]. destruct (draw_fission_n _ p2) as [out p3].
      destruct (spawn_n _ p3) as [seeds p4]. cbv zeta in H. injection H; intros; subst; clear H. split; [intros _; apply updated_fresh|].
      apply Forall_forall. intros q Hq. apply in_map_iff in Hq as ((seed & e' & a') & <- & Hin). unfold secondary. apply updated_fresh. }
    destruct n0 as [|[x|x|]].
    + injection H; intros; subst. split; [lia|constructor].
    + exact (Hmulti _ H).
    + exact (Hmulti _ H).
    + destruct (draw_fission p1) as [[e a] p2]. injection H; intros; subst. split; [intros _; apply updated_fresh|constructor].
Qed.

(** A fresh particle flies at least [2^-53] mean free paths before it collides. *)
Lemma fresh_paths (q : particle Rops) n : fresh q -> paths_left q n -> / 2 ^ 53 <= n.
Proof.
  intros (E & Hs) H. destruct (extreme (p_random_number_seed q)) eqn:Ex.
  - pose proof (paths_extreme _ Hs Ex) as Z. destruct H as [(A & _)|(_ & ->)]; [exfalso; apply A; rewrite E; exact Z|].
    unfold next_draw. apply paths_gap; [apply rng_next_lt|apply no_two_extremes; assumption].
  - pose proof (paths_gap _ Hs Ex) as G. destruct H as [(_ & ->)|(A & _)]; [rewrite E; exact G|].
    exfalso. rewrite E in A. assert (0 < / 2 ^ 53) by (apply Rinv_0_lt_compat; lra). change (F Rops) with R in * . lra.
Qed.

Lemma paths_unique (p : particle Rops) n n' : paths_left p n -> paths_left p n' -> n = n'.
Proof. intros [(A & ->)|(A & ->)] [(B & ->)|(B & ->)]; congruence. Qed.
Lemma paths_exist (p : particle Rops) : exists n, paths_left p n.
Proof. destruct (Req_EM_T (p_num_mean_free_paths p) 0) as [E|E]; eexists; [right|left]; split; eauto. Qed.
Lemma paths_nonneg (p : particle Rops) n : on_time p -> paths_left p n -> 0 <= n.
Proof. intros (_ & H) [(_ & ->)|(_ & ->)]; [exact H|]. apply minus_ln_pos, draw_unit. Qed.

(** ** The end of a segment, once more *)

Lemma outcome_paths (dom : domain Rops) (p : particle Rops) speed xs o q : outcome_after dom p speed false xs = Ok (o, q) ->
  p_total_cross_section q = xs /\
  exists n df, paths_left p n /\ 
    (o = OutCollision -> p_segment_path_length q < huge -> p_segment_path_length q = n * mean_path xs) /\
    (o = OutFacetCrossing -> p_segment_path_length q = df /\ df < Rmin huge (n * mean_path xs) /\ p_num_mean_free_paths q = n - p_segment_path_length q / mean_path xs).
Proof.
  intros H. destruct (outcome_parts _ _ _ _ _ _ _ H) as (i & df & p1 & d & En & Eo & Hd & ->).
  destruct (prepared_paths p xs) as (Hn & Hm & Ht & Ha & Hc & Hu & Hx & Hs).
  destruct (nearest_facet_first _ _ _ _ En) as ((y & Hp1) & _). apply event_is in Eo. rewrite Hm, Ht in Eo.
  destruct (end_clock p1 speed d o i) as (_ & _ & El & Enum & _). rewrite El.
  assert (T1 : p_total_cross_section p1 = xs).
  { rewrite Hp1. unfold prepared_for. cbv zeta. destruct (feq _ f0); reflexivity. }
  split. { unfold segment_end. cbv zeta. destruct o; destruct (feq d f0); exact T1. }
  assert (N1 : p_num_mean_free_paths p1 = p_num_mean_free_paths (prepared_for p xs)) by (rewrite Hp1; reflexivity).
  assert (M1 : p_mean_free_path p1 = mean_path xs) by (rewrite Hp1; exact Hm).
  exists (p_num_mean_free_paths (prepared_for p xs)), df. split; [exact Hn|]. split.
  - intros -> Hh. cbn [first_event] in Eo. destruct Eo as (E & _). rewrite E in * . unfold Rmin in * . destruct (Rle_dec _ _); [lra|reflexivity].
  - intros ->. cbn [first_event] in Eo. destruct Eo as (E & E1 & E2). split; [exact E|]. split; [exact E1|]. rewrite Enum, N1, M1. reflexivity.
Qed.
