(** Every tracking program returns only what a track of the specification yields, with the
    counters the specification gives; consequences on numbers of particles. *)
From Coq Require Import NArith PeanoNat List Bool Lia.
From Verif Require Import Float RngModel ParticleModel NuclearModel MeshTypes Balance TrackModel CycleModel TrackSpec CycleSpec ProgLemmas.
Import ListNotations.
Local Open Scope N_scope.

Lemma rbind_ok {A B} (r : result A) (k : A -> result B) b :
  rbind r k = Ok b -> exists a, r = Ok a /\ k a = Ok b.
Proof. destruct r; cbn; intros H; try discriminate. eauto. Qed.

(** Inversion of [do x <- r; k = Ok _] with chosen names. *)
Tactic Notation "rb" hyp(H) "as" simple_intropattern(x) ident(E) :=
  apply rbind_ok in H; destruct H as (x & E & H); cbv beta iota in H.

Ltac ok_inv :=
  repeat match goal with
  | H : rbind ?r _ = Ok _ |- _ => apply rbind_ok in H; destruct H as (? & ? & H)
  | H : Panic = Ok _ |- _ => discriminate H
  | H : NoFuel = Ok _ |- _ => discriminate H
  end.

Local Opaque rng_next spawn_rn_seed.

Section Account.
Context {K : FloatOps}.

(** ** Counters *)

Definition history_balance (evs : list seg_event) : balance :=
  mkBalance (total (counts EAbsorb) evs) (total (counts ECensus) evs) (total (counts EEscape) evs)
    (total (counts ECollision) evs) (total (counts EEnd) evs) (total (counts EFission) evs)
    (total (counts EProduce) evs) (total (counts EScatter) evs) (total (counts EStart) evs)
    (total (counts ESource) evs) (total (counts EOverRr) evs) (total (counts EWeightRr) evs)
    (total (counts ESplit) evs) (total (counts ENumSegments) evs).

Lemma bget_history evs k : bget (history_balance evs) k = total (counts k) evs.
Proof. destruct k; reflexivity. Qed.

Lemma total_app f e1 e2 : total f (e1 ++ e2) = total f e1 + total f e2.
Proof. induction e1; cbn [total app]; lia. Qed.

Lemma history_app e1 e2 : history_balance (e1 ++ e2) = badd (history_balance e1) (history_balance e2).
Proof. apply balance_eq. intros k. rewrite bget_badd, !bget_history. apply total_app. Qed.

Lemma history_nil : history_balance [] = balance_zero.
Proof. reflexivity. Qed.

Lemma balance_add_eq b e : forall b', (forall k, bget b' k = bget b k + counts k e) -> b' = badd b (history_balance [e]).
Proof. intros b' H. apply balance_eq. intros k. rewrite bget_badd, bget_history, H. cbn [total]. lia. Qed.

Lemma tally_collision_history b t n :
  tally_collision (binc b ENumSegments 1) t n = badd b (history_balance [SegCollision t n]).
Proof.
  apply balance_add_eq. intros k. destruct t; unfold tally_collision, binc; destruct k; unfold bget, bset; cbn; lia.
Qed.
Lemma census_history b : binc (binc b ENumSegments 1) ECensus 1 = badd b (history_balance [SegCensus]).
Proof. apply balance_add_eq. intros k. unfold binc; destruct k; unfold bget, bset; cbn; lia. Qed.
Lemma escape_history b : binc (binc b ENumSegments 1) EEscape 1 = badd b (history_balance [SegFacet BoundaryEscape]).
Proof. apply balance_add_eq. intros k. unfold binc; destruct k; unfold bget, bset; cbn; lia. Qed.
Lemma crossing_history b e : e <> BoundaryEscape -> binc b ENumSegments 1 = badd b (history_balance [SegFacet e]).
Proof. intros He. apply balance_add_eq. intros k. unfold binc; destruct e; try congruence; destruct k; unfold bget, bset; cbn; lia. Qed.

(** ** One segment *)

Definition step_post (td : track_data K) (dom : domain K) (p : particle K) (b : balance) (ex : list (particle K))
    (s : step_state) : Prop :=
  let '(keep, p', b', ex') := s in
  exists e nx, seg_step td dom p e keep p' nx /\ b' = badd b (history_balance [e]) /\ ex' = ex ++ nx.

Lemma facet_event_last p fa (p' : particle K) : facet_crossing_event p fa = Ok p' ->
  match fa_event fa with
  | TransitOnProcessor => p_last_event p' = EvTransitExit
  | BoundaryEscape => p_last_event p' = EvEscape
  | BoundaryReflection => p_last_event p' = EvReflection
  | TransitOffProcessor => p_last_event p' = EvCommunication
  | AdjacencyUndefined => False
  end.
Proof.
  unfold facet_crossing_event. destruct (fa_event fa); intros H; ok_inv; try discriminate; injection H; intros; subst; reflexivity.
Qed.

Lemma track_step_leaves cf td dom p b ex :
  leaves (step_post td dom p b ex) (track_step cf td dom p b ex).
Proof.
  unfold track_step, outcome.
  eapply leaves_bind with (P := fun op => exists xs,
    outcome_after dom (entering p) (get_speed p) (out_of_paths p) xs = Ok op).
  - eapply leaves_bind with (P := fun _ => True).
    + unfold get_xs. constructor. intros v. destruct (flt f0 v); [constructor; auto|].
      eapply leaves_bind with (P := fun _ => True); [apply leaves_lift; auto|].
      intros a _. constructor. constructor. auto.
    + intros xs _. apply leaves_lift. intros op E. exists xs. exact E.
  - intros (o, p1) (xs & E). constructor. apply leaves_lift. intros [[[keep p'] b'] ex'] E2.
    destruct o; unfold after_segment in E2.
    + (* collision *)
      unfold on_collision in E2. rb E2 as cs Ecs. rb E2 as [[[keep0 p0] b0] ex0] Ece.
      rb E2 as g Eg.
      unfold collision_event in Ece.
      destruct (get_current_xs (set_num_segments p1 (fadd (p_num_segments p1) f1))) as [cur p2] eqn:Ecur.
      rb Ece as r Er. rb Ece as mat Emat. rb Ece as [[n p3] sec] Esc.
      injection Ece; intros; subst; clear Ece.
      injection E2; intros; subst; clear E2.
      exists (SegCollision (r_type r) n), sec. repeat split.
      * eapply ss_collision; eauto.
      * apply tally_collision_history.
    + (* facet *)
      unfold on_facet in E2. rb E2 as conn Econn. rb E2 as fa Efa. rb E2 as p2 Ep2.
      pose proof (facet_event_last _ _ _ Ep2) as Hl.
      assert (Hc :
        match fa_event fa with
        | TransitOnProcessor => keep = true /\ p' = p2 /\ b' = binc b ENumSegments 1 /\ ex' = ex
        | BoundaryReflection => keep = true /\ b' = binc b ENumSegments 1 /\ ex' = ex /\
             exists planes pl, vec_get (me_geom (d_mesh dom)) (p_cell p2) = Ok planes /\
               vec_get planes (p_facet p2) = Ok pl /\ p' = reflect_particle p2 pl
        | BoundaryEscape => keep = false /\ p' = set_species (set_last_event p2 EvEscape) Unknown /\
             b' = binc (binc b ENumSegments 1) EEscape 1 /\ ex' = ex
        | _ => False
        end).
      { destruct (fa_event fa); try contradiction; rewrite Hl in E2; try discriminate.
        - injection E2; intros; subst; auto.
        - rb E2 as planes Epl. rb E2 as pl Epl2. injection E2; intros; subst. eauto 10.
        - injection E2; intros; subst; auto. }
      exists (SegFacet (fa_event fa)), [].
      assert (Hs : seg_step td dom p (SegFacet (fa_event fa))
                (match fa_event fa with BoundaryEscape => false | _ => true end) p' []).
      { eapply ss_facet; eauto. destruct (fa_event fa); try contradiction; intuition. }
      rewrite app_nil_r.
      destruct (fa_event fa) eqn:Ee; try contradiction.
      * destruct Hc as (-> & -> & -> & ->). rewrite escape_history. auto.
      * destruct Hc as (-> & -> & -> & _).
        rewrite <- (crossing_history b BoundaryReflection) by discriminate. auto.
      * destruct Hc as (-> & -> & -> & ->).
        rewrite <- (crossing_history b TransitOnProcessor) by discriminate. auto.
    + injection E2; intros; subst; clear E2.
      exists SegCensus, []. rewrite app_nil_r, census_history. repeat split.
      eapply ss_census; eauto.
Qed.

(** ** One track *)

Definition track_post (td : track_data K) (dom : domain K) (p : particle K) (b : balance) (ex : list (particle K))
    (s : track_state) : Prop :=
  let '(p', b', ex') := s in
  exists evs nx, track_path td dom p evs p' nx /\ b' = badd b (history_balance evs) /\ ex' = ex ++ nx.

Lemma tracking_leaves fuel cf td dom p b ex :
  leaves (track_post td dom p b ex) (cycle_tracking_function fuel cf td dom p b ex).
Proof.
  revert p b ex. induction fuel as [|fuel IH]; intros p b ex; cbn [cycle_tracking_function]; [constructor|].
  eapply leaves_bind; [apply track_step_leaves|].
  intros [[[keep p1] b1] ex1] (e & nx & Hs & -> & ->). destruct keep.
  - eapply leaves_weaken; [|apply IH].
    intros [[p' b'] ex'] (evs & nx' & Hp & -> & ->).
    exists (e :: evs), (nx ++ nx'). repeat split.
    + econstructor; eauto.
    + rewrite <- badd_assoc, <- history_app. reflexivity.
    + rewrite app_assoc. reflexivity.
  - constructor. exists [e], nx. repeat split. constructor. exact Hs.
Qed.

Lemma guts_leaves fuel cf td dom p b ex :
  leaves (fun s => exists q, prepare_particle td p = Ok q /\ track_post td dom q b ex s)
    (cycle_tracking_guts fuel cf td dom p b ex).
Proof.
  unfold cycle_tracking_guts. eapply leaves_bind with (P := fun q => prepare_particle td p = Ok q).
  - apply leaves_lift. auto.
  - intros q Hq. eapply leaves_weaken; [|apply tracking_leaves]. intros s Hs. exists q. auto.
Qed.

(** ** A slice *)

Definition slice_post (td : track_data K) (dom : domain K) (ps : list (particle K)) (b : balance)
    (ex : list (particle K)) (s : slice_result K) : Prop :=
  let '(ps', b', ex') := s in
  exists evss nxs, slice_paths td dom ps ps' evss nxs /\
    b' = badd b (history_balance (concat evss)) /\ ex' = ex ++ nxs.

Lemma slice_leaves fuel cf td dom ps b ex :
  leaves (slice_post td dom ps b ex) (track_slice fuel cf td dom ps b ex).
Proof.
  revert b ex. induction ps as [|p ps IH]; intros b ex; cbn [track_slice].
  - constructor. exists [], []. cbn [concat]. rewrite history_nil, badd_zero_r, app_nil_r. repeat split. constructor.
  - eapply leaves_bind; [apply guts_leaves|].
    intros [[p' b'] ex'] (q & Hq & evs & nx & Hp & -> & ->).
    eapply leaves_bind; [apply IH|].
    intros [[ps' b'] ex'] (evss & nxs & Hs & -> & ->).
    constructor. exists (evs :: evss), (nx ++ nxs). cbn [concat]. repeat split.
    + econstructor; eauto.
    + rewrite history_app, badd_assoc. reflexivity.
    + rewrite app_assoc. reflexivity.
Qed.

(** ** Species and numbers of particles *)

Lemma draw_species (p : particle K) : p_species (snd (draw p)) = p_species p.
Proof. reflexivity. Qed.

Lemma rotate_species (p : particle K) a b c d : p_species (rotate_direction p a b c d) = p_species p.
Proof. unfold rotate_direction. destruct (flt _ _); reflexivity. Qed.

Lemma update_trajectory_species (p : particle K) e a : p_species (update_trajectory p e a) = p_species p.
Proof. unfold update_trajectory, draw, sample_num_mfp, draw. cbn -[rotate_direction].
  rewrite rotate_species. reflexivity. Qed.

Lemma draw_fission_species (p : particle K) : p_species (snd (draw_fission p)) = p_species p.
Proof. reflexivity. Qed.

Lemma draw_fission_n_spec n (p : particle K) :
  p_species (snd (draw_fission_n n p)) = p_species p /\ length (fst (draw_fission_n n p)) = n.
Proof.
  revert p. induction n as [|n IH]; intros p; cbn [draw_fission_n]; auto.
  destruct (draw_fission p) as [[e a] p1] eqn:E1.
  specialize (IH p1). destruct (draw_fission_n n p1) as [l p2] eqn:E2. cbn in * .
  destruct IH as (H1 & H2). split; [|lia].
  rewrite H1. change p1 with (snd (e, a, p1)). rewrite <- E1. apply draw_fission_species.
Qed.

Lemma spawn_species (p : particle K) : p_species (snd (spawn p)) = p_species p.
Proof. unfold spawn. destruct (spawn_rn_seed (p_random_number_seed p)). reflexivity. Qed.

Lemma spawn_n_spec n (p : particle K) :
  p_species (snd (spawn_n n p)) = p_species p /\ length (fst (spawn_n n p)) = n.
Proof.
  revert p. induction n as [|n IH]; intros p; cbn [spawn_n]; auto.
  destruct (spawn p) as [s p1] eqn:E1.
  specialize (IH p1). destruct (spawn_n n p1) as [l p2] eqn:E2. cbn in * .
  destruct IH as (H1 & H2). split; [|lia].
  rewrite H1. change p1 with (snd (s, p1)). rewrite <- E1. apply spawn_species.
Qed.

(** Number of outgoing particles and species after a collision. *)
Lemma sample_collision_spec (p : particle K) r m n p' nx :
  sample_collision p r m = Ok (n, p', nx) ->
  p_species p' = p_species p /\ Forall (fun x => p_species x = p_species p) nx /\
  N.of_nat (length nx) = n - 1 /\ n < 5 /\
  (r_type r = Scatter -> n = 1) /\ (r_type r = Absorption -> n = 0).
Proof.
  unfold sample_collision. destruct (r_type r) eqn:Et; intros H.
  - destruct (draw_scatter p m) as [[e a] p1] eqn:E1. ok_inv. injection H; intros; subst.
    rewrite update_trajectory_species.
    assert (p_species p1 = p_species p) as ->.
    { unfold draw_scatter in E1. cbn in E1. injection E1; intros; subst. reflexivity. }
    repeat split; auto; try lia; try discriminate; cbn; lia.
  - ok_inv. injection H; intros; subst. repeat split; auto; try lia; try discriminate; cbn; lia.
  - destruct (draw p) as [u p1] eqn:E1.
    assert (Hp1 : p_species p1 = p_species p) by (change p1 with (snd (u, p1)); rewrite <- E1; reflexivity).
    ok_inv.
    destruct x as [|[x|x|]].
    + ok_inv. injection H; intros; subst. repeat split; auto; try lia; try discriminate; cbn; lia.
    + ok_inv. destruct (draw_fission p1) as [[e a] p2] eqn:E2.
      destruct (draw_fission_n (N.to_nat (N.pos x~1 - 1)) p2) as [out p3] eqn:E3.
      destruct (spawn_n (N.to_nat (N.pos x~1 - 1)) p3) as [seeds p4] eqn:E4.
      ok_inv. injection H; intros; subst; clear H.
      pose proof (draw_fission_species p1) as F2. rewrite E2 in F2. cbn in F2.
      pose proof (draw_fission_n_spec (N.to_nat (N.pos x~1 - 1)) p2) as (F3 & L3). rewrite E3 in F3, L3. cbn [fst snd] in F3, L3.
      pose proof (spawn_n_spec (N.to_nat (N.pos x~1 - 1)) p3) as (F4 & L4). rewrite E4 in F4, L4. cbn [fst snd] in F4, L4.
      rewrite update_trajectory_species. split; [congruence|].
      unfold rassert in H1. destruct (N.pos x~1 <? 5) eqn:E5; [|discriminate]. apply N.ltb_lt in E5.
      split; [|split; [|split; [exact E5|split; discriminate]]].
      * apply Forall_forall. intros y Hy. apply in_map_iff in Hy. destruct Hy as ((s & e' & a') & <- & _).
        unfold secondary. rewrite update_trajectory_species. cbn. congruence.
      * rewrite map_length, combine_length, L3, L4, Nat.min_id, N2Nat.id. reflexivity.
    + ok_inv. destruct (draw_fission p1) as [[e a] p2] eqn:E2.
      destruct (draw_fission_n (N.to_nat (N.pos x~0 - 1)) p2) as [out p3] eqn:E3.
      destruct (spawn_n (N.to_nat (N.pos x~0 - 1)) p3) as [seeds p4] eqn:E4.
      ok_inv. injection H; intros; subst; clear H.
      pose proof (draw_fission_species p1) as F2. rewrite E2 in F2. cbn in F2.
      pose proof (draw_fission_n_spec (N.to_nat (N.pos x~0 - 1)) p2) as (F3 & L3). rewrite E3 in F3, L3. cbn [fst snd] in F3, L3.
      pose proof (spawn_n_spec (N.to_nat (N.pos x~0 - 1)) p3) as (F4 & L4). rewrite E4 in F4, L4. cbn [fst snd] in F4, L4.
      rewrite update_trajectory_species. split; [congruence|].
      unfold rassert in H1. destruct (N.pos x~0 <? 5) eqn:E5; [|discriminate]. apply N.ltb_lt in E5.
      split; [|split; [|split; [exact E5|split; discriminate]]].
      * apply Forall_forall. intros y Hy. apply in_map_iff in Hy. destruct Hy as ((s & e' & a') & <- & _).
        unfold secondary. rewrite update_trajectory_species. cbn. congruence.
      * rewrite map_length, combine_length, L3, L4, Nat.min_id, N2Nat.id. reflexivity.
    + destruct (draw_fission p1) as [[e a] p2] eqn:E2. ok_inv. injection H; intros; subst.
      pose proof (draw_fission_species p1) as F2. rewrite E2 in F2. cbn in F2.
      rewrite update_trajectory_species.
      repeat split; auto; try lia; try discriminate; try congruence; cbn; lia.
Qed.

Lemma check_validity_species (p : particle K) m i mf nf rt p' i' mf' :
  check_nearest_validity p m i mf nf = Ok (rt, p', i', mf') -> p_species p' = p_species p.
Proof.
  unfold check_nearest_validity. destruct (_ || _); intros H; ok_inv; injection H; intros; subst; reflexivity.
Qed.

Lemma mct_nf_loop_species fuel m co di tol planes (p : particle K) i mf nf p' :
  mct_nf_loop fuel m co di tol planes p i mf = Ok (nf, p') -> p_species p' = p_species p.
Proof.
  revert p i mf. induction fuel as [|fuel IH]; intros p i mf H; cbn [mct_nf_loop] in H; [discriminate|].
  ok_inv. destruct x0 as [[[rt p1] i1] mf1]. pose proof (check_validity_species _ _ _ _ _ _ _ _ _ H1) as Hs.
  destruct rt.
  - rewrite <- Hs. eapply IH; eauto.
  - ok_inv. injection H; intros; subst. exact Hs.
Qed.

Lemma nearest_facet_species (p : particle K) m nf p' :
  nearest_facet p m = Ok (nf, p') -> p_species p' = p_species p.
Proof.
  unfold nearest_facet, mct_nf_3dg. intros H. ok_inv. destruct x as [nf0 p0]. ok_inv.
  injection H; intros; subst. eapply mct_nf_loop_species; eauto.
Qed.

Lemma outcome_after_species dom (p : particle K) sp fc xs o p' :
  outcome_after dom p sp fc xs = Ok (o, p') -> p_species p' = p_species p.
Proof.
  unfold outcome_after. intros H. ok_inv. destruct x as [nf p1].
  apply nearest_facet_species in H0.
  assert (Hp1 : p_species p1 = p_species p).
  { rewrite H0. destruct (feq (p_num_mean_free_paths _) f0); reflexivity. }
  clear H0.
  match type of H with context [let '(_, _) := ?h in _] => destruct h as [d o'] end.
  ok_inv.
  match type of H with (if ?c then _ else _) = _ => destruct c end;
    injection H; intros; subst; destruct o; cbn; exact Hp1.
Qed.

(** One segment keeps the count of particles straight. *)
Lemma seg_step_count td dom (p : particle K) e keep p' nx :
  seg_step td dom p e keep p' nx -> p_species p = Known ->
  all_valid nx /\
  (keep = true -> p_species p' = Known) /\
  (keep = false -> p_species p' = Known <-> counts ECensus e = 1) /\
  (if keep then 1 else counts ECensus e) + N.of_nat (length nx)
    + counts EAbsorb e + counts EEscape e + counts EFission e = 1 + counts EProduce e /\
  (keep = true -> counts ECensus e = 0) /\
  counts ECollision e = counts EScatter e + counts EAbsorb e + counts EFission e /\
  counts ENumSegments e = counts ECollision e + counts ECensus e + is_crossing e /\
  counts EStart e = 0 /\ counts EEnd e = 0 /\ counts ESource e = 0 /\
  counts EOverRr e = 0 /\ counts EWeightRr e = 0 /\ counts ESplit e = 0.
Proof.
  intros H Hk. destruct H as [p xs p1 cs cur p2 cfuel r mat n p3 nx g p' Ho p1' Hcs Hcur Hpl Hm Hsc Hg Hp'
    | p xs p1 conn fa p2 p' Ho p1' Hconn Hfa Hcr Hcase
    | p xs p1 Ho].
  - assert (Hp1 : p_species p1 = Known).
    { apply outcome_after_species in Ho. rewrite Ho. unfold entering. destruct (out_of_paths p); exact Hk. }
    assert (Hp2 : p_species p2 = Known).
    { unfold get_current_xs, draw in Hcur. injection Hcur; intros; subst. exact Hp1. }
    destruct (sample_collision_spec _ _ _ _ _ _ Hsc) as (S1 & S2 & S3 & S4 & S5 & S6).
    rewrite Hp2 in S1, S2. split; [exact S2|].
    destruct (1 <=? n) eqn:En.
    + apply N.leb_le in En. split; [intros _; subst p'; cbn; exact S1|]. split; [discriminate|].
      destruct (r_type r); cbn [counts is_crossing];
        try (rewrite (S5 eq_refl) in * ); try (rewrite (S6 eq_refl) in * ); repeat split; auto; try lia.
    + apply N.leb_gt in En. split; [discriminate|]. split.
      { intros _. subst p'. cbn. destruct (r_type r); cbn; split; intros; discriminate. }
      destruct (r_type r); cbn [counts is_crossing];
        try (rewrite (S5 eq_refl) in * ); try (rewrite (S6 eq_refl) in * ); repeat split; auto; try lia.
  - assert (Hp1 : p_species p1 = Known).
    { apply outcome_after_species in Ho. rewrite Ho. unfold entering. destruct (out_of_paths p); exact Hk. }
    assert (Hp2 : p_species p2 = Known).
    { unfold facet_crossing_event in Hcr. destruct (fa_event fa); ok_inv; try discriminate; injection Hcr; intros; subst; exact Hp1. }
    destruct (fa_event fa); try contradiction; cbn [counts is_crossing].
    + subst p'. cbn. repeat split; auto; try constructor; try discriminate.
    + destruct Hcase as (planes & pl & _ & _ & ->).
      assert (Hr : p_species (reflect_particle p2 pl) = Known).
      { unfold reflect_particle. destruct (flt f0 _); exact Hp2. }
      repeat split; auto; try constructor; try discriminate; cbn; auto.
    + subst p'. repeat split; auto; try constructor; try discriminate; cbn; auto.
  - assert (Hp1 : p_species p1 = Known).
    { apply outcome_after_species in Ho. rewrite Ho. unfold entering. destruct (out_of_paths p); exact Hk. }
    cbn. repeat split; auto; try constructor; try discriminate.
Qed.

(** What holds of the counters of any completed tracking of [n_in] valid particles leaving
    [n_valid] of them valid and creating [n_new]. *)
Record accounted (n_in n_valid n_new : N) (t : tallied_event -> N) (crossings : N) : Prop := {
  ac_conserve : n_valid + n_new + t EAbsorb + t EEscape + t EFission = n_in + t EProduce;
  ac_census : t ECensus = n_valid;
  ac_collision : t ECollision = t EScatter + t EAbsorb + t EFission;
  ac_segments : t ENumSegments = t ECollision + t ECensus + crossings;
  ac_start : t EStart = 0; ac_end : t EEnd = 0; ac_source : t ESource = 0;
  ac_over : t EOverRr = 0; ac_weight : t EWeightRr = 0; ac_split : t ESplit = 0
}.

Lemma valid_count_cons (p : particle K) ps :
  valid_count (p :: ps) = (match p_species p with Known => 1 | Unknown => 0 end) + valid_count ps.
Proof. unfold valid_count. cbn [filter]. destruct (p_species p); cbn [length]; lia. Qed.
Lemma valid_count_app (l1 l2 : list (particle K)) : valid_count (l1 ++ l2) = valid_count l1 + valid_count l2.
Proof. induction l1 as [|p l1 IH]; cbn [app]; [reflexivity|]. rewrite !valid_count_cons, IH. lia. Qed.

Lemma track_path_accounted td dom (p : particle K) evs p' nx :
  track_path td dom p evs p' nx -> p_species p = Known ->
  all_valid nx /\
  accounted 1 (valid_count [p']) (N.of_nat (length nx)) (fun k => total (counts k) evs) (total is_crossing evs).
Proof.
  induction 1 as [p e p' nx Hs|p e p1 nx1 evs p' nx2 Hs Hp IH]; intros Hk.
  - destruct (seg_step_count _ _ _ _ _ _ _ Hs Hk) as (V & _ & S2 & C & _ & Co & Se & Z1 & Z2 & Z3 & Z4 & Z5 & Z6).
    split; [exact V|]. specialize (S2 eq_refl).
    assert (Hv : valid_count [p'] = counts ECensus e).
    { unfold valid_count. cbn [filter]. destruct (p_species p'); cbn [length].
      - destruct (counts ECensus e) eqn:E; [reflexivity|].
        assert (N.pos p0 = 1) by (destruct e; cbn in E; congruence).
        rewrite H in S2. destruct S2 as (_ & S2). discriminate (S2 eq_refl).
      - rewrite (proj1 S2 eq_refl). reflexivity. }
    constructor; cbn [total]; rewrite ?Hv; try lia.
  - destruct (seg_step_count _ _ _ _ _ _ _ Hs Hk) as (V & S1 & _ & C & C0 & Co & Se & Z1 & Z2 & Z3 & Z4 & Z5 & Z6).
    destruct (IH (S1 eq_refl)) as (V2 & [A1 A2 A3 A4 A5 A6 A7 A8 A9 A10]).
    specialize (C0 eq_refl).
    split; [apply Forall_app; auto|].
    rewrite app_length, Nat2N.inj_add.
    constructor; cbn [total]; lia.
Qed.

Lemma slice_paths_accounted td dom (ps : list (particle K)) ps' evss nxs :
  slice_paths td dom ps ps' evss nxs -> all_valid ps ->
  all_valid nxs /\ length ps' = length ps /\
  accounted (N.of_nat (length ps)) (valid_count ps') (N.of_nat (length nxs))
    (fun k => total (counts k) (concat evss)) (total is_crossing (concat evss)).
Proof.
  induction 1 as [|p q p' ps ps' evs evss nx nxs Hq Hp Hs IH]; intros Hk.
  - split; [constructor|]. split; [reflexivity|]. constructor; reflexivity.
  - inversion Hk as [|? ? Hk1 Hk2]; subst.
    assert (Hqk : p_species q = Known).
    { unfold prepare_particle in Hq. ok_inv. injection Hq; intros; subst.
      destruct (fle (p_time_to_census p) f0); exact Hk1. }
    destruct (track_path_accounted _ _ _ _ _ _ Hp Hqk) as (V1 & [A1 A2 A3 A4 A5 A6 A7 A8 A9 A10]).
    destruct (IH Hk2) as (V2 & L & [B1 B2 B3 B4 B5 B6 B7 B8 B9 B10]).
    split; [apply Forall_app; auto|]. split; [cbn; lia|].
    change (p' :: ps') with ([p'] ++ ps'). rewrite valid_count_app, app_length.
    cbn [concat length]. rewrite Nat2N.inj_add.
    constructor; rewrite ?total_app; lia.
Qed.

End Account.
