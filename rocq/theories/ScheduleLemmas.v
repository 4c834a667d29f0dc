(** Any interleaving of the tracking programs computes what the particles compute alone. *)
From Coq Require Import NArith PeanoNat List Bool Lia Permutation.
From Verif Require Import Float RngModel ParticleModel NuclearModel MeshTypes Balance TrackModel CycleModel
  ProgLemmas TrackSpec CycleSpec TrackAccount CycleAccount CycleFacts ScheduleSpec.
Import ListNotations.
Local Open Scope N_scope.
Local Open Scope float_scope.
Local Opaque rng_next spawn_rn_seed.

Section Schedule.
Context {K : FloatOps}.
Local Notation contribution := (@ScheduleSpec.contribution K).
Local Notation track_result := (@ScheduleSpec.track_result K).

(** ** Slots *)

Lemma slot_inj ng c g c' g' : g < ng -> g' < ng -> slot ng c g = slot ng c' g' -> c = c' /\ g = g'.
Proof.
  unfold slot. intros Hg Hg' E.
  rewrite (N.mul_comm c), (N.mul_comm c') in E.
  destruct (N.div_mod_unique ng c c' g g' Hg Hg' E) as (H1 & H2). auto.
Qed.
Lemma slot_lt (dom : domain K) ng c g : in_range dom ng c g -> slot ng c g < n_cells dom * ng.
Proof. unfold slot. intros (Hc & Hg). nia. Qed.

Lemma Forall2_len {A B} (R : A -> B -> Prop) l l' : Forall2 R l l' -> length l = length l'.
Proof. induction 1; cbn; auto. Qed.

Lemma nth_error_list_set_same {A} (l : list A) i x y : nth_error l i = Some y -> nth_error (list_set l i x) i = Some x.
Proof. revert i. induction l as [|z l IH]; intros [|i]; cbn; intros H; try discriminate; auto. Qed.
Lemma nth_error_list_set_other {A} (l : list A) i j x : i <> j -> nth_error (list_set l i x) j = nth_error l j.
Proof.
  revert i j. induction l as [|z l IH]; intros [|i] [|j]; cbn; intros H; try reflexivity; try congruence.
  apply IH. congruence.
Qed.

Variables (td : track_data K) (dom : domain K) (ng : N).
Hypothesis zero_not_positive : f0 <. (f0 : F K) = false.

(** ** Programs whose accesses are right

    [right P fail stuck L p]: as long as the cache is right, the accesses of [p] are in range,
    what it stores is right and it returns [a] with [P a L'], [L'] being the contributions made
    by then ([L] before [p]); it panics only if [fail] and runs out of fuel only if [stuck]. *)
Inductive right {A} (P : A -> list contribution -> Prop) (fail stuck : Prop)
  : list contribution -> prog K A -> Prop :=
| rt_ret : forall L a, P a L -> right P fail stuck L (Ret a)
| rt_fail : forall L, fail -> right P fail stuck L Fail
| rt_stuck : forall L, stuck -> right P fail stuck L Stuck
| rt_load : forall L c g f, in_range dom ng c g ->
    (forall v, cached td dom c g v -> right P fail stuck L (f v)) -> right P fail stuck L (LoadXs c g f)
| rt_store : forall L c g v q, in_range dom ng c g -> cell_cross_section td dom c g = Ok v ->
    right P fail stuck L q -> right P fail stuck L (StoreXs c g v q)
| rt_flux : forall L c g v q, in_range dom ng c g ->
    right P fail stuck (L ++ [(c, g, v)]) q -> right P fail stuck L (AddFlux c g v q).

Lemma right_bind {A B} (P : A -> list contribution -> Prop) (Q : B -> list contribution -> Prop)
    (fail stuck : Prop) (fl sk : Prop) L p (k : A -> prog K B) :
  right P fl sk L p -> (fl -> fail) -> (sk -> stuck) ->
  (forall a L', P a L' -> right Q fail stuck L' (k a)) ->
  right Q fail stuck L (pbind p k).
Proof.
  intros Hp Hf Hs Hk. induction Hp; cbn [pbind]; try (constructor; auto; fail). auto.
Qed.

Lemma right_lift {A} (P : A -> list contribution -> Prop) (fail stuck : Prop) L (r : result A) :
  match r with Ok a => P a L | Panic => fail | NoFuel => stuck end -> right P fail stuck L (lift r).
Proof. destruct r; cbn; intros; constructor; auto. Qed.

Lemma right_weaken {A} (P Q : A -> list contribution -> Prop) (f1 s1 f2 s2 : Prop) L (p : prog K A) :
  right P f1 s1 L p -> (forall a L', P a L' -> Q a L') -> (f1 -> f2) -> (s1 -> s2) -> right Q f2 s2 L p.
Proof. intros Hp HP Hf Hs. induction Hp; constructor; auto. Qed.

(** ** The tracking programs are right *)

Lemma get_xs_right L c g : in_range dom ng c g ->
  right (fun xs L' => cell_cross_section td dom c g = Ok xs /\ L' = L)
    (cell_cross_section td dom c g = Panic) (cell_cross_section td dom c g = NoFuel)
    L (get_xs td dom c g).
Proof.
  intros Hr. unfold get_xs. constructor; auto. intros v Hv.
  destruct (f0 <. v) eqn:Epos.
  - constructor. destruct Hv as [->|Hv]; [rewrite zero_not_positive in Epos; discriminate|auto].
  - destruct (cell_cross_section td dom c g) as [xs| |] eqn:E; cbn; [|constructor; auto..].
    apply rt_store; [exact Hr|exact E|constructor; auto].
Qed.

Lemma mct_nf_loop_place fuel : forall m co di tol pls (p : particle K) i mf nf p',
  mct_nf_loop fuel m co di tol pls p i mf = Ok (nf, p') ->
  p_cell p' = p_cell p /\ p_energy_group p' = p_energy_group p.
Proof.
  induction fuel as [|fuel IH]; cbn [mct_nf_loop]; intros m co di tol pls p i mf nf p' H; [discriminate|].
  rb H as ds E1. rb H as [[[rt p1] i1] mf1] E2.
  assert (G : p_cell p1 = p_cell p /\ p_energy_group p1 = p_energy_group p).
  { unfold check_nearest_validity in E2.
    match type of E2 with (if ?c then _ else _) = _ => destruct c end.
    - rb E2 as mv E3. injection E2; intros; subst; clear E2. split; reflexivity.
    - injection E2; intros; subst; clear E2. split; reflexivity. }
  destruct rt.
  - destruct (IH _ _ _ _ _ _ _ _ _ _ H) as (G1 & G2). destruct G. split; congruence.
  - injection H; intros; subst; clear H. exact G.
Qed.

Lemma nearest_facet_place (p : particle K) m nf p' : nearest_facet p m = Ok (nf, p') ->
  p_cell p' = p_cell p /\ p_energy_group p' = p_energy_group p.
Proof.
  unfold nearest_facet, mct_nf_3dg. intros E. rb E as [nf' p2] E2. rb E as u E3.
  injection E; intros; subst; clear E. rb E2 as planes E4. eapply mct_nf_loop_place; eauto.
Qed.

Lemma outcome_after_place q sp fc xs o (q' : particle K) :
  outcome_after dom q sp fc xs = Ok (o, q') ->
  p_cell q' = p_cell q /\ p_energy_group q' = p_energy_group q.
Proof.
  unfold outcome_after. intros H. rb H as [nf p1] E.
  apply nearest_facet_place in E. destruct E as (Hc & Hg).
  assert (Hc' : p_cell p1 = p_cell q) by (rewrite Hc; destruct (_ ==. f0); reflexivity).
  assert (Hg' : p_energy_group p1 = p_energy_group q) by (rewrite Hg; destruct (_ ==. f0); reflexivity).
  clear Hc Hg.
  match type of H with (let '(_, _) := ?h in _) = _ => destruct h as [md oo] end.
  rb H as u E2.
  match type of H with (if ?c then _ else _) = _ => destruct c end;
    injection H; intros; subst; clear H; destruct o; cbn; auto.
Qed.

Lemma collision_frame cf mat nd p b ex :
  collision_event cf td b mat nd p ex
  = do (k, p', b1, nx) <- collision_event cf td balance_zero mat nd p ([] : list (particle K)) ;
    Ok (k, p', badd b b1, ex ++ nx).
Proof.
  unfold collision_event. destruct (get_current_xs p) as [cur p1].
  destruct (pick_loop cf td mat nd (p_energy_group p1) cur) as [r| |]; cbn [rbind]; auto.
  destruct (vec_get (td_mats td) mat) as [m| |]; cbn [rbind]; auto.
  destruct (sample_collision p1 r (mat_mass m)) as [[[n p2] sec]| |]; cbn [rbind]; auto.
  cbn [app]. f_equal. repeat f_equal.
  apply balance_eq. intros e. rewrite bget_badd.
  unfold tally_collision, binc. destruct (r_type r), e; unfold bget, bset; cbn; lia.
Qed.

Lemma after_segment_frame cf o p b1 b2 ex :
  after_segment cf td dom o p (badd b1 b2) ex
  = do (k, p', b', nx) <- after_segment cf td dom o p b2 ([] : list (particle K)) ;
    Ok (k, p', badd b1 b', ex ++ nx).
Proof.
  destruct o; cbn [after_segment].
  - unfold on_collision. destruct (vec_get (d_cells dom) (p_cell p)) as [cs| |]; cbn [rbind]; auto.
    rewrite collision_frame. rewrite (collision_frame _ _ _ _ b2 []).
    destruct (collision_event cf td balance_zero (cs_material cs) (cs_number_density cs) p [])
      as [[[[k p'] b'] nx]| |]; cbn [rbind]; auto.
    destruct (get_energy_groups (td_nuclear td) (p_kinetic_energy p')) as [g| |]; cbn [rbind]; auto.
    rewrite badd_assoc. cbn [app]. reflexivity.
  - unfold on_facet.
    destruct (vec_get (me_conn (d_mesh dom)) (p_cell p)) as [conn| |]; cbn [rbind]; auto.
    destruct (vec_get (cc_facet conn) (p_facet p)) as [fa| |]; cbn [rbind]; auto.
    destruct (facet_crossing_event p fa) as [p'| |]; cbn [rbind]; auto.
    destruct (p_last_event p'); cbn [rbind]; auto; try (rewrite app_nil_r; reflexivity).
    + rewrite app_nil_r, binc_badd. reflexivity.
    + destruct (vec_get (me_geom (d_mesh dom)) (p_cell p')) as [pls| |]; cbn [rbind]; auto.
      destruct (vec_get pls (p_facet p')) as [pl| |]; cbn [rbind]; auto.
      rewrite app_nil_r. reflexivity.
  - cbn [rbind]. rewrite app_nil_r, binc_badd. reflexivity.
Qed.

Lemma track_step_right cf p b ex L : in_range dom ng (p_cell p) (p_energy_group p) ->
  right (fun s L' => exists k p' b1 nx x, solo_segment cf td dom p = Ok (k, p', b1, nx, x) /\
           s = (k, p', badd b b1, ex ++ nx) /\ L' = L ++ [x])
    (solo_segment cf td dom p = Panic) (solo_segment cf td dom p = NoFuel)
    L (track_step cf td dom p b ex).
Proof.
  intros Hr. unfold track_step, outcome.
  set (force := p_num_mean_free_paths p <. f0).
  set (q := if force then set_num_mean_free_paths p fsmall else p).
  assert (Hq : p_cell q = p_cell p /\ p_energy_group q = p_energy_group p) by (unfold q; destruct force; split; reflexivity).
  destruct Hq as (Hqc & Hqg).
  assert (Es : solo_segment cf td dom p =
    do xs <- cell_cross_section td dom (p_cell p) (p_energy_group p) ;
    do (o, q) <- outcome_after dom q (get_speed p) force xs ;
    let q := set_num_segments q (p_num_segments q +. f1) in
    do (keep, p', b, nx) <- after_segment cf td dom o q (binc balance_zero ENumSegments 1) [] ;
    Ok (keep, p', b, nx, (p_cell p, p_energy_group p, p_segment_path_length q *. p_weight q))) by reflexivity.
  rewrite Hqc, Hqg.
  eapply right_bind with (fail := solo_segment cf td dom p = Panic) (stuck := solo_segment cf td dom p = NoFuel)
    (fl := solo_segment cf td dom p = Panic) (sk := solo_segment cf td dom p = NoFuel)
    (P := fun op L' => L' = L /\ exists xs,
     cell_cross_section td dom (p_cell p) (p_energy_group p) = Ok xs /\
     outcome_after dom q (get_speed p) force xs = Ok op).
  - eapply right_bind; [apply get_xs_right; exact Hr|intros E|intros E|].
    + rewrite Es, E. reflexivity.
    + rewrite Es, E. reflexivity.
    + intros xs L' (Exs & ->). apply right_lift. rewrite Es, Exs. cbn [rbind].
      destruct (outcome_after dom q (get_speed p) force xs) eqn:Eo; eauto.
  - auto.
  - auto.
  - intros [o q1] L' (-> & xs & Exs & Eo).
    destruct (outcome_after_place _ _ _ _ _ _ Eo) as (Hc & Hg).
    rewrite Exs in Es. cbn [rbind] in Es. rewrite Eo in Es. cbn [rbind] in Es.
    assert (Hc1 : p_cell (set_num_segments q1 (p_num_segments q1 +. f1)) = p_cell p) by (cbn; congruence).
    assert (Hg1 : p_energy_group (set_num_segments q1 (p_num_segments q1 +. f1)) = p_energy_group p) by (cbn; congruence).
    rewrite Hc1, Hg1. apply rt_flux; [exact Hr|]. apply right_lift.
    replace (binc b ENumSegments 1) with (badd b (binc balance_zero ENumSegments 1))
      by (rewrite <- binc_badd, badd_zero_r; reflexivity).
    rewrite after_segment_frame. cbv zeta in Es.
    destruct (after_segment cf td dom o _ (binc balance_zero ENumSegments 1) []) as [[[[k p'] b'] nx]| |];
      cbn [rbind] in Es |- * ; try exact Es.
    rewrite Es. do 5 eexists. split; [reflexivity|]. split; reflexivity.
Qed.

Definition solo_post (b : balance) (ex : list (particle K)) (L : list contribution) (r : result track_result)
    (s : track_state) (L' : list contribution) : Prop :=
  exists p' b1 nx l, r = Ok (p', b1, nx, l) /\ s = (p', badd b b1, ex ++ nx) /\ L' = L ++ l.

Lemma tracking_right fuel : forall cf p b ex L,
  (forall q, reaches td dom p q -> in_range dom ng (p_cell q) (p_energy_group q)) ->
  right (solo_post b ex L (solo_track fuel cf td dom p))
    (solo_track fuel cf td dom p = Panic) (solo_track fuel cf td dom p = NoFuel)
    L (cycle_tracking_function fuel cf td dom p b ex).
Proof.
  induction fuel as [|fuel IH]; intros cf p b ex L Hr; cbn [cycle_tracking_function solo_track].
  - constructor. reflexivity.
  - eapply right_bind; [apply track_step_right; apply Hr; constructor|intros ->; reflexivity..|].
    intros s L' (k & p' & b1 & nx & x & Es & -> & ->). rewrite Es. cbn [rbind].
    destruct k.
    + eapply right_weaken; [apply IH| | |].
      * intros q Hq. apply Hr. eapply reach_next; eauto.
      * intros a L' (p'' & b2 & nx' & l & E & -> & ->). rewrite E. cbn [rbind].
        do 4 eexists. split; [reflexivity|]. rewrite <- badd_assoc, <- !app_assoc. cbn [app]. split; reflexivity.
      * intros ->. reflexivity.
      * intros ->. reflexivity.
    + constructor. do 4 eexists. split; [reflexivity|]. split; reflexivity.
Qed.

Lemma guts_right fuel cf p b ex L : stays_in_range td dom ng p ->
  right (solo_post b ex L (solo fuel cf td dom p))
    (solo fuel cf td dom p = Panic) (solo fuel cf td dom p = NoFuel)
    L (cycle_tracking_guts fuel cf td dom p b ex).
Proof.
  intros Hr. unfold cycle_tracking_guts, solo. unfold stays_in_range in Hr.
  destruct (prepare_particle td p) as [p0| |]; cbn [lift pbind rbind]; [|constructor; reflexivity..].
  apply tracking_right. eauto.
Qed.

Definition slice_solo (b : balance) (ex : list (particle K)) (L : list contribution) (r : result (list track_result))
    (s : slice_result K) (L' : list contribution) : Prop :=
  exists rs, r = Ok rs /\ s = (finals rs, badd b (counters rs), ex ++ created rs) /\ L' = L ++ contributions rs.

Lemma counters_cons p b nx l (rs : list track_result) : counters ((p, b, nx, l) :: rs) = badd b (counters rs).
Proof. unfold counters. cbn [map]. apply bsum_cons. Qed.

Lemma slice_right fuel cf ps : forall b ex L, Forall (stays_in_range td dom ng) ps ->
  right (slice_solo b ex L (rmap (solo fuel cf td dom) ps))
    (rmap (solo fuel cf td dom) ps = Panic) (rmap (solo fuel cf td dom) ps = NoFuel)
    L (track_slice fuel cf td dom ps b ex).
Proof.
  induction ps as [|p ps IH]; intros b ex L Hr; cbn [track_slice rmap].
  - constructor. exists []. split; [reflexivity|]. unfold counters, created, contributions, finals. cbn.
    rewrite !app_nil_r. split; [|reflexivity]. rewrite (badd_zero_r b). reflexivity.
  - inversion Hr as [|? ? Hp Hps]; subst.
    eapply right_bind; [apply guts_right; exact Hp|intros ->; reflexivity..|].
    intros s L' (p' & b1 & nx & l & Es & -> & ->). rewrite Es. cbn [rbind].
    eapply right_bind; [apply IH; exact Hps|intros ->; reflexivity..|].
    intros s L' (rs & Ers & -> & ->). rewrite Ers. cbn [rbind]. constructor.
    eexists. split; [reflexivity|]. rewrite counters_cons, badd_assoc, <- !app_assoc. split; reflexivity.
Qed.

(** ** Sequential execution *)

Lemma flux_with_app (fl : list (F K)) l1 l2 : flux_with ng fl (l1 ++ l2) = flux_with ng (flux_with ng fl l1) l2.
Proof. apply fold_left_app. Qed.

Lemma sound_flux m fl : sound_mem td dom ng m -> N.of_nat (length fl) = n_cells dom * ng ->
  sound_mem td dom ng (mkMem (m_cache m) fl).
Proof. intros [H1 H2 H3] H. constructor; auto. Qed.

Lemma add_contribution_length (fl : list (F K)) x : length (add_contribution ng fl x) = length fl.
Proof. destruct x as [[c g] v]. unfold add_contribution. destruct (nth_error fl _); auto. apply length_list_set. Qed.
Lemma flux_with_length l : forall (fl : list (F K)), length (flux_with ng fl l) = length fl.
Proof. induction l as [|x l IH]; intros fl; cbn; auto. unfold flux_with in IH. rewrite IH. apply add_contribution_length. Qed.

Lemma in_range_get {A} (l : list A) c g : N.of_nat (length l) = n_cells dom * ng -> in_range dom ng c g ->
  exists v, nth_error l (N.to_nat (slot ng c g)) = Some v.
Proof.
  intros Hl Hr. apply slot_lt in Hr. destruct (nth_error l (N.to_nat (slot ng c g))) eqn:E; eauto.
  apply nth_error_None in E. lia.
Qed.

Lemma right_run_seq {A} (P : A -> list contribution -> Prop) (fail stuck : Prop) L (p : prog K A) :
  right P fail stuck L p -> forall m, sound_mem td dom ng m ->
  match run_seq ng p m with
  | Ok (a, m') => exists l, P a (L ++ l) /\ sound_mem td dom ng m' /\ m_flux m' = flux_with ng (m_flux m) l
  | Panic => fail
  | NoFuel => stuck
  end.
Proof.
  induction 1 as [L a HP|L Hf|L Hs|L c g f Hr Hk IH|L c g v q Hr Hv Hq IH|L c g v q Hr Hq IH]; intros m Hm; cbn [run_seq].
  - exists []. rewrite app_nil_r. auto.
  - exact Hf.
  - exact Hs.
  - destruct (in_range_get (m_cache m) c g (sm_cache_size _ _ _ _ Hm) Hr) as (v & Ev).
    unfold vec_get. rewrite Ev. cbn [unwrap rbind]. apply IH; auto. eapply sm_cached; eauto.
  - destruct (in_range_get (m_cache m) c g (sm_cache_size _ _ _ _ Hm) Hr) as (w & Ew).
    unfold vec_get. rewrite Ew. cbn [unwrap rbind].
    assert (Hm' : sound_mem td dom ng (mkMem (list_set (m_cache m) (N.to_nat (slot ng c g)) v) (m_flux m))).
    { constructor; cbn [m_cache m_flux].
      - rewrite length_list_set. apply Hm.
      - apply Hm.
      - intros c' g' v' Hr' E.
        destruct (Nat.eq_dec (N.to_nat (slot ng c g)) (N.to_nat (slot ng c' g'))) as [Eq|Ne].
        + apply N2Nat.inj in Eq. destruct (slot_inj _ _ _ _ _ (proj2 Hr) (proj2 Hr') Eq); subst c' g'.
          rewrite (nth_error_list_set_same _ _ _ _ Ew) in E. injection E; intros; subst. right. exact Hv.
        + rewrite nth_error_list_set_other in E by exact Ne. eapply sm_cached; eauto. }
    specialize (IH _ Hm'). exact IH.
  - destruct (in_range_get (m_flux m) c g (sm_flux_size _ _ _ _ Hm) Hr) as (w & Ew).
    unfold vec_get. rewrite Ew. cbn [unwrap rbind].
    set (fl' := list_set (m_flux m) (N.to_nat (slot ng c g)) (w +. v)).
    assert (Hfl : fl' = flux_with ng (m_flux m) [(c, g, v)]) by (cbn; rewrite Ew; reflexivity).
    assert (Hm' : sound_mem td dom ng (mkMem (m_cache m) fl')).
    { apply sound_flux; auto. unfold fl'. rewrite length_list_set. apply Hm. }
    specialize (IH _ Hm'). destruct (run_seq ng q (mkMem (m_cache m) fl')) as [[a m']| |]; auto.
    destruct IH as (l & HP & Hs & Hf). exists ((c, g, v) :: l). rewrite <- app_assoc in HP. cbn [app] in HP.
    split; [exact HP|]. split; [exact Hs|]. rewrite Hf. cbn [m_flux]. rewrite Hfl. reflexivity.
Qed.

(** ** Concurrent execution *)

Record spec1 : Type := mkSpec1 { sp_post : slice_result K -> list contribution -> Prop; sp_fail : Prop; sp_stuck : Prop }.
Definition meets (s : spec1) (L : list contribution) (p : prog K (slice_result K)) : Prop :=
  right (sp_post s) (sp_fail s) (sp_stuck s) L p.

(** A task, what it has appended to the common collection, the contributions it has made. *)
Definition rinv1 (s : spec1) (t : task K) (e : list (particle K)) (L : list contribution) : Prop :=
  match t with
  | Running p => meets s L p /\ e = []
  | Casing c g v _ q => in_range dom ng c g /\ meets s (L ++ [(c, g, v)]) q /\ e = []
  | Done ps b => sp_post s (ps, b, e) L
  end.

Inductive rinv : list spec1 -> list (task K) -> list (list (particle K)) -> list (list contribution) -> Prop :=
| rinv_nil : rinv [] [] [] []
| rinv_cons : forall s ss t ts e es L Ls, rinv1 s t e L -> rinv ss ts es Ls ->
    rinv (s :: ss) (t :: ts) (e :: es) (L :: Ls).

Lemma rinv_split ss l1 t l2 es Ls : rinv ss (l1 ++ t :: l2) es Ls ->
  exists ss1 s ss2 es1 e es2 Ls1 L Ls2, ss = ss1 ++ s :: ss2 /\ es = es1 ++ e :: es2 /\ Ls = Ls1 ++ L :: Ls2 /\
    rinv ss1 l1 es1 Ls1 /\ rinv1 s t e L /\ rinv ss2 l2 es2 Ls2.
Proof.
  revert ss es Ls. induction l1 as [|u l1 IH]; intros ss es Ls H; cbn [app] in H;
    inversion H as [|s ss0 t0 ts e es0 L Ls0 Ht Hts]; subst.
  - exists [], s, ss0, [], e, es0, [], L, Ls0. repeat split; auto. constructor.
  - destruct (IH _ _ _ Hts) as (ss1 & s' & ss2 & es1 & e' & es2 & Ls1 & L' & Ls2 & -> & -> & -> & G1 & G2 & G3).
    exists (s :: ss1), s', ss2, (e :: es1), e', es2, (L :: Ls1), L', Ls2. repeat split; auto. constructor; auto.
Qed.

Lemma rinv_join ss1 s ss2 l1 t l2 es1 e es2 Ls1 L Ls2 :
  rinv ss1 l1 es1 Ls1 -> rinv1 s t e L -> rinv ss2 l2 es2 Ls2 ->
  rinv (ss1 ++ s :: ss2) (l1 ++ t :: l2) (es1 ++ e :: es2) (Ls1 ++ L :: Ls2).
Proof. intros H1 H2 H3. induction H1; cbn [app]; constructor; auto. Qed.

Record conf_right (ss : list spec1) (fl0 : list (F K)) (ex0 : list (particle K)) (c : conf K)
    (es : list (list (particle K))) (Ls : list (list contribution)) (l : list contribution) : Prop := {
  cr_tasks : rinv ss (cf_tasks c) es Ls;
  cr_extra : Permutation (cf_extra c) (ex0 ++ concat es);
  cr_done : Permutation l (concat Ls);
  cr_flux : cf_flux c = flux_with ng fl0 l;
  cr_size : N.of_nat (length (cf_hist c)) = n_cells dom * ng;
  cr_hist : forall cc g vs, in_range dom ng cc g ->
    nth_error (cf_hist c) (N.to_nat (slot ng cc g)) = Some vs -> Forall (cached td dom cc g) vs
}.

Lemma conf_right_step ss fl0 ex0 c c' es Ls l : cstep ng c c' -> conf_right ss fl0 ex0 c es Ls l ->
  exists es' Ls' l', conf_right ss fl0 ex0 c' es' Ls' l'.
Proof.
  intros Hs [Ht He Hl Hf Hz Hh]. destruct Hs; cbn [cf_tasks cf_extra cf_flux cf_hist] in * ;
    destruct (rinv_split _ _ _ _ _ _ Ht) as (ss1 & s & ss2 & es1 & e & es2 & Ls1 & L & Ls2 & -> & -> & -> & G1 & G2 & G3);
    cbn [rinv1] in G2.
  - destruct G2 as (G2 & ->). inversion G2 as [| | |? ? ? ? Hr Hk| |]; subst.
    exists (es1 ++ [] :: es2), (Ls1 ++ L :: Ls2), l. constructor; cbn [cf_tasks cf_extra cf_flux cf_hist]; auto.
    apply rinv_join; auto. split; auto. apply Hk.
    specialize (Hh _ _ _ Hr H). rewrite Forall_forall in Hh. auto.
  - destruct G2 as (G2 & ->). inversion G2 as [| | | |? ? ? ? ? Hr Hv Hq|]; subst.
    exists (es1 ++ [] :: es2), (Ls1 ++ L :: Ls2), l. constructor; cbn [cf_tasks cf_extra cf_flux cf_hist]; auto.
    + apply rinv_join; auto. split; auto.
    + rewrite length_list_set. exact Hz.
    + intros c' g' vs' Hr' E.
      destruct (Nat.eq_dec (N.to_nat (slot ng c g)) (N.to_nat (slot ng c' g'))) as [Eq|Ne].
      * apply N2Nat.inj in Eq. destruct (slot_inj _ _ _ _ _ (proj2 Hr) (proj2 Hr') Eq); subst c' g'.
        rewrite (nth_error_list_set_same _ _ _ _ H) in E. injection E; intros; subst.
        constructor; [right; exact Hv|]. eapply Hh; eauto.
      * rewrite nth_error_list_set_other in E by exact Ne. eapply Hh; eauto.
  - destruct G2 as (G2 & ->). inversion G2 as [| | | | |? ? ? ? ? Hr Hq]; subst.
    exists (es1 ++ [] :: es2), (Ls1 ++ L :: Ls2), l. constructor; cbn [cf_tasks cf_extra cf_flux cf_hist]; auto.
    apply rinv_join; auto. cbn [rinv1]. auto.
  - exists (es1 ++ e :: es2), (Ls1 ++ L :: Ls2), l. constructor; cbn [cf_tasks cf_extra cf_flux cf_hist]; auto.
    apply rinv_join; auto.
  - destruct G2 as (Hr & G2 & ->).
    exists (es1 ++ [] :: es2), (Ls1 ++ (L ++ [(c, g, v)]) :: Ls2), (l ++ [(c, g, v)]).
    constructor; cbn [cf_tasks cf_extra cf_flux cf_hist]; auto.
    + apply rinv_join; auto. split; auto.
    + rewrite concat_app in Hl |- * . cbn [concat] in Hl |- * . rewrite Hl, <- !app_assoc.
      do 2 apply Permutation_app_head. apply Permutation_app_comm.
    + rewrite flux_with_app, <- Hf. cbn. rewrite H. reflexivity.
  - destruct G2 as (G2 & ->). inversion G2 as [? ? HP| | | | |]; subst.
    exists (es1 ++ exl :: es2), (Ls1 ++ L :: Ls2), l. constructor; cbn [cf_tasks cf_extra cf_flux cf_hist]; auto.
    + apply rinv_join; auto.
    + rewrite concat_app in He |- * . cbn [concat app] in He |- * .
      rewrite He. rewrite <- !app_assoc. do 2 apply Permutation_app_head. apply Permutation_app_comm.
Qed.

Lemma conf_right_steps ss fl0 ex0 c c' es Ls l : csteps ng c c' -> conf_right ss fl0 ex0 c es Ls l ->
  exists es' Ls' l', conf_right ss fl0 ex0 c' es' Ls' l'.
Proof.
  intros H. revert es Ls l. induction H; intros es Ls l Hc; eauto.
  destruct (conf_right_step _ _ _ _ _ _ _ _ H Hc) as (es' & Ls' & l' & Hc'). eauto.
Qed.

Lemma conf_right_init ss tasks m ex0 : sound_mem td dom ng m ->
  Forall2 (fun s p => meets s [] p) ss tasks ->
  conf_right ss (m_flux m) ex0 (mkConf (map (@Running K) tasks) (map (fun v => [v]) (m_cache m)) (m_flux m) ex0)
    (map (fun _ => []) tasks) (map (fun _ => []) tasks) [].
Proof.
  intros Hm HF. constructor; cbn [cf_tasks cf_extra cf_flux cf_hist].
  - induction HF; cbn [map]; constructor; auto. split; auto.
  - rewrite concat_map_nil, app_nil_r. reflexivity.
  - rewrite concat_map_nil. constructor.
  - reflexivity.
  - rewrite map_length. apply Hm.
  - intros c g vs Hr E. rewrite nth_error_map in E.
    destruct (nth_error (m_cache m) (N.to_nat (slot ng c g))) as [v|] eqn:Ev; [|discriminate].
    injection E; intros; subst. constructor; [|constructor]. eapply sm_cached; eauto.
Qed.

(** What the tasks of a finished parallel region returned. *)
Inductive results4 : list spec1 -> list (list (particle K)) -> list balance -> list (list (particle K)) ->
  list (list contribution) -> Prop :=
| r4_nil : results4 [] [] [] [] []
| r4_cons : forall s ss sl sls b bs e es L Ls, sp_post s (sl, b, e) L -> results4 ss sls bs es Ls ->
    results4 (s :: ss) (sl :: sls) (b :: bs) (e :: es) (L :: Ls).

Lemma rinv_results ss slices bals es Ls :
  length slices = length bals ->
  rinv ss (map (fun sb => Done (fst sb) (snd sb)) (combine slices bals)) es Ls -> results4 ss slices bals es Ls.
Proof.
  revert ss bals es Ls. induction slices as [|s sl IH]; intros ss [|b bs] es Ls Hl H; cbn in * ; try lia.
  - inversion H; subst. constructor.
  - inversion H; subst. constructor; auto.
Qed.

Lemma rinv_in ss ts es Ls t : rinv ss ts es Ls -> In t ts -> exists s e L, In s ss /\ rinv1 s t e L.
Proof.
  induction 1 as [|s ss t' ts e es L Ls H1 H2 IH]; intros [].
  - subst. exists s, e, L. split; [left; reflexivity|exact H1].
  - destruct (IH H) as (s' & e' & L' & G & G'). exists s', e', L'. split; [right; exact G|exact G'].
Qed.

Lemma par_exec_right ss tasks m ex0 r : sound_mem td dom ng m ->
  Forall2 (fun s p => meets s [] p) ss tasks -> par_exec ng tasks m ex0 r ->
  match r with
  | Ok (slices, bals, m', ex) => exists es Ls l, results4 ss slices bals es Ls /\
      Permutation ex (ex0 ++ concat es) /\ sound_mem td dom ng m' /\
      Permutation l (concat Ls) /\ m_flux m' = flux_with ng (m_flux m) l
  | Panic => exists s, In s ss /\ sp_fail s
  | NoFuel => exists s, In s ss /\ sp_stuck s
  end.
Proof.
  intros Hm HF Hp. pose proof (conf_right_init ss tasks m ex0 Hm HF) as H0.
  destruct Hp as [slices bals h fl ex cache Hst Hl1 Hl2 Hset|ts h fl ex t Hst Hin Htp|ts h fl ex Hst Hin];
    destruct (conf_right_steps _ _ _ _ _ _ _ _ Hst H0) as (es & Ls & l & [Ht He Hl Hf Hz Hh]);
    cbn [cf_tasks cf_extra cf_flux cf_hist] in * .
  - exists es, Ls, l. split; [apply rinv_results; [congruence|exact Ht]|].
    split; [exact He|]. split; [|split; [exact Hl|exact Hf]].
    constructor; cbn [m_cache m_flux].
    + unfold settles in Hset. apply Forall2_len in Hset. lia.
    + rewrite Hf, flux_with_length. apply Hm.
    + intros c g v Hr E.
      assert (Hx : exists vs, nth_error h (N.to_nat (slot ng c g)) = Some vs /\ In v vs).
      { clear -Hset E. unfold settles in Hset. revert E. generalize (N.to_nat (slot ng c g)) as i.
        induction Hset as [|vs w h cache Hin Hset IH]; intros [|i] E; cbn in * ; try discriminate.
        - injection E; intros; subst. eauto.
        - eauto. }
      destruct Hx as (vs & E1 & Hin). specialize (Hh _ _ _ Hr E1). rewrite Forall_forall in Hh. auto.
  - destruct (rinv_in _ _ _ _ _ Ht Hin) as (s & e & L & Hs & Hi). exists s. split; [exact Hs|].
    assert (Hz' : N.of_nat (length fl) = n_cells dom * ng) by (rewrite Hf, flux_with_length; apply Hm).
    clear Hf. destruct Htp as [|c g f E|c g v q E|c g v q E]; cbn [rinv1] in Hi; destruct Hi as (Hi & _); unfold meets in Hi.
    + inversion Hi; subst; auto.
    + exfalso. inversion Hi as [| | |? ? ? ? Hr _| |]; subst. destruct (in_range_get h c g Hz Hr) as (v & Ev). congruence.
    + exfalso. inversion Hi as [| | | |? ? ? ? ? Hr _ _|]; subst. destruct (in_range_get h c g Hz Hr) as (w & Ev). congruence.
    + exfalso. inversion Hi as [| | | | |? ? ? ? ? Hr _]; subst.
      destruct (in_range_get fl c g Hz' Hr) as (w & Ev). congruence.
  - destruct (rinv_in _ _ _ _ _ Ht Hin) as (s & e & L & Hs & Hi). exists s. split; [exact Hs|].
    destruct Hi as (Hi & _). unfold meets in Hi. inversion Hi; subst; auto.
Qed.

End Schedule.
