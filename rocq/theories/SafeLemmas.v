(** No segment of a particle panics when the indices and the values of the problem are right. *)
From Coq Require Import NArith PeanoNat QArith List Bool Lia Permutation.
From Verif Require Import Float RngModel RngLemmas ParticleModel NuclearModel MeshTypes Balance TrackModel CycleModel
  ProgLemmas TrackSpec CycleSpec TrackAccount CycleAccount CycleFacts ScheduleSpec ScheduleLemmas RangeSpec RangeFacts
  PopSpec SourceLemmas SourceCount SegmentSpec NearestLemmas SegmentFacts SegmentDefined NuclearFacts SafeSpec.
Import ListNotations.
Local Open Scope N_scope.
Local Open Scope float_scope.
Local Opaque rng_next spawn_rn_seed.

Section Any.
Context {K : FloatOps}.

Lemma rmap_total {A B} (f : A -> result B) l : (forall x, In x l -> exists y, f x = Ok y) -> exists ys, rmap f l = Ok ys.
Proof.
  induction l as [|x l IH]; intros H; cbn [rmap]; [eexists; reflexivity|].
  destruct (H x (or_introl eq_refl)) as (y & ->). cbn [rbind]. destruct IH as (ys & ->); [intros z Hz; apply H; right; exact Hz|].
  cbn [rbind]. eexists. reflexivity.
Qed.
Lemma rmap_panics {A B} (f : A -> result B) l : rmap f l = Panic -> exists x, In x l /\ f x = Panic.
Proof.
  induction l as [|x l IH]; cbn [rmap]; [discriminate|].
  destruct (f x) as [y| |] eqn:E; cbn [rbind]; [|intros _; exists x; cbn; auto|discriminate].
  destruct (rmap f l); cbn [rbind]; [discriminate| |discriminate]. intros _. destruct (IH eq_refl) as (z & H1 & H2). exists z. cbn. auto.
Qed.
Lemma vec_get_nth {A} (l : list A) i x : vec_get l i = Ok x -> nth_error l (N.to_nat i) = Some x.
Proof. unfold vec_get. destruct (nth_error l (N.to_nat i)); [|discriminate]. cbn. congruence. Qed.
Lemma vec_get_of_nth {A} (l : list A) i x : nth_error l (N.to_nat i) = Some x -> vec_get l i = Ok x.
Proof. unfold vec_get. intros ->. reflexivity. Qed.
Lemma vec_get_in_range {A} (l : list A) i : i < N.of_nat (length l) -> exists x, vec_get l i = Ok x.
Proof. intros H. unfold vec_get. destruct (nth_error l (N.to_nat i)) eqn:E; [eexists; reflexivity|]. apply nth_error_None in E. lia. Qed.

(** ** The nearest facet *)

Lemma distances_length m c x u (tol : F K) pls : forall i ds, facet_distances m c x u tol i pls = Ok ds -> length ds = length pls.
Proof.
  induction pls as [|pl pls IH]; intros i ds H; cbn [facet_distances] in H; [injection H as <-; reflexivity|].
  rb H as d Ed. rb H as ds1 E1. injection H as <-. cbn [length]. f_equal. eapply IH; eauto.
Qed.

Variable good : F K -> Prop.
Hypothesis SL : sign_laws good.

Lemma positive_bounds (ds : list (F K)) : forall i acc, fst acc < i + N.of_nat (length ds) \/ fst acc = 0 -> snd acc <=. fhuge = true ->
  (fst (nearest_positive i ds acc) < i + N.of_nat (length ds) \/ fst (nearest_positive i ds acc) = 0) /\
  snd (nearest_positive i ds acc) <=. fhuge = true.
Proof.
  induction ds as [|d ds IH]; intros i acc H1 H2; cbn [nearest_positive length] in *; [split; [exact H1|exact H2]|].
  replace (i + N.of_nat (S (length ds))) with (N.succ i + N.of_nat (length ds)) by lia.
  apply IH.
  - destruct (f0 <. d); [destruct (d <=. snd acc)|]; cbn [fst]; lia.
  - destruct (f0 <. d); [destruct (d <=. snd acc) eqn:E|]; cbn [snd]; auto. eapply (sl_le_trans _ SL); eauto.
Qed.
Lemma negative_bounds (ds : list (F K)) : forall i acc, fst acc < i + N.of_nat (length ds) \/ fst acc = 0 -> snd acc <=. f0 = true ->
  (fst (nearest_negative i ds acc) < i + N.of_nat (length ds) \/ fst (nearest_negative i ds acc) = 0) /\
  snd (nearest_negative i ds acc) <=. f0 = true.
Proof.
  induction ds as [|d ds IH]; intros i acc H1 H2; cbn [nearest_negative length] in *; [split; [exact H1|exact H2]|].
  replace (i + N.of_nat (S (length ds))) with (N.succ i + N.of_nat (length ds)) by lia.
  apply IH.
  - destruct (d <=. f0); [destruct (snd acc <. d)|]; cbn [fst]; lia.
  - destruct (d <=. f0) eqn:E; [destruct (snd acc <. d)|]; cbn [snd]; auto.
Qed.
Lemma compute_bounds (ds : list (F K)) : (0 < length ds)%nat -> fst (compute_nearest ds) < N.of_nat (length ds) /\
  snd (compute_nearest ds) <=. fhuge = true.
Proof.
  intros Hl. unfold compute_nearest.
  destruct (positive_bounds ds 0 (0, fhuge) (or_intror eq_refl) (sl_huge_self _ SL)) as (P1 & P2).
  destruct (negative_bounds ds 0 (0, -. fhuge) (or_intror eq_refl) (sl_below_huge _ SL)) as (N1 & N2).
  destruct (negb _); [split; [lia|exact P2]|]. destruct (negb _); [|split; [lia|exact P2]].
  split; [lia|]. eapply (sl_le_trans _ SL); [exact N2|apply (sl_huge _ SL)].
Qed.

(** The search of the facet succeeds; the facet is one of the 24 and its distance is not negative. *)
Lemma facet_found (m : mesh K) (p : particle K) : complete_geometry m -> p_cell p < N.of_nat (length (me_conn m)) ->
  exists i d p', nearest_facet p m = Ok ((i, d), p') /\ i < 24 /\ not_negative d /\ same_but_place p p'.
Proof.
  intros Hm Hc. destruct (search_ok m Hm (sl_points _ SL) p Hc) as (nf & p' & E).
  destruct (proj2 (search_first m p) _ _ E) as (Hs & ds & (pls & Ep & Ed) & ->).
  assert (L : length ds = 24%nat).
  { rewrite (distances_length _ _ _ _ _ _ _ _ Ed). destruct Hm as (_ & _ & H24). rewrite Forall_forall in H24. apply H24.
    exact (vec_get_in _ _ _ Ep). }
  destruct (compute_bounds ds) as (B1 & B2); [lia|].
  unfold nearest_facet. rewrite E. cbn [rbind snd fst]. rewrite (sl_max_huge _ SL _ B2). cbn [rassert rbind].
  eexists _, _, _. split; [reflexivity|]. split; [rewrite L in B1; exact B1|]. split; [apply (sl_max _ SL)|exact Hs].
Qed.

(** ** One segment *)

Lemma update_known h o d : f0 <=. fst h = true -> not_negative d -> f0 <=. fst (handler_update (K := K) h o d) = true.
Proof. intros Hh Hd. unfold handler_update. destruct (d <. fst h) eqn:E; [|exact Hh]. cbn [fst]. exact (sl_known _ SL _ _ E Hd). Qed.

Lemma speed_known (p : particle K) : not_negative (get_speed p).
Proof. unfold get_speed. cbv zeta. apply (sl_mul _ SL); [apply (sl_light _ SL)|apply (sl_sqrt _ SL)]. Qed.

Lemma prepared_fields (p : particle K) xs :
  p_cell (prepared_for p xs) = p_cell p /\ p_time_to_census (prepared_for p xs) = p_time_to_census p /\
  p_total_cross_section (prepared_for p xs) = xs /\ p_mean_free_path (prepared_for p xs) = (if xs ==. f0 then fhuge else f1 /. xs).
Proof.
  unfold prepared_for. cbv zeta. destruct (_ ==. f0) eqn:E; unfold sample_num_mfp, draw; cbn;
    destruct (xs ==. f0); repeat split; reflexivity.
Qed.

(** The outcome of a segment is defined. *)
Lemma segment_defined (dom : domain K) (p : particle K) speed force xs :
  complete_geometry (d_mesh dom) -> p_cell p < N.of_nat (length (me_conn (d_mesh dom))) ->
  good xs -> not_negative speed -> not_negative (p_time_to_census p) -> not_negative (p_num_mean_free_paths p) ->
  exists o q, outcome_after dom p speed force xs = Ok (o, q) /\ p_total_cross_section q = xs /\
    not_negative (p_time_to_census q) /\ (o = OutFacetCrossing -> p_facet q < 24).
Proof.
  intros Hm Hc Hx Hs Ht Hn. destruct (prepared_fields p xs) as (Pc & Pt & Px & Pm).
  destruct (facet_found (d_mesh dom) (prepared_for p xs) Hm ltac:(rewrite Pc; exact Hc)) as (i & df & p1 & E & Hi & Hdf & (x & Hp1)).
  assert (D : f0 <=. fst (nearest_event (prepared_for p xs) speed df) = true).
  { unfold nearest_event. repeat apply update_known; auto.
    - apply (sl_huge _ SL).
    - apply (sl_mul _ SL).
      + unfold prepared_for. cbv zeta.
        match goal with |- context [if p_num_mean_free_paths ?q ==. f0 then _ else _] =>
          set (p0 := q); assert (N0 : p_num_mean_free_paths p0 = p_num_mean_free_paths p) by (unfold p0; destruct (xs ==. f0); reflexivity) end.
        destruct (p_num_mean_free_paths p0 ==. f0); [|rewrite N0; exact Hn].
        unfold sample_num_mfp, draw. cbn [p_num_mean_free_paths set_num_mean_free_paths]. apply (sl_minus_ln _ SL). apply rng_next_lt.
      + rewrite Pm. destruct (xs ==. f0) eqn:Ez; [apply (sl_le_not_lt _ SL), (sl_huge _ SL)|]. apply (sl_inverse _ SL); assumption.
    - rewrite Pt. apply (sl_mul _ SL); assumption. }
  assert (T1 : not_negative (p_time_to_census p1)) by (subst p1; cbn; rewrite Pt; exact Ht).
  assert (X1 : p_total_cross_section p1 = xs) by (subst p1; cbn; exact Px).
  assert (R : exists o q, outcome_after dom p speed force xs = Ok (o, q)).
  { unfold outcome_after. fold (prepared_for p xs). cbv zeta. rewrite E. cbn [rbind snd fst]. unfold nearest_event in D.
    match goal with |- context [let '(_, _) := ?h in _] =>
      assert (Hh : f0 <=. fst h = true) by (destruct force; [apply (sl_tiny _ SL)|exact D]); destruct h as [d o] end.
    cbn [fst] in Hh. rewrite Hh. cbn [rassert rbind].
    destruct o; (match goal with |- context [if ?c then Ok _ else Ok _] => destruct c end); eexists; eexists; reflexivity. }
  destruct R as (o & q & R). exists o, q. split; [exact R|].
  destruct (outcome_parts _ _ _ _ _ _ _ R) as (i' & df' & p1' & d & E' & _ & _ & ->).
  rewrite E in E'. injection E' as <- <- <-. unfold segment_end. cbv zeta.
  destruct (d ==. f0).
  - destruct o; cbn; (split; [exact X1|]); (split; [|intros; try discriminate; exact Hi]); auto. apply (sl_min _ SL), T1.
  - destruct o; cbn; (split; [exact X1|]); (split; [apply (sl_max _ SL)|intros; try discriminate; exact Hi]).
Qed.

(** ** Collisions *)

Lemma pick_reaction_in rs (a nd : F K) g r : forall cur, pick_reaction rs a nd g cur = Ok (inr r) -> In r rs.
Proof.
  induction rs as [|r0 rs IH]; intros cur H; cbn [pick_reaction] in H; [discriminate|].
  rb H as c Ec. destruct (c <. f0); [injection H as <-; left; reflexivity|]. right. eapply IH; eauto.
Qed.
Lemma pick_isotope_in nd isos (dens : F K) g r : forall cur, pick_isotope nd isos dens g cur = Ok (inr r) ->
  exists rs, In rs (nd_isotopes nd) /\ In r rs.
Proof.
  induction isos as [|iso isos IH]; intros cur H; cbn [pick_isotope] in H; [discriminate|].
  rb H as rs Er. rb H as x Ex. destruct x as [c|r0].
  - eapply IH; eauto.
  - injection H as <-. exists rs. split; [exact (vec_get_in _ _ _ Er)|]. eapply pick_reaction_in; eauto.
Qed.
Lemma pick_loop_in fuel td mid (dens : F K) g r : forall cur, pick_loop fuel td mid dens g cur = Ok r ->
  exists rs, In rs (nd_isotopes (td_nuclear td)) /\ In r rs.
Proof.
  induction fuel as [|fuel IH]; intros cur H; cbn [pick_loop] in H; destruct (f0 <=. cur); try discriminate.
  rb H as mat Em. rb H as x Ex. destruct x as [c|r0].
  - eapply IH; eauto.
  - injection H as <-. eapply pick_isotope_in; eauto.
Qed.

Lemma pick_reaction_goes rs (a nd : F K) g :
  (forall r, In r rs -> exists x, nth_error (r_cross_section r) (N.to_nat g) = Some x /\ good (a *. nd *. x)) ->
  forall cur, good cur -> exists y, pick_reaction rs a nd g cur = Ok y /\ match y with inl c => good c | inr _ => True end.
Proof.
  intros H. induction rs as [|r rs IH]; intros cur Hc; cbn [pick_reaction]; [eexists; split; [reflexivity|exact Hc]|].
  assert (G : exists c, (if (a ==. f0) || (nd ==. f0) then Ok (cur -. flit (1 # 100000000000000000000))
                         else do xs <- vec_get (r_cross_section r) g ; Ok (cur -. a *. nd *. xs)) = Ok c /\
              (c <. f0 = false -> good c)).
  { destruct ((a ==. f0) || (nd ==. f0)).
    - eexists. split; [reflexivity|]. intros Hz. apply (sl_rest _ SL); auto. apply (sl_literal _ SL).
    - destruct (H r (or_introl eq_refl)) as (x & Ex & Gx). rewrite (vec_get_of_nth _ _ _ Ex). cbn [rbind].
      eexists. split; [reflexivity|]. intros Hz. apply (sl_rest _ SL); auto. }
  destruct G as (c & -> & Gc). cbn [rbind]. destruct (c <. f0) eqn:Ez; [eexists; split; [reflexivity|exact I]|].
  apply IH; [intros r' Hr'; apply H; right; exact Hr'|exact (Gc eq_refl)].
Qed.

Lemma pick_isotope_goes nd (dens : F K) g isos :
  (forall iso, In iso isos -> exists rs, nth_error (nd_isotopes nd) (N.to_nat (iso_gid iso)) = Some rs /\
     forall r, In r rs -> exists x, nth_error (r_cross_section r) (N.to_nat g) = Some x /\ good (iso_atom_fraction iso *. dens *. x)) ->
  forall cur, good cur -> exists y, pick_isotope nd isos dens g cur = Ok y /\ match y with inl c => good c | inr _ => True end.
Proof.
  intros H. induction isos as [|iso isos IH]; intros cur Hc; cbn [pick_isotope]; [eexists; split; [reflexivity|exact Hc]|].
  destruct (H iso (or_introl eq_refl)) as (rs & Er & Hr). rewrite (vec_get_of_nth _ _ _ Er). cbn [rbind].
  destruct (pick_reaction_goes rs _ _ _ Hr cur Hc) as (y & -> & Hy). cbn [rbind]. destruct y as [c|r].
  - apply IH; [intros i Hi; apply H; right; exact Hi|exact Hy].
  - eexists. split; [reflexivity|exact I].
Qed.

Lemma pick_loop_goes fuel td mid mat (dens : F K) g : nth_error (td_mats td) (N.to_nat mid) = Some mat ->
  (forall iso, In iso (mat_iso mat) -> exists rs, nth_error (nd_isotopes (td_nuclear td)) (N.to_nat (iso_gid iso)) = Some rs /\
     forall r, In r rs -> exists x, nth_error (r_cross_section r) (N.to_nat g) = Some x /\ good (iso_atom_fraction iso *. dens *. x)) ->
  forall cur, good cur -> pick_loop fuel td mid dens g cur <> Panic.
Proof.
  intros Em H. induction fuel as [|fuel IH]; intros cur Hc; cbn [pick_loop]; rewrite (sl_good _ SL _ Hc); [discriminate|].
  rewrite (vec_get_of_nth _ _ _ Em). cbn [rbind].
  destruct (pick_isotope_goes (td_nuclear td) dens g _ H cur Hc) as (y & -> & Hy). cbn [rbind]. destruct y as [c|r]; [apply IH; exact Hy|discriminate].
Qed.

Lemma sample_collision_defined (p : particle K) r mass :
  (r_type r = Fission -> forall s, s < two64 -> exists n, fto_usize (r_nu_bar r +. fsample s) = Some n /\ n < 5) ->
  exists x, sample_collision p r mass = Ok x.
Proof.
  intros H. unfold sample_collision. destruct (r_type r).
  - destruct (draw_scatter p mass) as [[e a] q]. eexists. reflexivity.
  - eexists. reflexivity.
  - unfold draw at 1. cbv zeta. destruct (H eq_refl (rng_next (p_random_number_seed p)) (rng_next_lt _)) as (n & -> & Hn). cbn [unwrap rbind].
    assert (B : (n <? 5) = true) by (apply N.ltb_lt; exact Hn).
    destruct n as [|[x|x|]]; [eexists; reflexivity|rewrite B; cbn [rassert rbind]..|].
    + destruct (draw_fission _) as [[e a] q]. destruct (draw_fission_n _ _) as [o q1]. destruct (spawn_n _ _) as [sd q2]. eexists. reflexivity.
    + destruct (draw_fission _) as [[e a] q]. destruct (draw_fission_n _ _) as [o q1]. destruct (spawn_n _ _) as [sd q2]. eexists. reflexivity.
    + destruct (draw_fission _) as [[e a] q]. eexists. reflexivity.
Qed.

(** ** The problem *)

Variable ok : F K -> Prop.
Variable md : mcdata K.
Hypothesis Hsafe : safe_energies md ok.
Variable dom : domain K.
Hypothesis Hsound : sound_problem md dom.
Hypothesis Hix : indexed md dom.
Hypothesis Hval : safe_values good md dom.
Let td := mc_track md.
Let ng := sp_n_groups (mc_params md).

Lemma section_defined cs mat iso rs r g : In cs (d_cells dom) ->
  nth_error (td_mats td) (N.to_nat (cs_material cs)) = Some mat -> In iso (mat_iso mat) ->
  nth_error (nd_isotopes (td_nuclear td)) (N.to_nat (iso_gid iso)) = Some rs -> In r rs -> g < ng ->
  exists x, nth_error (r_cross_section r) (N.to_nat g) = Some x /\ good (iso_atom_fraction iso *. cs_number_density cs *. x).
Proof.
  intros Hcs Em Hi Er Hr Hg. pose proof (ix_sections _ _ Hix rs r (nth_error_In _ _ Er) Hr) as L. fold ng in L.
  destruct (nth_error (r_cross_section r) (N.to_nat g)) as [x|] eqn:Ex; [|apply nth_error_None in Ex; lia].
  exists x. split; [reflexivity|]. eapply (sv_shares _ _ _ Hval); eauto.
Qed.

Lemma isotope_defined mat iso : In mat (td_mats td) -> In iso (mat_iso mat) ->
  exists rs, nth_error (nd_isotopes (td_nuclear td)) (N.to_nat (iso_gid iso)) = Some rs.
Proof.
  intros Hm Hi. pose proof (ix_isotope _ _ Hix mat iso Hm Hi) as L. fold td in L.
  destruct (nth_error (nd_isotopes (td_nuclear td)) (N.to_nat (iso_gid iso))) eqn:E; [eexists; reflexivity|apply nth_error_None in E; lia].
Qed.

Lemma cell_defined c : c < n_cells dom -> exists cs, vec_get (d_cells dom) c = Ok cs /\ In cs (d_cells dom).
Proof. intros H. destruct (vec_get_in_range (d_cells dom) c H) as (cs & E). exists cs. split; [exact E|exact (vec_get_in _ _ _ E)]. Qed.
Lemma material_defined cs : In cs (d_cells dom) -> exists mat, nth_error (td_mats td) (N.to_nat (cs_material cs)) = Some mat.
Proof.
  intros H. pose proof (ix_material _ _ Hix cs H) as L. fold td in L.
  destruct (nth_error (td_mats td) (N.to_nat (cs_material cs))) eqn:E; [eexists; reflexivity|apply nth_error_None in E; lia].
Qed.

Lemma cross_section_defined c g : in_range dom ng c g -> exists xs, cell_cross_section td dom c g = Ok xs.
Proof.
  intros (Hc & Hg). destruct (cell_defined c Hc) as (cs & E & Hin). destruct (material_defined cs Hin) as (mat & Em).
  unfold cell_cross_section, weighted_macroscopic_cross_section. rewrite E. cbn [rbind]. rewrite (vec_get_of_nth _ _ _ Em). cbn [rbind].
  match goal with |- context [rmap ?f ?l] => destruct (rmap_total f l) as (ys & ->) end; [|eexists; reflexivity].
  intros iso Hi. unfold macroscopic_total_cross_section. destruct (_ || _); [eexists; reflexivity|].
  destruct (isotope_defined mat iso (nth_error_In _ _ Em) Hi) as (rs & Er).
  unfold get_total_cross_section. rewrite (vec_get_of_nth _ _ _ Er). cbn [rbind].
  match goal with |- context [rmap ?f ?l] => destruct (rmap_total f l) as (ys & ->) end; [|eexists; reflexivity].
  intros r Hr. destruct (section_defined cs mat iso rs r g Hin Em Hi Er Hr Hg) as (x & Ex & _). exists x. apply vec_get_of_nth, Ex.
Qed.

Lemma group_defined e : exists g, get_energy_groups (td_nuclear td) e = Ok g.
Proof.
  destruct (lookup_total (td_nuclear td) e) as (g & E & _); [|eexists; exact E].
  pose proof (sd_energies _ _ Hsound) as L. pose proof (sd_groups _ _ Hsound). unfold energies in L. fold td in L. lia.
Qed.

Lemma collision_defined cf (q : particle K) b : p_cell q < n_cells dom -> p_energy_group q < ng -> good (p_total_cross_section q) ->
  on_collision cf td dom q b [] <> Panic.
Proof.
  intros Hc Hg Hx. destruct (cell_defined _ Hc) as (cs & E & Hin). destruct (material_defined cs Hin) as (mat & Em).
  unfold on_collision. rewrite E. cbn [rbind]. unfold collision_event, get_current_xs, draw.
  cbn [p_energy_group set_random_number_seed].
  set (cur := p_total_cross_section q *. fsample (rng_next (p_random_number_seed q))).
  assert (Gc : good cur) by (apply (sl_part _ SL); [exact Hx|apply rng_next_lt]).
  assert (HI : forall iso, In iso (mat_iso mat) -> exists rs, nth_error (nd_isotopes (td_nuclear td)) (N.to_nat (iso_gid iso)) = Some rs /\
     forall r, In r rs -> exists x, nth_error (r_cross_section r) (N.to_nat (p_energy_group q)) = Some x /\ good (iso_atom_fraction iso *. cs_number_density cs *. x)).
  { intros iso Hi. destruct (isotope_defined mat iso (nth_error_In _ _ Em) Hi) as (rs & Er). exists rs. split; [exact Er|].
    intros r Hr. eapply section_defined; eauto. }
  pose proof (pick_loop_goes cf td (cs_material cs) mat (cs_number_density cs) (p_energy_group q) Em HI cur Gc) as NP.
  destruct (pick_loop cf td (cs_material cs) (cs_number_density cs) (p_energy_group q) cur) as [r| |] eqn:Ep; [|congruence|discriminate].
  cbn [rbind]. rewrite (vec_get_of_nth _ _ _ Em). cbn [rbind].
  destruct (pick_loop_in _ _ _ _ _ _ _ Ep) as (rs & Hrs & Hr).
  destruct (sample_collision_defined (set_random_number_seed q (rng_next (p_random_number_seed q))) r (mat_mass mat)) as ([[n p1] sec] & ->).
  { intros Hf s Hs. eapply (sv_fission _ _ _ Hval); eauto. }
  cbn [rbind]. destruct (group_defined (p_kinetic_energy p1)) as (g & ->). cbn [rbind]. discriminate.
Qed.

Lemma crossing_defined (q : particle K) b : p_cell q < n_cells dom -> p_facet q < 24 -> on_facet dom q b [] <> Panic.
Proof.
  intros Hc Hf. pose proof (ix_mesh _ _ Hix) as (_ & Lg & H24). pose proof (ix_cells _ _ Hix) as Lc.
  unfold n_cells in Hc. unfold on_facet.
  destruct (vec_get_in_range (me_conn (d_mesh dom)) (p_cell q)) as (conn & E); [rewrite <- Lc; exact Hc|]. rewrite E. cbn [rbind].
  pose proof (vec_get_in _ _ _ E) as Hconn.
  assert (L24 : length (cc_facet conn) = 24%nat).
  { destruct (ix_mesh _ _ Hix) as (Hcm & _). unfold complete_mesh in Hcm. rewrite Forall_forall in Hcm. apply (Hcm _ Hconn). }
  destruct (vec_get_in_range (cc_facet conn) (p_facet q)) as (fa & Ef); [rewrite L24; exact Hf|]. rewrite Ef. cbn [rbind].
  pose proof (ix_facets _ _ Hix conn fa Hconn (vec_get_in _ _ _ Ef)) as X. unfold crossable in X. unfold facet_crossing_event.
  destruct (fa_event fa); try contradiction.
  - cbn. discriminate.
  - cbn. destruct (vec_get_in_range (me_geom (d_mesh dom)) (p_cell q)) as (pls & Eg); [rewrite Lg, <- Lc; exact Hc|]. rewrite Eg. cbn [rbind].
    rewrite Forall_forall in H24. pose proof (H24 _ (vec_get_in _ _ _ Eg)) as Lp.
    destruct (vec_get_in_range pls (p_facet q)) as (pl & ->); [rewrite Lp; exact Hf|]. discriminate.
  - destruct X as (d & c & f & -> & _). cbn. discriminate.
Qed.

End Any.
