(** What the problem excludes does not happen (C66), in any arithmetic in which zero takes nothing away. *)
From Coq Require Import NArith List Bool Lia Permutation.
From Verif Require Import Float ParticleModel NuclearModel MeshTypes Balance TrackModel CycleModel
  TrackSpec CycleSpec TrackAccount CycleAccount CycleFacts PopSpec SourceLemmas SafeRun ScheduleLemmas CrossingLemmas ExcludeSpec.
Import ListNotations.
Local Open Scope N_scope.

Section Facts.
Context {K : FloatOps}.

(** ** Picking a reaction *)
Section Pick.
Hypothesis Z : zero_takes_nothing K.

Lemma pick_reaction_some (P : reaction K -> Prop) (af nb : F K) g : feq af f0 = false -> feq nb f0 = false -> forall rs cur,
  (forall r, In r rs -> P r \/ Forall (fun x => feq x f0 = true) (r_cross_section r)) -> flt cur f0 = false ->
  forall res, pick_reaction rs af nb g cur = Ok res -> match res with inr r => P r /\ In r rs | inl c => flt c f0 = false end.
Proof.
  intros Ea En. induction rs as [|r rs IH]; intros cur HP Hc res H; cbn [pick_reaction] in H.
  - injection H as <-. exact Hc.
  - rewrite Ea, En in H. cbn [orb] in H. rb H as c' Ec. rb Ec as x Ex. injection Ec as <-.
    destruct (flt (fsub cur (fmul (fmul af nb) x)) f0) eqn:L.
    + injection H as <-. split; [|left; reflexivity]. destruct (HP r (or_introl eq_refl)) as [HPr|Hz]; [exact HPr|exfalso].
      rewrite Forall_forall in Hz. pose proof (Z (fmul af nb) cur x (Hz x ltac:(eapply nth_error_In, vec_get_nth; exact Ex)) Hc) as E. congruence.
    + specialize (IH _ (fun r Hr => HP r (or_intror Hr)) L res H). destruct res as [c|r']; [exact IH|]. destruct IH. split; [assumption|right; assumption].
Qed.

Lemma pick_isotope_some (P : reaction K -> Prop) (nd : nuclear_data K) nb g : forall isos cur,
  (forall iso, In iso isos -> feq (iso_atom_fraction iso) f0 = false /\ feq nb f0 = false) ->
  (forall iso rs r, In iso isos -> nth_error (nd_isotopes nd) (N.to_nat (iso_gid iso)) = Some rs -> In r rs ->
     P r \/ Forall (fun x => feq x f0 = true) (r_cross_section r)) -> flt cur f0 = false ->
  forall res, pick_isotope nd isos nb g cur = Ok res ->
  match res with
  | inr r => P r /\ exists iso rs, In iso isos /\ nth_error (nd_isotopes nd) (N.to_nat (iso_gid iso)) = Some rs /\ In r rs
  | inl c => flt c f0 = false end.
Proof.
  induction isos as [|iso isos IH]; intros cur HD HP Hc res H; cbn [pick_isotope] in H.
  - injection H as <-. exact Hc.
  - rb H as rs Ers. rb H as res1 E1. apply vec_get_nth in Ers. destruct (HD iso (or_introl eq_refl)) as (Ha & Hn).
    pose proof (pick_reaction_some P _ _ _ Ha Hn _ _ (fun r Hr => HP iso rs r (or_introl eq_refl) Ers Hr) Hc _ E1) as G.
    destruct res1 as [c|r].
    + specialize (IH c (fun i Hi => HD i (or_intror Hi)) (fun i l r Hi => HP i l r (or_intror Hi)) G res H).
      destruct res as [c'|r]; [exact IH|]. destruct IH as (I1 & i & l & I2 & I3). split; [exact I1|]. exists i, l. split; [right; exact I2|exact I3].
    + injection H as <-. destruct G as (G1 & G2). split; [exact G1|]. exists iso, rs. split; [left; reflexivity|auto].
Qed.

Lemma pick_loop_some (P : reaction K -> Prop) (td : track_data K) cs g : dense td cs ->
  (forall r, reaction_of td cs r -> P r \/ Forall (fun x => feq x f0 = true) (r_cross_section r)) ->
  forall fuel cur, flt cur f0 = false -> forall r, pick_loop fuel td (cs_material cs) (cs_number_density cs) g cur = Ok r -> P r /\ reaction_of td cs r.
Proof.
  intros HD HP. induction fuel as [|fuel IH]; intros cur Hc r H; cbn [pick_loop] in H; destruct (fle f0 cur); try discriminate H.
  rb H as mat Em. rb H as res E. apply vec_get_nth in Em.
  assert (Iso : forall iso, In iso (mat_iso mat) -> isotope_of td cs iso) by (intros iso Hi; exists mat; auto).
  pose proof (pick_isotope_some P (td_nuclear td) (cs_number_density cs) g (mat_iso mat) cur (fun iso Hi => HD iso (Iso iso Hi))
    ltac:(intros iso rs r' Hi Hr Hin; apply HP; exists iso, rs; auto) Hc _ E) as G.
  destruct res as [c|r']; [exact (IH _ G _ H)|]. injection H as <-. destruct G as (G1 & iso & rs & G2 & G3 & G4). split; [exact G1|]. exists iso, rs. auto.
Qed.

(** The first value is not negative, or the loop is not entered. *)
Lemma pick_loop_enters fuel td mat nb g (cur : F K) r : pick_loop fuel td mat nb g cur = Ok r -> fle f0 cur = true.
Proof. destruct fuel; cbn [pick_loop]; destruct (fle f0 cur); congruence. Qed.
End Pick.

(** ** Runs: what holds of each event *)
Section Events.
Variable md : mcdata K.
Variable D : domain K -> Prop.
Variable Ev : seg_event -> Prop.
Hypothesis HD : forall d cells, D d -> Forall2 unchanged (d_cells d) cells -> D (set_cells d cells).
Hypothesis HE : forall dom p e keep p' nx, D dom -> seg_step (mc_track md) dom p e keep p' nx -> Ev e.

Lemma track_events dom p evs p' nx : D dom -> track_path (mc_track md) dom p evs p' nx -> Forall Ev evs.
Proof. intros H. induction 1; constructor; eauto. Qed.
Lemma slice_events dom ps ps' evss nxs : D dom -> slice_paths (mc_track md) dom ps ps' evss nxs -> Forall Ev (concat evss).
Proof. intros H. induction 1; [constructor|]. cbn [concat]. apply Forall_app. split; [eapply track_events; eauto|assumption]. Qed.
Lemma rounds_events dom ps evs kept : D dom -> rounds_paths (mc_track md) dom ps evs kept -> Forall Ev evs.
Proof. intros H. induction 1; [constructor|]. apply Forall_app. split; [eapply slice_events; eauto|assumption]. Qed.

Lemma source_unchanged w rates (d : domain K) : forall cells i cells' n ps, source_cells md w rates d i cells = Ok (cells', n, ps) -> Forall2 unchanged cells cells'.
Proof.
  induction cells as [|cs cells IH]; intros i cells' n ps H; cbn [source_cells] in H.
  - injection H as <- _ _. constructor.
  - rb H as a Ek. rb H as ps1 E1. rb H as [[cells1 n1] ps2] E2. injection H as <- _ _. constructor; [repeat split|eapply IH; exact E2].
Qed.

(** A balance that counts events all of which satisfy [Ev]. *)
Definition tallied_by (b : balance) : Prop :=
  exists evs, Forall Ev evs /\ forall k, In k [EAbsorb; ECensus; EEscape; ECollision; EFission; EProduce; EScatter; ENumSegments] -> bget b k = total (counts k) evs.

Lemma sync_tallied n s s' : n <> sp_n_steps (mc_params md) + 1 -> cycle_sync md n s = Ok s' -> (n <> 0 -> tallied_by (u_balance (s_unit s))) ->
  Forall tallied_by (map rp_balance (s_reports s)) -> Forall tallied_by (map rp_balance (s_reports s')).
Proof.
  intros Hn H Ht Hr.
  assert (Hprep : forall s s', prepare_cycle md s = Ok s' -> s_reports s' = s_reports s).
  { clear. unfold prepare_cycle. intros s s' H. rb H as w Hw. rb H as m Hm. injection H; intros; subst. reflexivity. }
  unfold cycle_sync in H. destruct (N.eqb_spec n 0) as [E0|E0]; [rewrite (Hprep _ _ H); exact Hr|]. rb H as s1 Hf.
  destruct (finish_cycle_parts _ _ _ _ Hf) as (_ & _ & _ & Rp & _).
  assert (G : Forall tallied_by (map rp_balance (s_reports s1))).
  { rewrite Rp, map_app. apply Forall_app. split; [exact Hr|]. cbn [map rp_balance]. constructor; [|constructor].
    destruct (Ht E0) as (evs & A & B). exists evs. split; [exact A|]. intros k Hk. rewrite bget_bset_other; [apply B; exact Hk|].
    intros <-. cbn in Hk. intuition discriminate. }
  destruct (N.eqb_spec n (sp_n_steps (mc_params md) + 1)) as [|_]; [congruence|]. rewrite (Hprep _ _ H). exact G.
Qed.

Lemma steps_tallied fuel cf d n r : D d -> run_steps fuel cf md (initial_sim md d) n r -> forall s, r = Ok s -> n <= sp_n_steps (mc_params md) ->
  D (u_domain (s_unit s)) /\ (n <> 0 -> tallied_by (u_balance (s_unit s))) /\ Forall tallied_by (map rp_balance (s_reports s)).
Proof.
  intros Hd. induction 1 as [|n s0 s1 r H IH Hsync Hproc|n s0 H IH Hsync|n r H IH Hr]; intros s Er Hn.
  - injection Er as <-. split; [exact Hd|]. split; [congruence|constructor].
  - subst r. destruct (IH _ eq_refl ltac:(lia)) as (I1 & I2 & I3).
    pose proof (run_steps_settled _ _ _ _ _ _ H _ eq_refl ltac:(lia)) as St.
    destruct (sync_settled _ _ _ _ _ St Hsync ltac:(lia)) as (R & _).
    pose proof (sync_cells _ _ _ _ Hsync) as Es.
    destruct (process_domain _ _ _ _ _ Hproc) as (u0 & c0 & Hso & Ed). unfold source_now in Hso. rb Hso as rates Er. rb Hso as [[cells k] new] Ec.
    assert (E0 : u_domain u0 = set_cells (u_domain (s_unit s1)) cells) by (injection Hso as <- _; reflexivity).
    assert (D2 : D (u_domain (s_unit s))).
    { rewrite Ed, E0, Es. apply HD; [exact I1|]. rewrite Es in Ec. eapply source_unchanged; exact Ec. }
    destruct (cycle_process_story _ _ _ _ _ Hproc R) as (dom & src & trk & evs & S1 & _ & _ & Edom & _ & _ & Rp). subst dom.
    split; [exact D2|]. split.
    + intros _. exists evs. split; [eapply rounds_events; [exact D2|exact (st_tracks _ _ _ _ _ _ _ _ S1)]|exact (st_counts _ _ _ _ _ _ _ _ S1)].
    + rewrite Rp. eapply sync_tallied; [|exact Hsync|exact I2|exact I3]. lia.
  - discriminate Er.
  - subst r. destruct Hr; discriminate.
Qed.

Lemma total_none k evs : Forall (fun e => counts k e = 0) evs -> total (counts k) evs = 0.
Proof. induction 1 as [|e evs H _ IH]; [reflexivity|]. cbn [total]. rewrite H, IH. reflexivity. Qed.

(** A counter that no event moves is zero in all the rows. *)
Lemma rows_zero fuel cf d s k : D d -> core_loop fuel cf md (initial_sim md d) (Ok s) ->
  In k [EAbsorb; ECensus; EEscape; ECollision; EFission; EProduce; EScatter; ENumSegments] -> (forall e, Ev e -> counts k e = 0) ->
  Forall (fun b => bget b k = 0) (all_rows s).
Proof.
  intros Hd H Hk Hz. destruct (core_loop_story _ _ _ _ _ H) as (_ & _ & _ & _ & Esum).
  remember (Ok s) as r0 eqn:Er. destruct H as [r Hpol Hrun|]; [|discriminate]. rb Er as s1 E. subst r.
  destruct (steps_tallied _ _ _ _ _ Hd Hrun _ eq_refl (N.le_refl _)) as (_ & I2 & I3).
  pose proof (sync_tallied (sp_n_steps (mc_params md)) _ _ ltac:(lia) Er I2 I3) as G.
  assert (G' : Forall (fun b => bget b k = 0) (map rp_balance (s_reports s))).
  { eapply Forall_impl; [|exact G]. intros b (evs & A & B). rewrite (B k Hk). apply total_none. eapply Forall_impl; [|exact A]. exact Hz. }
  unfold all_rows. constructor; [|exact G']. rewrite Esum, bsum_bget. clear - G'.
  induction G' as [|b l Hb _ IH]; [reflexivity|]. cbn [map fold_right]. rewrite Hb, IH. reflexivity.
Qed.
End Events.

(** ** Reactions without cross-section *)

Lemma step_excluded (td : track_data K) dom k p e keep p' nx : zero_takes_nothing K -> (forall x : F K, fle f0 x = true -> flt x f0 = false) ->
  (forall cs, In cs (d_cells dom) -> dense td cs) -> seg_step td dom p e keep p' nx ->
  match e with
  | SegCollision t n => exists cs r, vec_get (d_cells dom) (p_cell p) = Ok cs /\ reaction_of td cs r /\ r_type r = t /\ ~ (inert td cs k /\ t = k)
  | _ => True
  end.
Proof.
  intros Z O HD H. inversion H; subst; clear H; auto.
  match goal with E : outcome_after _ _ _ _ _ = Ok _ |- _ => destruct (outcome_after_place _ _ _ _ _ _ _ E) as (Hcell & _) end.
  assert (Ecell : p_cell p1 = p_cell p) by (rewrite Hcell; unfold entering; destruct (out_of_paths p); reflexivity).
  match goal with E : vec_get (d_cells dom) _ = Ok ?c |- _ => rewrite Ecell in E; rename E into Hget; set (cs0 := c) in * end.
  assert (Hin : In cs0 (d_cells dom)) by (apply vec_get_nth, nth_error_In in Hget; exact Hget).
  match goal with E : pick_loop _ _ _ _ _ _ = Ok _ |- _ => rename E into Hp end.
  exists cs0, r. split; [exact Hget|].
  assert (Any : forall P : reaction K -> Prop, (forall r, reaction_of td cs0 r -> P r \/ Forall (fun x => feq x f0 = true) (r_cross_section r)) -> P r /\ reaction_of td cs0 r).
  { intros P HP. eapply (pick_loop_some Z P td cs0 _ (HD _ Hin) HP); [|exact Hp]. apply O. eapply pick_loop_enters. exact Hp. }
  destruct (Any (fun _ => True) ltac:(auto)) as (_ & Hr). split; [exact Hr|]. split; [reflexivity|]. intros (Hi & Hk).
  destruct (Any (fun r => r_type r <> k)) as (Hne & _); [|exact (Hne Hk)].
  intros r0 Hr0. destruct (r_type r0) eqn:Et, k; try (left; discriminate); right; apply (Hi r0 Hr0 Et).
Qed.

Lemma excluded_stays (td : track_data K) k (d : domain K) cells : excluded td d k -> Forall2 unchanged (d_cells d) cells -> excluded td (set_cells d cells) k.
Proof.
  unfold excluded. cbn [d_cells set_cells]. intros H HF. induction HF as [|cs cs' l l' (U1 & U2 & U3) HF IH]; constructor.
  - assert (Iso : forall iso, isotope_of td cs' iso -> isotope_of td cs iso) by (intros iso (mat & E & Hin); exists mat; rewrite U1 in E; auto).
    destruct (Forall_inv H) as (H1 & H2). split.
    + intros iso Hi. rewrite U3. apply H1. auto.
    + intros r (iso & rs & Hi & Hrs & Hr). apply H2. exists iso, rs. auto.
  - apply IH. exact (Forall_inv_tail H).
Qed.

Lemma run_excluded fuel cf (md : mcdata K) d s k : zero_takes_nothing K -> (forall x : F K, fle f0 x = true -> flt x f0 = false) ->
  excluded (mc_track md) d k -> core_loop fuel cf md (initial_sim md d) (Ok s) ->
  forall c, In c (tells_of k) -> Forall (fun b => bget b c = 0) (all_rows s).
Proof.
  intros Z O Hx H c Hc.
  apply (rows_zero md (fun d => excluded (mc_track md) d k) (fun e => match e with SegCollision t _ => t <> k | _ => True end)) with (fuel := fuel) (cf := cf) (d := d).
  - intros d0 cells. apply excluded_stays.
  - intros dom p e keep p' nx Hd Hs. pose proof (step_excluded (mc_track md) dom k p e keep p' nx Z O) as G.
    unfold excluded in Hd. rewrite Forall_forall in Hd. specialize (G (fun cs Hin => proj1 (Hd cs Hin)) Hs). destruct e as [t n| |]; auto.
    destruct G as (cs & r & Hin & _ & _ & Hne). apply vec_get_nth, nth_error_In in Hin. intros Ht. apply Hne. split; [apply Hd; exact Hin|exact Ht].
  - exact Hx.
  - exact H.
  - destruct k; cbn in Hc |- * ; intuition (subst; auto 10).
  - intros e He. destruct e as [t n| |]; destruct k; cbn in Hc; intuition (subst; try reflexivity); destruct t; try reflexivity; contradiction.
Qed.

(** Nothing escapes through facets that let nothing out. *)
Lemma run_closed fuel cf (md : mcdata K) d s : closed (d_mesh d) -> core_loop fuel cf md (initial_sim md d) (Ok s) ->
  Forall (fun b => bget b EEscape = 0) (all_rows s).
Proof.
  intros Hc H.
  apply (rows_zero md (fun d => closed (d_mesh d)) (fun e => e <> SegFacet BoundaryEscape)) with (fuel := fuel) (cf := cf) (d := d); auto.
  - intros dom p e keep p' nx Hd Hs. inversion Hs; subst; try discriminate. intros E. injection E as E.
    match goal with A : vec_get (me_conn _) _ = Ok _, B : vec_get (cc_facet _) _ = Ok _ |- _ => apply vec_get_nth, nth_error_In in A; apply vec_get_nth, nth_error_In in B;
      exact (Hd _ _ A B E) end.
  - cbn. auto 10.
  - intros e He. destruct e as [| [] |]; cbn; try reflexivity. contradiction.
Qed.

(** All collisions are of the kind that is not excluded. *)
Lemma run_only fuel cf (md : mcdata K) d s k : zero_takes_nothing K -> (forall x : F K, fle f0 x = true -> flt x f0 = false) ->
  (forall k', k' <> k -> excluded (mc_track md) d k') -> core_loop fuel cf md (initial_sim md d) (Ok s) ->
  Forall (fun b => bget b ECollision = bget b (match k with Scatter => EScatter | Absorption => EAbsorb | Fission => EFission end)) (all_rows s).
Proof.
  intros Z O Hx H. pose proof (run_collisions _ _ _ _ _ H) as G. fold (all_rows s) in G.
  assert (A : forall k', k' <> k -> forall c, In c (tells_of k') -> Forall (fun b => bget b c = 0) (all_rows s)) by (intros k' Hk'; apply (run_excluded fuel cf md d s k' Z O (Hx k' Hk') H)).
  rewrite Forall_forall in G |- * . intros b Hb. specialize (G b Hb).
  assert (B : forall k', k' <> k -> forall c, In c (tells_of k') -> bget b c = 0) by (intros k' Hk' c Hc; specialize (A k' Hk' c Hc); rewrite Forall_forall in A; auto).
  destruct k.
  - pose proof (B Absorption ltac:(discriminate) EAbsorb ltac:(cbn; auto)). pose proof (B Fission ltac:(discriminate) EFission ltac:(cbn; auto)). lia.
  - pose proof (B Scatter ltac:(discriminate) EScatter ltac:(cbn; auto)). pose proof (B Fission ltac:(discriminate) EFission ltac:(cbn; auto)). lia.
  - pose proof (B Scatter ltac:(discriminate) EScatter ltac:(cbn; auto)). pose proof (B Absorption ltac:(discriminate) EAbsorb ltac:(cbn; auto)). lia.
Qed.

(** In a closed box without absorption and fission only the source and population control change the number of particles. *)
Lemma run_box fuel cf (md : mcdata K) d s : zero_takes_nothing K -> (forall x : F K, fle f0 x = true -> flt x f0 = false) ->
  closed (d_mesh d) -> excluded (mc_track md) d Absorption -> excluded (mc_track md) d Fission -> core_loop fuel cf md (initial_sim md d) (Ok s) ->
  Forall (fun b => bget b EStart + bget b ESource + bget b ESplit = bget b EEnd + bget b EOverRr + bget b EWeightRr) (map rp_balance (s_reports s)).
Proof.
  intros Z O Hc Ha Hf H. destruct (core_loop_story _ _ _ _ _ H) as (_ & S & _). apply run_story_good in S.
  pose proof (run_closed _ _ _ _ _ Hc H) as A. pose proof (run_excluded _ _ _ _ _ _ Z O Ha H EAbsorb ltac:(cbn; auto)) as B.
  pose proof (run_excluded _ _ _ _ _ _ Z O Hf H EFission ltac:(cbn; auto)) as C. pose proof (run_excluded _ _ _ _ _ _ Z O Hf H EProduce ltac:(cbn; auto)) as E.
  apply Forall_inv_tail in A, B, C, E. rewrite Forall_forall in * . intros b Hb. destruct (S b Hb) as (n & [G1 G2 _ _]). unfold conserved in G1.
  rewrite (A b Hb), (B b Hb), (C b Hb), (E b Hb) in G1. rewrite G2. lia.
Qed.

End Facts.
