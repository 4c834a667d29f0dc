(** A problem set up from accepted parameters refers to existing entries only, in any arithmetic (C49). *)
From Coq Require Import NArith QArith List Bool Lia Permutation String.
From Verif Require Import Float RngModel ParticleModel NuclearModel MeshTypes Balance TrackModel CycleModel GridModel MeshModel GridSpec GridLemmas CycleAccount FloodLemmas MeshSpec MeshTheorems
  GeomSpec ScheduleSpec RangeSpec PopSpec SegmentSpec NuclearSpec NuclearFacts TrackAccount SourceLemmas SegmentFacts WellBuilt ParamModel ParamSpec IntegrityLemmas SafeSpec.
Import ListNotations.
Local Open Scope N_scope.
Local Open Scope float_scope.

Section Any.
Context {K : FloatOps}.

(** ** Nuclear data *)

(** The three cross-sections asked for when an isotope of [mp] is added. *)
Definition wanted (mp : material_params K) : list (F K) :=
  let share ratio n := (mp_total_cross_section mp *. ratio) /. (fof_N n *. (mp_fission_ratio mp +. mp_scattering_ratio mp +. mp_absorption_ratio mp)) in
  [share (mp_fission_ratio mp) (n_fission (mp_n_reactions mp)); share (mp_scattering_ratio mp) (n_scatter (mp_n_reactions mp));
   share (mp_absorption_ratio mp) (n_absorption (mp_n_reactions mp))].

Section From.
Variable P : reaction K -> Prop.

Lemma isotope_from (nd nd' : nuclear_data K) xs mp nu gid : add_isotope nd xs mp nu = Ok (nd', gid) ->
  (forall t q x, In x (wanted mp) -> P (reaction_new t nu (nd_energies nd) q x)) ->
  Forall (Forall P) (nd_isotopes nd) -> Forall (Forall P) (nd_isotopes nd') /\ nd_energies nd' = nd_energies nd.
Proof.
  unfold add_isotope. intros H HP HF. rb H as ff E1. rb H as sf E2. rb H as af E3. apply Ok_inj in H. injection H as <- _.
  cbn [nd_isotopes nd_energies]. split; [|reflexivity]. apply Forall_app. split; [exact HF|]. constructor; [|constructor].
  apply Forall_map, Forall_forall. intros i _. destruct (i mod 3) as [|[p|p|]]; apply HP; cbn; auto.
Qed.

Lemma isotopes_from xs mp nu : forall n (nd nd' : nuclear_data K) l, add_isotopes n nd xs mp nu = Ok (nd', l) ->
  (forall t q x, In x (wanted mp) -> P (reaction_new t nu (nd_energies nd) q x)) ->
  Forall (Forall P) (nd_isotopes nd) -> Forall (Forall P) (nd_isotopes nd') /\ nd_energies nd' = nd_energies nd.
Proof.
  induction n as [|n IH]; intros nd nd' l H HP HF; cbn [add_isotopes] in H.
  - apply Ok_inj in H. injection H as <- _. auto.
  - rb H as [nd1 gid] E1. rb H as [nd2 l2] E2. apply Ok_inj in H. injection H as <- _.
    destruct (isotope_from _ _ _ _ _ _ E1 HP HF) as (F1 & Ee). destruct (IH _ _ _ E2) as (F2 & Ee2); [rewrite Ee; exact HP|exact F1|].
    split; [exact F2|congruence].
Qed.

Lemma reactions_from xs nus : forall mps (nd nd' : nuclear_data K) mats, init_materials mps nd xs nus = Ok (nd', mats) ->
  (forall mp nu t q x, In mp mps -> map_get nus (mp_fission_cross_section mp) = Some nu -> In x (wanted mp) -> P (reaction_new t nu (nd_energies nd) q x)) ->
  Forall (Forall P) (nd_isotopes nd) -> Forall (Forall P) (nd_isotopes nd').
Proof.
  induction mps as [|mp mps IH]; intros nd nd' mats H HP HF; cbn [init_materials] in H.
  - apply Ok_inj in H. injection H as <- _. exact HF.
  - rb H as [nd1 iso] E1. rb H as [nd2 mats2] E2. apply Ok_inj in H. injection H as <- _.
    assert (G : Forall (Forall P) (nd_isotopes nd1) /\ nd_energies nd1 = nd_energies nd).
    { destruct (N.to_nat (mp_n_isotopes mp)) as [|k]; [apply Ok_inj in E1; injection E1 as <- _; auto|].
      rb E1 as nu En. apply (isotopes_from _ _ _ _ _ _ _ E1); [|exact HF]. intros t q x Hx. apply (HP mp); [left; reflexivity| |exact Hx].
      unfold map_index in En. destruct (map_get nus _); [|discriminate]. injection En as ->. reflexivity. }
    destruct G as (F1 & Ee). eapply IH; [exact E2| |exact F1]. intros. rewrite Ee. eapply HP; eauto. right. assumption.
Qed.
End From.

(** What the initialisation makes of the parameters. *)
Lemma initialised (p : params K) md : init_mcdata p = Ok md -> exists nd,
  mc_params md = cycle_params (pa_sim p) /\ td_dt (mc_track md) = si_dt (pa_sim p) /\ td_nuclear (mc_track md) = nd /\ mc_material_params md = pa_mats p /\
  init_materials (map snd (pa_mats p)) (nuclear_new (si_n_groups (pa_sim p)) (si_e_min (pa_sim p)) (si_e_max (pa_sim p)))
    (map (fun e => (xp_name (snd e), mkPoly (xp_aa (snd e)) (xp_bb (snd e)) (xp_cc (snd e)) (xp_dd (snd e)) (xp_ee (snd e)))) (pa_xs p))
    (map (fun e => (fst e, xp_nu_bar (snd e))) (pa_xs p)) = Ok (nd, td_mats (mc_track md)).
Proof.
  unfold init_mcdata. intros H. rb H as ei E1. rb H as [nd mats] E2. apply Ok_inj in H. subst md. exists nd. cbn. auto.
Qed.

Lemma threads_same threads (md : mcdata K) : mc_params (set_threads threads md) = mc_params md /\ mc_track (set_threads threads md) = mc_track md /\
  mc_material_params (set_threads threads md) = mc_material_params md /\ ei_n_units (mc_exec (set_threads threads md)) = ei_n_units (mc_exec md).
Proof. unfold set_threads. destruct (ei_policy (mc_exec md)); cbn; auto. Qed.

Lemma energies_count (n : N) (lo hi : F K) : N.of_nat (List.length (nuclear_energies n lo hi)) = n + 1.
Proof.
  unfold nuclear_energies. destruct n as [|q]; [reflexivity|]. cbn [List.length]. rewrite app_length, map_length, nrange_length. cbn [List.length]. lia.
Qed.
Lemma energies_end (n : N) (lo hi : F K) : nth_error (nuclear_energies n lo hi) (List.length (nuclear_energies n lo hi) - 1) = Some hi.
Proof.
  unfold nuclear_energies. destruct n as [|q]; [reflexivity|]. cbn [List.length]. rewrite app_length, map_length, nrange_length. cbn [List.length].
  match goal with |- nth_error (?a :: ?l ++ ?r) ?k = _ => change (a :: l ++ r) with ((a :: l) ++ r); rewrite nth_error_app2; cbn [List.length]; rewrite map_length, nrange_length; [|lia] end.
  match goal with |- nth_error _ ?k = _ => replace k with O by lia end. reflexivity.
Qed.

Lemma Forall2_in_r {A B} (R : A -> B -> Prop) l l' : Forall2 R l l' -> forall b, In b l' -> exists a, In a l /\ R a b.
Proof. induction 1 as [|x y l l' H F2 IH]; intros b Hb; [destruct Hb|]. destruct Hb as [<-|Hb]; [exists x; cbn; auto|]. destruct (IH b Hb) as (a & H1 & H2). exists a. cbn. auto. Qed.

(** ** Indices *)
Lemma set_up_indexed (p : params K) md threads g bc pt geoms dom : init_mcdata p = Ok md -> well_named p -> 0 < si_n_groups (pa_sim p) ->
  built_domain g bc pt geoms (td_mats (mc_track md)) dom ->
  sound_problem (set_threads threads md) dom /\ indexed (set_threads threads md) dom.
Proof.
  intros Hi (Nm & Dm & _) Hg D. destruct (initialised _ _ Hi) as (nd & Ep & Edt & En & Emp & Em).
  destruct (threads_same threads md) as (T1 & T2 & T3 & _).
  destruct (init_materials_mix _ _ _ _ _ _ Em) as (_ & Ee & _ & HM & _). cbn [nuclear_new nd_energies] in Ee.
  destruct (built_domain_parts _ _ _ _ _ _ D) as (B & _ & Lc & Hm). destruct (built_complete _ _ _ _ B) as (C & _).
  assert (Hfa : forall conn fa, In conn (me_conn (d_mesh dom)) -> In fa (cc_facet conn) -> crossable dom fa).
  { intros conn fa Hc Hf. apply In_nth_error in Hc. destruct Hc as (i & Ei). apply In_nth_error in Hf. destruct Hf as (k & Ek).
    destruct (facets_exist _ _ _ _ B) as (_ & Hl & _). destruct (Hl i) as (c & Li); [apply nth_error_Some; congruence|].
    assert (Fa : facet_at (d_mesh dom) i k fa) by (exists conn; auto).
    pose proof (boundary_events _ _ _ _ _ _ _ _ B Li Fa) as Ev. destruct (adjacency_back _ _ _ _ _ _ _ _ B Li Fa) as (j & k' & fa' & Ea & (cc' & Ej & _) & _).
    unfold crossable. destruct (on_boundary _ _ _).
    - unfold requested in Ev. destruct (String.eqb bc "reflect"); [injection Ev as <-; exact I|].
      destruct (String.eqb bc "escape"); [injection Ev as <-; exact I|]. destruct (String.eqb bc "octant"); [|discriminate].
      injection Ev as <-. destruct (face_up _); exact I.
    - rewrite Ev. exists 0, (N.of_nat j), (N.of_nat k'). split; [exact Ea|]. unfold n_cells.
      assert (j < List.length (me_conn (d_mesh dom)))%nat by (apply nth_error_Some; congruence). lia. }
  split; constructor; rewrite ?T1, ?T2, ?T3; auto.
  - rewrite Ep. exact Hg.
  - unfold energies. rewrite T2, En, Ee, Ep. apply energies_count.
  - intros conn fa c Hc Hf Hev Hcell. pose proof (Hfa conn fa Hc Hf) as X. unfold crossable in X. rewrite Hev in X.
    destruct X as (d0 & c0 & f & E & L). rewrite E in Hcell. cbn [loc_cell] in Hcell. congruence.
  - intros cs Hcs. rewrite Forall_forall in Hm. apply Hm. exact Hcs.
  - intros mat iso Hmat Hiso. destruct (Forall2_in_r _ _ _ HM mat Hmat) as (mp & _ & (_ & _ & _ & HI)).
    rewrite Forall_forall in HI. destruct (HI _ Hiso) as (_ & rs & nu & _ & Er & _). rewrite En.
    assert (N.to_nat (iso_gid iso) < List.length (nd_isotopes nd))%nat by (apply nth_error_Some; congruence). lia.
  - rewrite En. assert (HF : Forall (Forall (fun r : reaction K => N.of_nat (List.length (r_cross_section r)) = si_n_groups (pa_sim p))) (nd_isotopes nd)).
    { eapply reactions_from; [exact Em| |constructor]. intros mp nu t q x _ _ _. cbn [nuclear_new nd_energies].
      destruct (reaction_new_shape t nu (nuclear_energies (si_n_groups (pa_sim p)) (si_e_min (pa_sim p)) (si_e_max (pa_sim p))) q x) as (_ & _ & ->).
      pose proof (energies_count (si_n_groups (pa_sim p)) (si_e_min (pa_sim p)) (si_e_max (pa_sim p))). lia. }
    intros rs r Hrs Hr. rewrite Forall_forall in HF. specialize (HF _ Hrs). rewrite Forall_forall in HF. rewrite Ep. apply HF. exact Hr.
  - unfold materials_known. rewrite T2, T3, Emp. apply Forall_forall. intros mat Hmat.
    destruct (Forall2_in_r _ _ _ HM mat Hmat) as (mp & Hmp & (Hn & _)). apply in_map_iff in Hmp. destruct Hmp as ((k & mp') & E & Hin). cbn [snd] in E. subst mp'.
    rewrite Forall_forall in Nm. pose proof (Nm _ Hin) as Ek. cbn [fst snd] in Ek. rewrite Hn, <- Ek. unfold map_index.
    enough (exists v, map_get (pa_mats p) k = Some v) as (v & ->) by (exists v; reflexivity).
    clear - Hin. induction (pa_mats p) as [|(k' & v) l IH]; [destruct Hin|]. cbn [map_get]. destruct (String.eqb_spec k' k); [eauto|].
    destruct Hin as [E|Hin]; [congruence|auto].
Qed.

(** The parameters of the material of a cell. *)
Lemma material_source (p : params K) md : init_mcdata p = Ok md -> well_named p ->
  forall cs x, emits md cs x -> exists mp, In mp (map snd (pa_mats p)) /\ x = cs_volume cs *. mp_source_rate mp *. si_dt (pa_sim p).
Proof.
  intros Hi W cs x (mat & mp & _ & E & ->). destruct (initialised _ _ Hi) as (nd & _ & Edt & _ & Emp & _). rewrite Emp in E. rewrite Edt.
  exists mp. split; [|reflexivity]. unfold map_index in E. destruct (map_get (pa_mats p) (mat_name mat)) as [v|] eqn:Eg; [|discriminate]. injection E as ->.
  clear - Eg. induction (pa_mats p) as [|(k & v) l IH]; [discriminate|]. cbn [map_get] in Eg. cbn [map snd]. destruct (String.eqb k _); [injection Eg as <-; left; reflexivity|right; auto].
Qed.

End Any.
