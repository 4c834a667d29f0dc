(** The integrity check, the defaults and the meaning of accepted parameters (C41, C42, C43, C45). *)
From Coq Require Import NArith QArith List Bool String Ascii Permutation Lia.
From Verif Require Import Float RngModel ParticleModel NuclearModel MeshTypes Balance TrackModel CycleModel GridModel AssignModel MeshModel TrackAccount
  MeshSpec MaterialFacts WellBuilt ParamModel ParamSpec BlockLemmas ParamLemmas.
Import ListNotations.
Local Open Scope N_scope.

Lemma app_nil {A} (l l' : list A) : l ++ l' = [] <-> l = [] /\ l' = [].
Proof. split; [apply app_eq_nil|intros [-> ->]; reflexivity]. Qed.
Lemma flat_map_nil {A B} (f : A -> list B) l : flat_map f l = [] <-> Forall (fun a => f a = []) l.
Proof.
  induction l as [|a l IH]; [split; [constructor|reflexivity]|]. cbn [flat_map]. rewrite app_nil, IH. split.
  - intros [H1 H2]. constructor; assumption.
  - intros H. split; [exact (Forall_inv H)|exact (Forall_inv_tail H)].
Qed.

Section Integrity.
Context {K : FloatOps}.
Implicit Types (p q : params K) (c : cli K) (s : simulation_params K).

Lemma contains_iff {A} (m : list (string * A)) k : contains_key m k = true <-> known m k.
Proof. split; [|intros H; apply contains_known; exact H]. unfold contains_key, known. destruct (map_get m k) as [v|] eqn:E; [|discriminate]. intros _. exists v. apply map_get_In. exact E. Qed.

Lemma geometry_errors_nil p g : geometry_errors p g = [] <-> geometry_sound p g.
Proof.
  unfold geometry_errors, geometry_sound. rewrite app_nil, <- contains_iff. destruct (contains_key (pa_mats p) (gp_material_name g)); destruct (gp_shape g);
    intuition congruence.
Qed.
Lemma material_errors_nil p m : material_errors p m = [] <-> material_sound p m.
Proof.
  unfold material_errors, material_sound. rewrite <- !contains_iff. cbn [flat_map]. rewrite app_nil_r.
  destruct (contains_key (pa_xs p) (mp_absorption_cross_section m)), (contains_key (pa_xs p) (mp_scattering_cross_section m)), (contains_key (pa_xs p) (mp_fission_cross_section m));
    cbn [app]; intuition congruence.
Qed.
Lemma check_integrity_nil p : check_integrity p = [] <-> integrity p.
Proof.
  unfold check_integrity, integrity. rewrite !app_nil, !flat_map_nil.
  assert (E1 : Forall (fun a => geometry_errors p a = []) (pa_geom p) <-> Forall (geometry_sound p) (pa_geom p)) by (split; apply Forall_impl; intros g; apply geometry_errors_nil).
  assert (E2 : Forall (fun a => material_errors p (snd a) = []) (pa_mats p) <-> Forall (fun e => material_sound p (snd e)) (pa_mats p)) by (split; apply Forall_impl; intros g; apply material_errors_nil).
  rewrite E1, E2. destruct (pa_geom p); intuition congruence.
Qed.

(** What each error says. *)
Lemma errors_say p : forall e, In e (check_integrity p) <->
  match e with
  | NoGeometry => pa_geom p = []
  | UndefinedGeometry => exists g, In g (pa_geom p) /\ gp_shape g = ShUndefined
  | MissingMaterial name => exists g, In g (pa_geom p) /\ name = gp_material_name g /\ ~ known (pa_mats p) name
  | MissingCrossSection text => exists key m name, In (key, m) (pa_mats p) /\
      In name [mp_absorption_cross_section m; mp_scattering_cross_section m; mp_fission_cross_section m] /\
      ~ known (pa_xs p) name /\ text = (mp_name m ++ ":" ++ name)%string
  end.
Proof.
  assert (Hg : forall e g, In e (geometry_errors p g) <-> (gp_shape g = ShUndefined /\ e = UndefinedGeometry) \/ (~ known (pa_mats p) (gp_material_name g) /\ e = MissingMaterial (gp_material_name g))).
  { intros e g. unfold geometry_errors. rewrite in_app_iff, <- contains_iff. destruct (contains_key (pa_mats p) (gp_material_name g)); destruct (gp_shape g); cbn [In]; intuition (try congruence). }
  assert (Hm : forall e m, In e (material_errors p m) <-> exists name, In name [mp_absorption_cross_section m; mp_scattering_cross_section m; mp_fission_cross_section m] /\
    ~ known (pa_xs p) name /\ e = MissingCrossSection (mp_name m ++ ":" ++ name)%string).
  { intros e m. unfold material_errors. rewrite in_flat_map. split; intros (n & Hn & H); exists n; (split; [exact Hn|]).
    - rewrite <- contains_iff. destruct (contains_key (pa_xs p) n); cbn [In] in H; [contradiction|]. destruct H as [H|[]]. split; [congruence|auto].
    - rewrite <- contains_iff in H. destruct (contains_key (pa_xs p) n); cbn [In]; [exfalso; apply (proj1 H); reflexivity|]. left. symmetry. tauto. }
  intros e. unfold check_integrity. rewrite !in_app_iff, !in_flat_map. split.
  - intros [H|[(g & Ig & H)|([key m] & Im & H)]].
    + destruct (pa_geom p); cbn [In] in H; [|contradiction]. destruct H as [<-|[]]. reflexivity.
    + apply Hg in H. destruct H as [(Hs & ->)|(Hs & ->)]; [eauto|]. exists g. auto.
    + apply Hm in H. destruct H as (n & Hn & Hk & ->). exists key, m, n. auto.
  - destruct e.
    + intros ->. left. left. reflexivity.
    + intros (g & Ig & Hs). right; left. exists g. split; [exact Ig|]. apply Hg. auto.
    + intros (g & Ig & -> & Hs). right; left. exists g. split; [exact Ig|]. apply Hg. auto.
    + intros (key & m & n & Im & Hn & Hk & ->). right; right. exists (key, m). split; [exact Im|]. apply Hm. exists n. auto.
Qed.

Lemma known_perm {A} (m m' : list (string * A)) k : Permutation m m' -> contains_key m k = contains_key m' k.
Proof.
  intros P. destruct (contains_key m k) eqn:E, (contains_key m' k) eqn:E'; try reflexivity; exfalso.
  - apply contains_iff in E. destruct E as (v & Hv). assert (contains_key m' k = true) by (apply contains_iff; exists v; eapply Permutation_in; eauto). congruence.
  - apply contains_iff in E'. destruct E' as (v & Hv). assert (contains_key m k = true) by (apply contains_iff; exists v; eapply Permutation_in; [apply Permutation_sym|]; eauto). congruence.
Qed.
Lemma errors_perm p q : reordered p q -> Permutation (check_integrity p) (check_integrity q).
Proof.
  intros (_ & Eg & Pm & Px). unfold check_integrity. rewrite Eg. apply Permutation_app_head.
  assert (E1 : forall g, geometry_errors p g = geometry_errors q g) by (intros g; unfold geometry_errors; rewrite (known_perm _ _ _ Pm); reflexivity).
  assert (E2 : forall m, material_errors p m = material_errors q m) by (intros m; unfold material_errors; cbn [flat_map]; rewrite !(known_perm _ _ _ Px); reflexivity).
  rewrite (flat_map_ext _ _ E1). apply Permutation_app_head.
  rewrite (flat_map_ext _ _ (fun e : string * material_params K => E2 (snd e))). apply Permutation_flat_map. exact Pm.
Qed.

(** ** What accepted parameters are good for *)
Lemma get_named {A B} (f : string * A -> B) (m : list (string * A)) k v : map_get m k = Some v -> exists w, map_get (map (fun e => (fst e, f e)) m) k = Some w.
Proof. induction m as [|[k' v'] m IH]; [discriminate|]. cbn [map_get map fst]. destruct (k' =? k)%string; [eauto|exact IH]. Qed.
Lemma known_get {A} (m : list (string * A)) k : known m k -> exists v, map_get m k = Some v.
Proof. intros H. apply contains_iff in H. unfold contains_key in H. destruct (map_get m k); [eauto|discriminate]. Qed.

Lemma add_isotopes_defined xs (mp : material_params K) nu : forall n (nd : nuclear_data K),
  (exists v, map_get xs (mp_fission_cross_section mp) = Some v) -> (exists v, map_get xs (mp_scattering_cross_section mp) = Some v) ->
  (exists v, map_get xs (mp_absorption_cross_section mp) = Some v) -> exists r, add_isotopes n nd xs mp nu = Ok r.
Proof.
  induction n as [|n IH]; intros nd (f & Ef) (s & Es) (a & Ea); cbn [add_isotopes]; [eexists; reflexivity|].
  unfold add_isotope, map_index. rewrite Ef, Es, Ea. cbn [unwrap rbind].
  match goal with |- context [add_isotopes n ?nd' xs mp nu] => destruct (IH nd') as ([nd2 l] & E); eauto end. rewrite E. cbn [rbind]. eexists; reflexivity.
Qed.
Lemma init_materials_defined xs nus : forall (mps : list (material_params K)) nd,
  Forall (fun mp => (exists v, map_get xs (mp_fission_cross_section mp) = Some v) /\ (exists v, map_get xs (mp_scattering_cross_section mp) = Some v) /\
     (exists v, map_get xs (mp_absorption_cross_section mp) = Some v) /\ exists v, map_get nus (mp_fission_cross_section mp) = Some v) mps ->
  exists nd' mats, init_materials mps nd xs nus = Ok (nd', mats).
Proof.
  induction mps as [|mp mps IH]; intros nd H; cbn [init_materials]; [eexists; eexists; reflexivity|]. destruct (Forall_inv H) as (Hf & Hs & Ha & nu & En).
  assert (H1 : exists nd1 iso, match N.to_nat (mp_n_isotopes mp) with O => Ok (nd, []) | S _ as n => do nu_bar <- map_index nus (mp_fission_cross_section mp) ; add_isotopes n nd xs mp nu_bar end = Ok (nd1, iso)).
  { destruct (N.to_nat (mp_n_isotopes mp)) as [|k]; [eexists; eexists; reflexivity|]. unfold map_index. rewrite En. cbn [unwrap rbind].
    destruct (add_isotopes_defined xs mp nu (S k) nd Hf Hs Ha) as ([nd1 iso] & E). rewrite E. eexists; eexists; reflexivity. }
  destruct H1 as (nd1 & iso & ->). cbn [rbind]. destruct (IH nd1 (Forall_inv_tail H)) as (nd2 & mats & ->). cbn [rbind]. eexists; eexists; reflexivity.
Qed.
Lemma init_materials_names xs nus : forall (mps : list (material_params K)) nd nd' mats, init_materials mps nd xs nus = Ok (nd', mats) -> map mat_name mats = map mp_name mps.
Proof.
  induction mps as [|mp mps IH]; intros nd nd' mats H; cbn [init_materials] in H; [injection H as <- <-; reflexivity|].
  rb H as [nd1 iso] E1. rb H as [nd2 mats2] E2. injection H as <- <-. cbn [map mat_name]. f_equal. eapply IH; exact E2.
Qed.
Lemma find_named (mats : list (material K)) name : In name (map mat_name mats) -> find_material_idx mats name <> None.
Proof.
  unfold find_material_idx. generalize 0. induction mats as [|m mats IH]; intros i H; [contradiction|]. cbn [find_material_from].
  destruct (String.eqb_spec (mat_name m) name) as [E|E]; [discriminate|]. apply IH. cbn [map In] in H. destruct H; [contradiction|assumption].
Qed.

(** The lookups of the initialisation succeed. *)
Lemma accepted_initialises p : integrity p -> well_named p -> si_n_units (pa_sim p) <> 0 ->
  exists md, init_mcdata p = Ok md /\ map mat_name (td_mats (mc_track md)) = map fst (pa_mats p) /\
    Forall (fun g => find_material_idx (td_mats (mc_track md)) (gp_material_name g) <> None) (pa_geom p) /\
    (forall r, exists name, find_material (pa_geom p) r = Ok name /\ (name = ""%string \/ find_material_idx (td_mats (mc_track md)) name <> None)).
Proof.
  intros (Hn & Hg & Hm) (Nm & Dm & Nx & Dx) Hu. unfold init_mcdata.
  assert (He : exists ei, exec_info_new (pa_sim p) = Ok ei).
  { unfold exec_info_new. destruct (si_n_units (pa_sim p) =? 1) eqn:E1; cbn [negb].
    - destruct (negb (si_n_rayon_threads (pa_sim p) =? 1)); eexists; reflexivity.
    - destruct (N.eqb_spec (si_n_units (pa_sim p)) 0); [contradiction|]. cbn [negb rassert rbind]. destruct (negb (si_n_rayon_threads (pa_sim p) =? 1)); eexists; reflexivity. }
  destruct He as (ei & ->). cbn [rbind].
  set (xs := map (fun e : string * xs_params K => (xp_name (snd e), mkPoly (xp_aa (snd e)) (xp_bb (snd e)) (xp_cc (snd e)) (xp_dd (snd e)) (xp_ee (snd e)))) (pa_xs p)).
  set (nus := map (fun e : string * xs_params K => (fst e, xp_nu_bar (snd e))) (pa_xs p)).
  assert (Exs : xs = map (fun e : string * xs_params K => (fst e, mkPoly (xp_aa (snd e)) (xp_bb (snd e)) (xp_cc (snd e)) (xp_dd (snd e)) (xp_ee (snd e)))) (pa_xs p)).
  { unfold xs. apply map_ext_in. intros e He. rewrite Forall_forall in Nx. rewrite <- (Nx e He). reflexivity. }
  destruct (init_materials_defined xs nus (map snd (pa_mats p)) (nuclear_new (si_n_groups (pa_sim p)) (si_e_min (pa_sim p)) (si_e_max (pa_sim p)))) as (nd & mats & E).
  { apply Forall_map. eapply Forall_impl; [|exact Hm]. cbv beta. intros e (Ha & Hs & Hf).
    destruct (known_get _ _ Ha) as (va & Va), (known_get _ _ Hs) as (vs & Vs), (known_get _ _ Hf) as (vf & Vf). rewrite Exs.
    split; [|split; [|split]]; eapply (get_named (fun e : string * xs_params K => _)); eassumption. }
  rewrite E. cbn [rbind]. eexists. split; [reflexivity|]. cbn [td_mats mc_track].
  assert (En : map mat_name mats = map fst (pa_mats p)).
  { rewrite (init_materials_names _ _ _ _ _ _ E), map_map. apply map_ext_in. intros e He. rewrite Forall_forall in Nm. symmetry. apply Nm. exact He. }
  assert (Hf : Forall (fun g => find_material_idx mats (gp_material_name g) <> None) (pa_geom p)).
  { eapply Forall_impl; [|exact Hg]. intros g (_ & v & Hv). apply find_named. rewrite En. apply in_map_iff. exists (gp_material_name g, v). auto. }
  split; [exact En|]. split; [exact Hf|]. intros r. destruct (find_material_spec (pa_geom p) r) as (name & Ef & D).
  { eapply Forall_impl; [|exact Hg]. intros g (Hs & _). exact Hs. }
  exists name. split; [exact Ef|]. destruct D as [(g & Fc & ->)|(_ & ->)]; [right|left; reflexivity].
  rewrite Forall_forall in Hf. apply Hf. clear - Fc. induction Fc; [left; reflexivity|right; assumption].
Qed.

(** ** The boundary condition is not looked at *)
Lemma boundary_ignored p bc : check_integrity (with_boundary p bc) = check_integrity p /\ si_boundary_condition (pa_sim (with_boundary p bc)) = bc.
Proof. unfold with_boundary. destruct p as [[]]. split; reflexivity. Qed.

(** ** Defaults *)
Lemma defaults_given p : pa_geom p = [] ->
  let q := supply_defaults p in
  pa_sim q = pa_sim p /\ pa_geom q = [source_geometry (pa_sim p)] /\
  (forall name, map_get (pa_mats q) name = if (name =? "source_material")%string then Some source_material else map_get (pa_mats p) name) /\
  (forall name, map_get (pa_xs q) name = if (name =? "flat")%string then Some flat_cross_section else map_get (pa_xs p) name).
Proof.
  intros E. unfold supply_defaults. rewrite E. cbn -[String.eqb]. rewrite E. split; [reflexivity|]. split; [reflexivity|].
  split; intros name; rewrite get_insert, String.eqb_sym; reflexivity.
Qed.
Lemma defaults_named p : well_named p -> well_named (supply_defaults p).
Proof.
  intros W. unfold supply_defaults. destruct (pa_geom p); [|exact W].
  exact (well_named_material _ source_material (well_named_xs p flat_cross_section W)).
Qed.
Lemma In_insert {A} (m : list (string * A)) k v e : distinct_keys m -> In e (map_insert m k v) <-> e = (k, v) \/ (In e m /\ fst e <> k).
Proof.
  induction m as [|[k0 w] m IH]; intros D; cbn [map_insert]; [cbn; intuition congruence|]. unfold distinct_keys in * . cbn [map fst] in D. apply NoDup_cons_iff in D. destruct D as [Hn D].
  destruct (String.eqb_spec k0 k) as [->|Hk]; cbn [In].
  - split; [intros [<-|H]; [auto|]|intros [->|[[<-|H] Hf]]; auto; contradiction]. right. split; [auto|]. intros Hf. apply Hn. rewrite <- Hf. apply in_map. exact H.
  - rewrite (IH D). split; [intros [<-|[->|[H Hf]]]; auto|intros [->|[[<-|H] Hf]]; auto].
Qed.
Lemma defaults_integrity p : pa_geom p = [] -> distinct_keys (pa_mats p) ->
  (integrity (supply_defaults p) <-> forall name m, In (name, m) (pa_mats p) -> name <> "source_material"%string -> material_sound (supply_defaults p) m).
Proof.
  intros E D. pose proof (defaults_given p E) as H. cbv zeta in H. destruct H as (_ & Eg & Em & Ex).
  assert (Hx : known (pa_xs (supply_defaults p)) "flat") by (exists flat_cross_section; apply map_get_In; rewrite Ex; reflexivity).
  assert (Hm : known (pa_mats (supply_defaults p)) "source_material") by (exists source_material; apply map_get_In; rewrite Em; reflexivity).
  assert (Ei : pa_mats (supply_defaults p) = map_insert (pa_mats p) "source_material" source_material) by (unfold supply_defaults; rewrite E; reflexivity).
  unfold integrity. rewrite Eg. split.
  - intros (_ & _ & H) name m Hin Hne. rewrite Forall_forall in H. apply (H (name, m)). rewrite Ei. apply In_insert; auto.
  - intros H. split; [discriminate|]. split; [constructor; [|constructor]; split; [discriminate|exact Hm]|]. apply Forall_forall. intros [k m] Hin. cbn [snd].
    rewrite Ei in Hin. apply In_insert in Hin; [|exact D]. destruct Hin as [Eq|[Hin Hne]].
    + injection Eq as -> ->. split; [exact Hx|]. split; exact Hx.
    + eapply H; eauto.
Qed.
(** Errors after the defaults come from materials of the user only. *)
Lemma defaults_errors p : pa_geom p = [] -> distinct_keys (pa_mats p) -> forall e, In e (check_integrity (supply_defaults p)) ->
  exists key m name, In (key, m) (pa_mats p) /\ key <> "source_material"%string /\ name <> "flat"%string /\
    In name [mp_absorption_cross_section m; mp_scattering_cross_section m; mp_fission_cross_section m] /\ ~ known (pa_xs p) name /\
    e = MissingCrossSection (mp_name m ++ ":" ++ name).
Proof.
  intros E D e He. pose proof (defaults_given p E) as H. cbv zeta in H. destruct H as (_ & Eg & Em & Ex).
  assert (Ei : pa_mats (supply_defaults p) = map_insert (pa_mats p) "source_material" source_material) by (unfold supply_defaults; rewrite E; reflexivity).
  assert (Hx : forall name, name = "flat"%string \/ known (pa_xs p) name -> known (pa_xs (supply_defaults p)) name).
  { intros name Hn. apply contains_iff. unfold contains_key. rewrite Ex. destruct (String.eqb_spec name "flat"); [reflexivity|].
    destruct Hn as [Hn|Hn]; [contradiction|]. destruct (known_get _ _ Hn) as (v & ->). reflexivity. }
  apply errors_say in He. destruct e.
  - rewrite Eg in He. discriminate.
  - destruct He as (g & Hg & Hs). rewrite Eg in Hg. destruct Hg as [<-|[]]. discriminate.
  - destruct He as (g & Hg & -> & Hs). rewrite Eg in Hg. destruct Hg as [<-|[]]. exfalso. apply Hs. exists source_material. apply map_get_In. rewrite Em. reflexivity.
  - destruct He as (key & m & n & Hin & Hn & Hk & ->). rewrite Ei in Hin. apply In_insert in Hin; [|exact D]. destruct Hin as [Eq|[Hin Hne]].
    + injection Eq as -> ->. cbn in Hn. exfalso. apply Hk. apply Hx. left. intuition congruence.
    + exists key, m, n. split; [exact Hin|]. split; [exact Hne|]. split; [intros ->; apply Hk; apply Hx; auto|]. split; [exact Hn|]. split; [intros Hq; apply Hk; apply Hx; auto|reflexivity].
Qed.
(** Every point of the box has the default material. *)
Lemma defaults_material p r : pa_geom p = [] ->
  let s := pa_sim p in
  fle f0 (vx r) = true -> fle (vx r) (si_lx s) = true -> fle f0 (vy r) = true -> fle (vy r) (si_ly s) = true -> fle f0 (vz r) = true -> fle (vz r) (si_lz s) = true ->
  find_material (pa_geom (supply_defaults p)) r = Ok "source_material"%string.
Proof.
  intros E s H1 H2 H3 H4 H5 H6. pose proof (defaults_given p E) as H. cbv zeta in H. destruct H as (_ & -> & _). fold s. unfold find_material, source_geometry.
  cbn [rev app rfold is_inside gp_shape gp_x_min gp_x_max gp_y_min gp_y_max gp_z_min gp_z_max gp_material_name]. rewrite H1, H2, H3, H4, H5, H6. reflexivity.
Qed.

(** ** The whole of get_parameters *)
Context (real : string -> option (F K)) (yaml : string -> option block) (Hy : forall text b, yaml text = Some b -> distinct_keys b).

Lemma given_or {A} (o : option A) d : given o d (or_default o d).
Proof. destruct o; reflexivity. Qed.
Lemma given_unique {A} (o : option A) d a a' : given o d a -> given o d a' -> a = a'.
Proof. destruct o; cbn; congruence. Qed.
Lemma from_cli_read c : cli_read c (from_cli c).
Proof.
  unfold cli_read, from_cli, simulation_default. destruct c. cbn -[given or_default].
  repeat match goal with |- _ /\ _ => split end; first [apply given_or|reflexivity].
Qed.

(** Setting the command line options that win. *)
Definition cli_over (c : cli K) (s : simulation_params K) : simulation_params K :=
  let '(mkSimulation inp spe xso bc lb csv dbg np cs nt bt nu ns nx ny nz seed dt lx ly lz e0 e1 ng lw co) := s in
  mkSimulation inp (or_default (cl_energy_spectrum c) spe) (or_default (cl_cross_sections_out c) xso) bc lb csv dbg np cs nt bt nu ns nx ny nz seed dt lx ly lz e0 e1 ng lw co.
Lemma cli_over_read c s : simulation_read real s (cli_wins c) (cli_over c s).
Proof.
  destruct s. unfold simulation_read, cli_wins, cli_over, or_default. split.
  - unfold keys_among. apply Forall_app. split; [destruct (cl_energy_spectrum c)|destruct (cl_cross_sections_out c)]; repeat constructor; cbn -[In]; apply in_keys; vm_compute; reflexivity.
  - destruct (cl_energy_spectrum c), (cl_cross_sections_out c); unfold field, text_of; cbn; repeat split.
Qed.

Lemma get_parameters_unfold read c : get_parameters real yaml read c =
  match input_pieces read c with
  | None => Ok (inr [BadInputFile])
  | Some pieces =>
      do pe <- parse_blocks real yaml (mkParams (from_cli c) [] [] []) (rev pieces) ;
      match pe with
      | (p, []) => let q := supply_defaults (set_sim p (cli_over c (pa_sim p))) in
                   match check_integrity q with [] => Ok (inl q) | _ => Ok (inr [BadInputFile]) end
      | (_, es) => Ok (inr es)
      end
  end.
Proof.
  unfold get_parameters, input_pieces, parse_content. destruct (cl_input_file c) as [f|].
  - destruct (read f) as [text|]; [|reflexivity]. rewrite rev_involutive. destruct (parse_blocks real yaml _ _) as [[p es]| |]; cbn [rbind]; try reflexivity.
    destruct es; [|reflexivity]. unfold cli_over. destruct (pa_sim p). reflexivity.
  - reflexivity.
Qed.

Lemma parsed_read c pieces p : parse_blocks real yaml (mkParams (from_cli c) [] [] []) (rev pieces) = Ok (p, []) ->
  let q := supply_defaults (set_sim p (cli_over c (pa_sim p))) in parameters_read real yaml c pieces q /\ well_named q.
Proof.
  intros H. cbv zeta. split.
  - destruct (parse_meaning real yaml Hy _ _ _ H) as (Hs & gs & ms & xs & Hg & Hm & Hx & Eg & Em & Ex). rewrite rev_involutive in * . cbn [pa_sim pa_geom pa_mats pa_xs] in * .
    assert (Es : pa_sim (supply_defaults (set_sim p (cli_over c (pa_sim p)))) = cli_over c (pa_sim p)) by (unfold supply_defaults; destruct (pa_geom _); reflexivity).
    split.
    + exists (from_cli c). split; [apply from_cli_read|]. rewrite Es. eapply simulation_read_app; [exact Hs|]. apply cli_over_read.
    + exists gs, ms, xs. split; [exact Hg|]. split; [exact Hm|]. split; [exact Hx|]. cbv zeta. rewrite Es. cbn [app] in Eg.
      destruct gs as [|g gs].
      * assert (E : pa_geom (set_sim p (cli_over c (pa_sim p))) = []) by exact Eg. pose proof (defaults_given _ E) as D. cbv zeta in D. destruct D as (_ & -> & Dm & Dx).
        split; [reflexivity|]. cbn [app]. split; intros name; [rewrite Dm|rewrite Dx]; unfold first_named; cbn [find]; rewrite String.eqb_sym.
        -- change (mp_name source_material) with "source_material"%string. destruct ("source_material" =? name)%string; [reflexivity|]. pose proof (Em name) as Q. cbn [map_get] in Q. unfold first_named in Q. cbn [set_sim pa_mats]. rewrite Q. destruct (find _ ms); reflexivity.
        -- change (xp_name flat_cross_section) with "flat"%string. destruct ("flat" =? name)%string; [reflexivity|]. pose proof (Ex name) as Q. cbn [map_get] in Q. unfold first_named in Q. cbn [set_sim pa_xs]. rewrite Q. destruct (find _ xs); reflexivity.
      * assert (E : supply_defaults (set_sim p (cli_over c (pa_sim p))) = set_sim p (cli_over c (pa_sim p))).
        { unfold supply_defaults. change (pa_geom (set_sim p (cli_over c (pa_sim p)))) with (pa_geom p). rewrite Eg. destruct (rev (g :: gs)) eqn:Er; [|reflexivity].
          apply (f_equal (@List.length _)) in Er. rewrite rev_length in Er. discriminate. }
        rewrite E. cbn [pa_geom pa_mats pa_xs set_sim app]. split; [exact Eg|]. split; intros name; [rewrite Em|rewrite Ex]; cbn [map_get]; destruct (first_named _ _ _); reflexivity.
  - apply defaults_named. apply well_named_sim. eapply parse_named; [exact H|]. unfold well_named, distinct_keys. cbn. repeat split; constructor.
Qed.

Lemma accepted_means read c p : get_parameters real yaml read c = Ok (inl p) ->
  exists pieces, input_pieces read c = Some pieces /\ Forall (piece_fine real yaml) pieces /\ parameters_read real yaml c pieces p /\ well_named p /\ integrity p.
Proof.
  rewrite get_parameters_unfold. destruct (input_pieces read c) as [pieces|]; [|discriminate]. intros H. exists pieces. split; [reflexivity|].
  destruct (parse_blocks real yaml _ _) as [[p0 es]| |] eqn:E; cbn [rbind] in H; try discriminate. destruct es; [|discriminate]. cbv zeta in H.
  destruct (check_integrity _) eqn:Ei in H; [|discriminate]. injection H as <-. destruct (parsed_read c pieces p0 E) as (H1 & H2).
  split; [|split; [exact H1|]; split; [exact H2|apply check_integrity_nil; exact Ei]].
  assert (Hf : Forall (piece_fine real yaml) (rev pieces)) by (apply (proj1 (file_fine real yaml Hy (rev pieces) (mkParams (from_cli c) [] [] []))); eexists; exact E).
  rewrite <- (rev_involutive pieces). apply Forall_rev. exact Hf.
Qed.

(** The reading of a block is unique. *)
Lemma Forall2_unique {A B} (R : A -> B -> Prop) : (forall a b b', R a b -> R a b' -> b = b') -> forall l k k', Forall2 R l k -> Forall2 R l k' -> k = k'.
Proof.
  intros Hu l k k' H. revert k'. induction H as [|a b l k Hab H IH]; intros k' H'; inversion H' as [|? ? ? ? Hab' Hl']; subst; [reflexivity|].
  f_equal; [eapply Hu; eauto|apply IH; auto].
Qed.
Lemma geometry_read_unique b g g' : geometry_read real b g -> geometry_read real b g' -> g = g'.
Proof.
  unfold geometry_read. intros (_ & H) (_ & H'). destruct g, g'. cbn in H, H'. conj_all.
  repeat match goal with A : ?x = Some _, B : ?x = Some _ |- _ => rewrite A in B; injection B as ->; clear A end. reflexivity.
Qed.
Lemma material_read_unique b g g' : material_read real b g -> material_read real b g' -> g = g'.
Proof.
  unfold material_read. intros (_ & H) (_ & H'). destruct g, g'. cbn in H, H'. conj_all.
  repeat match goal with A : ?x = Some _, B : ?x = Some _ |- _ => rewrite A in B; injection B as ->; clear A end. reflexivity.
Qed.
Lemma xs_read_unique b g g' : xs_read real b g -> xs_read real b g' -> g = g'.
Proof.
  unfold xs_read. intros (_ & H) (_ & H'). destruct g, g'. cbn in H, H'. conj_all.
  repeat match goal with A : ?x = Some _, B : ?x = Some _ |- _ => rewrite A in B; injection B as ->; clear A end. reflexivity.
Qed.
Lemma simulation_read_unique s b s1 s2 : simulation_read real s b s1 -> simulation_read real s b s2 -> s1 = s2.
Proof.
  unfold simulation_read. intros (_ & H) (_ & H'). destruct s1, s2. cbn in H, H'. conj_all.
  repeat match goal with A : ?x = Some _, B : ?x = Some _ |- _ => rewrite A in B; injection B as ->; clear A end. subst. reflexivity.
Qed.
Lemma cli_read_unique c s1 s2 : cli_read c s1 -> cli_read c s2 -> s1 = s2.
Proof.
  unfold cli_read. intros H H'. destruct s1, s2. cbn -[given] in H, H'. conj_all.
  repeat match goal with A : given ?o ?d ?x, B : given ?o ?d ?y |- _ => pose proof (given_unique o d x y A B); clear A B end. subst. reflexivity.
Qed.

(** Two readings agree up to the iteration order of the maps. *)
Lemma parameters_read_unique c pieces p q : parameters_read real yaml c pieces p -> parameters_read real yaml c pieces q ->
  pa_sim p = pa_sim q /\ pa_geom p = pa_geom q /\ (forall name, map_get (pa_mats p) name = map_get (pa_mats q) name) /\ (forall name, map_get (pa_xs p) name = map_get (pa_xs q) name).
Proof.
  intros ((s & Hc & Hs) & gs & ms & xs & Hg & Hm & Hx & Eg & Em & Ex) ((s' & Hc' & Hs') & gs' & ms' & xs' & Hg' & Hm' & Hx' & Eg' & Em' & Ex').
  assert (s' = s) by (eapply cli_read_unique; eauto). subst s'.
  assert (gs' = gs) by (eapply Forall2_unique; [apply geometry_read_unique| |]; eauto). assert (ms' = ms) by (eapply Forall2_unique; [apply material_read_unique| |]; eauto).
  assert (xs' = xs) by (eapply Forall2_unique; [apply xs_read_unique| |]; eauto). subst. assert (Es : pa_sim p = pa_sim q) by (eapply simulation_read_unique; eauto).
  split; [exact Es|]. rewrite Eg, Eg', Es. split; [reflexivity|]. split; intros name; [rewrite Em, Em'|rewrite Ex, Ex']; reflexivity.
Qed.

Lemma integrity_same p q : pa_geom p = pa_geom q -> (forall name, map_get (pa_mats p) name = map_get (pa_mats q) name) -> (forall name, map_get (pa_xs p) name = map_get (pa_xs q) name) ->
  distinct_keys (pa_mats q) -> integrity p -> integrity q.
Proof.
  intros Eg Em Ex D (Hn & Hg & Hm).
  assert (Km : forall name, known (pa_mats p) name -> known (pa_mats q) name) by (intros name; rewrite <- !contains_iff; unfold contains_key; rewrite Em; auto).
  assert (Kx : forall name, known (pa_xs p) name -> known (pa_xs q) name) by (intros name; rewrite <- !contains_iff; unfold contains_key; rewrite Ex; auto).
  unfold integrity. rewrite <- Eg. split; [exact Hn|]. split.
  - eapply Forall_impl; [|exact Hg]. intros g (A & B). split; auto.
  - apply Forall_forall. intros [k m] Hin. cbn [snd]. apply (In_map_get _ _ _ D) in Hin. rewrite <- Em in Hin. apply map_get_In in Hin.
    rewrite Forall_forall in Hm. destruct (Hm _ Hin) as (A & B & C). cbn [snd] in * . split; [auto|]. split; auto.
Qed.

Lemma acceptance read c : (exists p, get_parameters real yaml read c = Ok (inl p)) <->
  exists pieces, input_pieces read c = Some pieces /\ Forall (piece_fine real yaml) pieces /\ exists p, parameters_read real yaml c pieces p /\ well_named p /\ integrity p.
Proof.
  split.
  - intros (p & H). destruct (accepted_means read c p H) as (pieces & H1 & H2 & H3). exists pieces. split; [exact H1|]. split; [exact H2|]. exists p. exact H3.
  - intros (pieces & Hp & Hf & p & Hr & _ & Hi). rewrite get_parameters_unfold, Hp.
    destruct (proj2 (file_fine real yaml Hy (rev pieces) (mkParams (from_cli c) [] [] []))) as (p0 & E); [apply Forall_rev; exact Hf|]. rewrite E. cbn [rbind]. cbv zeta.
    destruct (parsed_read c pieces p0 E) as (H1 & W). destruct (parameters_read_unique c pieces _ _ Hr H1) as (_ & Eg & Em & Ex).
    assert (Hq : integrity (supply_defaults (set_sim p0 (cli_over c (pa_sim p0))))) by (eapply integrity_same; eauto; apply W).
    apply check_integrity_nil in Hq. rewrite Hq. eexists; reflexivity.
Qed.
End Integrity.
