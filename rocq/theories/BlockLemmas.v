(** Reading the blocks of an input file. *)
From Coq Require Import NArith QArith List Bool String Ascii Permutation Lia.
From Verif Require Import Float RngModel ParticleModel NuclearModel MeshTypes TrackModel CycleModel GridModel MeshModel ParamModel ParamSpec.
Import ListNotations.
Local Open Scope N_scope.

Lemma map_get_notin {A} (b : list (string * A)) k : ~ In k (map fst b) -> map_get b k = None.
Proof.
  induction b as [|[k' v] b IH]; intros H; [reflexivity|]. cbn [map_get]. cbn [map fst In] in H.
  destruct (String.eqb_spec k' k) as [->|]; [tauto|]. apply IH. tauto.
Qed.
Lemma map_get_In {A} (b : list (string * A)) k v : map_get b k = Some v -> In (k, v) b.
Proof.
  induction b as [|[k' w] b IH]; cbn [map_get]; [discriminate|]. destruct (String.eqb_spec k' k) as [->|]; intros H.
  - left. congruence.
  - right. auto.
Qed.
Lemma In_map_get {A} (b : list (string * A)) k v : distinct_keys b -> In (k, v) b -> map_get b k = Some v.
Proof.
  unfold distinct_keys. induction b as [|[k' w] b IH]; cbn [map_get map fst]; intros D H; [easy|]. inversion D as [|? ? Hn D']; subst.
  destruct H as [H|H].
  - injection H as -> ->. now rewrite String.eqb_refl.
  - destruct (String.eqb_spec k' k) as [->|]; [|auto]. contradict Hn. now apply in_map with (f := fst) in H.
Qed.
Lemma map_get_perm {A} (b b' : list (string * A)) k : distinct_keys b -> Permutation b b' -> map_get b k = map_get b' k.
Proof.
  intros D P. assert (D' : distinct_keys b') by (unfold distinct_keys; eapply Permutation_NoDup; [apply Permutation_map; exact P|exact D]).
  destruct (map_get b k) as [v|] eqn:E.
  - apply map_get_In in E. symmetry. apply In_map_get; [exact D'|]. eapply Permutation_in; [exact P|exact E].
  - destruct (map_get b' k) as [v|] eqn:E'; [|reflexivity]. apply map_get_In in E'.
    apply (Permutation_in _ (Permutation_sym P)) in E'. apply In_map_get in E'; [congruence|exact D].
Qed.
Lemma contains_known {A} (m : list (string * A)) k : contains_key m k = true <-> known m k.
Proof.
  unfold contains_key, known. split.
  - destruct (map_get m k) as [v|] eqn:E; [|discriminate]. intros _. exists v. now apply map_get_In.
  - intros (v & H). destruct (map_get m k) as [w|] eqn:E; [reflexivity|]. exfalso. induction m as [|[k' w] m IH]; [easy|].
    cbn [map_get] in E. destruct (String.eqb_spec k' k) as [->|Hk]; [discriminate|]. destruct H as [H|H]; [congruence|auto].
Qed.

Lemma field_perm {A} (parse : string -> option A) b b' k d : distinct_keys b -> Permutation b b' -> field parse b k d = field parse b' k d.
Proof. intros D P. unfold field. now rewrite (map_get_perm b b' k D P). Qed.
Lemma keys_perm l b b' : Permutation b b' -> keys_among l b -> keys_among l b'.
Proof. unfold keys_among. intros P H. rewrite Forall_forall in * . intros e He. apply H. eapply Permutation_in; [apply Permutation_sym; exact P|exact He]. Qed.

Ltac known_key := cbn [map_get String.eqb Ascii.eqb Bool.eqb].

Section Blocks.
Context {K : FloatOps} (real : string -> option (F K)).

Lemma flag_cases v : flag_of v = match v with EmptyString => None | String c _ => if Ascii.eqb c "0" then Some false else if Ascii.eqb c "1" then Some true else None end.
Proof.
  destruct v as [|c v]; [reflexivity|]. unfold flag_of. destruct (Ascii.eqb_spec c "0") as [->|H0]; [reflexivity|].
  destruct (Ascii.eqb_spec c "1") as [->|H1]; [reflexivity|]. destruct c as [[] [] [] [] [] [] [] []]; try reflexivity; congruence.
Qed.
Lemma bench_cases v : bench_of v = match v with EmptyString => None | String c _ =>
  if Ascii.eqb c "0" then Some Standard else if Ascii.eqb c "1" then Some Coral1 else if Ascii.eqb c "2" then Some Coral2 else None end.
Proof.
  destruct v as [|c v]; [reflexivity|]. unfold bench_of. destruct (Ascii.eqb_spec c "0") as [->|H0]; [reflexivity|].
  destruct (Ascii.eqb_spec c "1") as [->|H1]; [reflexivity|]. destruct (Ascii.eqb_spec c "2") as [->|H2]; [reflexivity|].
  destruct c as [[] [] [] [] [] [] [] []]; try reflexivity; congruence.
Qed.

(** Reading relative to a record. *)
Definition geometry_from (g0 : geometry_params K) (b : block) (g : geometry_params K) : Prop :=
  keys_among geometry_keys b /\
  field text_of b "material" (gp_material_name g0) = Some (gp_material_name g) /\
  field shape_of b "shape" (gp_shape g0) = Some (gp_shape g) /\
  field real b "radius" (gp_radius g0) = Some (gp_radius g) /\
  field real b "xCenter" (gp_x_center g0) = Some (gp_x_center g) /\
  field real b "yCenter" (gp_y_center g0) = Some (gp_y_center g) /\
  field real b "zCenter" (gp_z_center g0) = Some (gp_z_center g) /\
  field real b "xMin" (gp_x_min g0) = Some (gp_x_min g) /\
  field real b "yMin" (gp_y_min g0) = Some (gp_y_min g) /\
  field real b "zMin" (gp_z_min g0) = Some (gp_z_min g) /\
  field real b "xMax" (gp_x_max g0) = Some (gp_x_max g) /\
  field real b "yMax" (gp_y_max g0) = Some (gp_y_max g) /\
  field real b "zMax" (gp_z_max g0) = Some (gp_z_max g).


Ltac conj_all := repeat match goal with H : _ /\ _ |- _ => destruct H end.
Lemma in_keys k l : existsb (String.eqb k) l = true -> In k l.
Proof. intros H. apply existsb_exists in H. destruct H as (x & Hx & E). apply String.eqb_eq in E. now subst x. Qed.

Ltac both_sides Hn :=
  cbn -[geometry_keys material_keys xs_keys simulation_keys]; rewrite ?Hn; cbn -[geometry_keys material_keys xs_keys simulation_keys];
  first
  [ split; intros [Hk H]; (split; [first [exact (Forall_inv_tail Hk)|constructor; [apply in_keys; vm_compute; reflexivity|exact Hk]]|exact H])
  | split; [intros [_ H]; conj_all; discriminate|contradiction] ].

Lemma geometry_step g0 k v b g : ~ In k (map fst b) ->
  geometry_from g0 ((k, v) :: b) g <-> match geometry_entry real g0 (k, v) with None => False | Some g1 => geometry_from g1 b g end.
Proof.
  intros Hk. pose proof (map_get_notin b k Hk) as Hn. clear Hk. destruct g0 as [mat sh r xc yc zc x0 y0 z0 x1 y1 z1].
  unfold geometry_from, geometry_entry, fetch, keys_among, field, text_of, shape_of.
  cbn [map_get gp_material_name gp_shape gp_radius gp_x_center gp_y_center gp_z_center gp_x_min gp_y_min gp_z_min gp_x_max gp_y_max gp_z_max].
  repeat match goal with
  | |- context [String.eqb k ?l] => destruct (String.eqb_spec k l) as [->|?]; [known_key|]
  | |- context [String.eqb v ?l] => destruct (String.eqb_spec v l) as [->|?]
  end;
  try (match goal with |- context [real v] => destruct (real v) end); try (both_sides Hn; fail).
  all: split; [|easy]; intros (Hk & _); apply Forall_inv in Hk; unfold geometry_keys, material_keys, xs_keys in Hk; cbn in Hk; repeat (destruct Hk as [Hk|Hk]; [congruence|]); contradiction.
Qed.

Lemma geometry_entries b g : distinct_keys b -> forall g0, entries (geometry_entry real) g0 b = Some g <-> geometry_from g0 b g.
Proof.
  unfold distinct_keys. induction b as [|[k v] b IH]; intros D g0.
  - cbn [entries]. unfold geometry_from, field, text_of. cbn [map_get]. destruct g0, g. cbn. split.
    + intros H. injection H as -> -> -> -> -> -> -> -> -> -> -> ->. split; [constructor|]. repeat split.
    + intros (_ & H). conj_all. repeat match goal with H : Some _ = Some _ |- _ => injection H as H end. subst. reflexivity.
  - inversion D as [|? ? Hn D']; subst. rewrite (geometry_step g0 k v b g Hn). cbn [entries].
    destruct (geometry_entry real g0 (k, v)) as [g1|]; [apply IH; exact D'|split; [discriminate|tauto]].
Qed.

Lemma geometry_block b g : distinct_keys b -> geometry_from_block real b = Some g <-> geometry_read real b g.
Proof. intros D. exact (geometry_entries b g D geometry_default). Qed.

Definition material_from (g0 : material_params K) (b : block) (m : material_params K) : Prop :=
  keys_among material_keys b /\
  field text_of b "name" (mp_name g0) = Some (mp_name m) /\
  field real b "mass" (mp_mass g0) = Some (mp_mass m) /\
  field real b "totalCrossSection" (mp_total_cross_section g0) = Some (mp_total_cross_section m) /\
  field parse_u64 b "nIsotopes" (mp_n_isotopes g0) = Some (mp_n_isotopes m) /\
  field parse_u64 b "nReactions" (mp_n_reactions g0) = Some (mp_n_reactions m) /\
  field real b "sourceRate" (mp_source_rate g0) = Some (mp_source_rate m) /\
  field text_of b "scatteringCrossSection" (mp_scattering_cross_section g0) = Some (mp_scattering_cross_section m) /\
  field text_of b "absorptionCrossSection" (mp_absorption_cross_section g0) = Some (mp_absorption_cross_section m) /\
  field text_of b "fissionCrossSection" (mp_fission_cross_section g0) = Some (mp_fission_cross_section m) /\
  field real b "scatteringCrossSectionRatio" (mp_scattering_ratio g0) = Some (mp_scattering_ratio m) /\
  field real b "absorptionCrossSectionRatio" (mp_absorption_ratio g0) = Some (mp_absorption_ratio m) /\
  field real b "fissionCrossSectionRatio" (mp_fission_ratio g0) = Some (mp_fission_ratio m).

Lemma material_step g0 k v b g : ~ In k (map fst b) ->
  material_from g0 ((k, v) :: b) g <-> match material_entry real g0 (k, v) with None => False | Some g1 => material_from g1 b g end.
Proof.
  intros Hk. pose proof (map_get_notin b k Hk) as Hn. clear Hk. destruct g0 as [name mass total ni nr rate sc ab fi rs ra rf].
  unfold material_from, material_entry, fetch, keys_among, field, text_of.
  cbn [map_get mp_name mp_mass mp_total_cross_section mp_n_isotopes mp_n_reactions mp_source_rate mp_scattering_cross_section
    mp_absorption_cross_section mp_fission_cross_section mp_scattering_ratio mp_absorption_ratio mp_fission_ratio].
  repeat match goal with
  | |- context [String.eqb k ?l] => destruct (String.eqb_spec k l) as [->|?]; [known_key|]
  end;
  try (match goal with |- context [real v] => destruct (real v) end); try (match goal with |- context [parse_u64 v] => destruct (parse_u64 v) end); try (both_sides Hn; fail).
  all: split; [|easy]; intros (Hk & _); apply Forall_inv in Hk; unfold geometry_keys, material_keys, xs_keys in Hk; cbn in Hk; repeat (destruct Hk as [Hk|Hk]; [congruence|]); contradiction.
Qed.

Lemma material_entries b g : distinct_keys b -> forall g0, entries (material_entry real) g0 b = Some g <-> material_from g0 b g.
Proof.
  unfold distinct_keys. induction b as [|[k v] b IH]; intros D g0.
  - cbn [entries]. unfold material_from, field, text_of. cbn [map_get]. destruct g0, g. cbn. split.
    + intros H. injection H as -> -> -> -> -> -> -> -> -> -> -> ->. split; [constructor|]. repeat split.
    + intros (_ & H). conj_all. repeat match goal with H : Some _ = Some _ |- _ => injection H as H end. subst. reflexivity.
  - inversion D as [|? ? Hn D']; subst. rewrite (material_step g0 k v b g Hn). cbn [entries].
    destruct (material_entry real g0 (k, v)) as [g1|]; [apply IH; exact D'|split; [discriminate|tauto]].
Qed.

Lemma material_block b m : distinct_keys b -> material_from_block real b = Some m <-> material_read real b m.
Proof. intros D. exact (material_entries b m D material_default). Qed.

Definition xs_from (g0 : xs_params K) (b : block) (x : xs_params K) : Prop :=
  keys_among xs_keys b /\
  field text_of b "name" (xp_name g0) = Some (xp_name x) /\
  field real b "A" (xp_aa g0) = Some (xp_aa x) /\
  field real b "B" (xp_bb g0) = Some (xp_bb x) /\
  field real b "C" (xp_cc g0) = Some (xp_cc x) /\
  field real b "D" (xp_dd g0) = Some (xp_dd x) /\
  field real b "E" (xp_ee g0) = Some (xp_ee x) /\
  field real b "nuBar" (xp_nu_bar g0) = Some (xp_nu_bar x).

Lemma xs_step g0 k v b g : ~ In k (map fst b) ->
  xs_from g0 ((k, v) :: b) g <-> match xs_entry real g0 (k, v) with None => False | Some g1 => xs_from g1 b g end.
Proof.
  intros Hk. pose proof (map_get_notin b k Hk) as Hn. clear Hk. destruct g0 as [name a0 b0 c0 d0 e0 nu].
  unfold xs_from, xs_entry, fetch, keys_among, field, text_of.
  cbn [map_get xp_name xp_aa xp_bb xp_cc xp_dd xp_ee xp_nu_bar].
  repeat match goal with
  | |- context [String.eqb k ?l] => destruct (String.eqb_spec k l) as [->|?]; [known_key|]
  end;
  try (match goal with |- context [real v] => destruct (real v) end); try (both_sides Hn; fail).
  all: split; [|easy]; intros (Hk & _); apply Forall_inv in Hk; unfold geometry_keys, material_keys, xs_keys in Hk; cbn in Hk; repeat (destruct Hk as [Hk|Hk]; [congruence|]); contradiction.
Qed.

Lemma xs_entries b g : distinct_keys b -> forall g0, entries (xs_entry real) g0 b = Some g <-> xs_from g0 b g.
Proof.
  unfold distinct_keys. induction b as [|[k v] b IH]; intros D g0.
  - cbn [entries]. unfold xs_from, field, text_of. cbn [map_get]. destruct g0, g. cbn. split.
    + intros H. injection H as -> -> -> -> -> -> ->. split; [constructor|]. repeat split.
    + intros (_ & H). conj_all. repeat match goal with H : Some _ = Some _ |- _ => injection H as H end. subst. reflexivity.
  - inversion D as [|? ? Hn D']; subst. rewrite (xs_step g0 k v b g Hn). cbn [entries].
    destruct (xs_entry real g0 (k, v)) as [g1|]; [apply IH; exact D'|split; [discriminate|tauto]].
Qed.

Lemma xs_block b x : distinct_keys b -> xs_from_block real b = Some x <-> xs_read real b x.
Proof. intros D. exact (xs_entries b x D xs_default). Qed.

Lemma simulation_step s k v b s' : ~ In k (map fst b) ->
  simulation_read real s ((k, v) :: b) s' <->
  match simulation_entry real s (k, v) with Ok (Some s1) => simulation_read real s1 b s' | _ => False end.
Proof.
  intros Hk. pose proof (map_get_notin b k Hk) as Hn. clear Hk.
  destruct s as [inp spe xso bc lb csv dbg np cs nt bt nu ns nx ny nz seed dt lx ly lz e0 e1 ng lw co].
  unfold simulation_read, simulation_entry, fetch, keys_among, field, text_of, first_char.
  cbn [map_get si_input_file si_energy_spectrum si_cross_sections_out si_boundary_condition si_load_balance si_csv si_debug_threads
    si_n_particles si_chunk_size si_n_rayon_threads si_bind_threads si_n_units si_n_steps si_nx si_ny si_nz si_seed si_dt si_lx si_ly si_lz
    si_e_min si_e_max si_n_groups si_low_weight_cutoff si_coral_benchmark].
  repeat match goal with
  | |- context [if String.eqb k ?l then _ else _] => destruct (String.eqb_spec k l) as [->|?]; [known_key|]
  end;
  try (match goal with |- context [real v] => destruct (real v) end); try (match goal with |- context [parse_u64 v] => destruct (parse_u64 v) end);
  try (rewrite flag_cases; destruct v as [|c v]; cbn [rbind]; try destruct (Ascii.eqb c "0"); try destruct (Ascii.eqb c "1"));
  try (rewrite bench_cases; destruct v as [|c v]; cbn [rbind]; try destruct (Ascii.eqb c "0"); try destruct (Ascii.eqb c "1"); try destruct (Ascii.eqb c "2"));
  try (both_sides Hn; fail).
  repeat match goal with H : k <> ?l |- context [String.eqb k ?l] => rewrite (proj2 (String.eqb_neq k l) H) end.
  match goal with |- context [existsb ?f ?l] => destruct (existsb f l) eqn:Ex end.
  - cbn -[simulation_keys]. split; intros [Hk H]; (split; [|exact H]); [exact (Forall_inv_tail Hk)|constructor; [|exact Hk]].
    change (In k simulation_keys). unfold simulation_keys. apply in_or_app. right. exact (in_keys _ _ Ex).
  - split; [|contradiction]. intros [Hk _]. apply Forall_inv in Hk. cbn [fst] in Hk. unfold simulation_keys in Hk. apply in_app_or in Hk.
    destruct Hk as [Hk|Hk]; [exfalso; cbn in Hk; repeat (destruct Hk as [Hk|Hk]; [congruence|]); contradiction|]. exfalso. rewrite (proj2 (existsb_exists _ _)) in Ex; [discriminate|].
    exists k. split; [exact Hk|apply String.eqb_refl].
Qed.

Lemma simulation_block b s' : distinct_keys b -> forall s, update_simulation real s b = Ok (s', true) <-> simulation_read real s b s'.
Proof.
  unfold distinct_keys. induction b as [|[k v] b IH]; intros D s.
  - cbn [update_simulation]. unfold simulation_read, field, text_of. cbn [map_get]. destruct s, s'. cbn. split.
    + intros H. injection H as -> -> -> -> -> -> -> -> -> -> -> -> -> -> -> -> -> -> -> -> -> -> -> -> -> ->. split; [constructor|]. repeat split.
    + intros (_ & H). conj_all. repeat match goal with H : Some _ = Some _ |- _ => injection H as H end. subst. reflexivity.
  - inversion D as [|? ? Hn D']; subst. rewrite (simulation_step s k v b s' Hn). cbn [update_simulation].
    destruct (simulation_entry real s (k, v)) as [[s1|]| |]; cbn [rbind]; try (split; [discriminate|tauto]). apply IH; exact D'.
Qed.
End Blocks.
