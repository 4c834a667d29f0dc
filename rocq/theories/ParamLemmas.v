(** Reading whole files, checking and completing the parameters. *)
From Coq Require Import NArith QArith List Bool String Ascii Permutation Lia.
From Verif Require Import Float RngModel ParticleModel NuclearModel MeshTypes TrackModel CycleModel GridModel MeshModel ParamModel ParamSpec BlockLemmas.
Import ListNotations.
Local Open Scope N_scope.

Ltac conj_all := repeat match goal with H : _ /\ _ |- _ => destruct H end.

(** ** Text *)
Fixpoint apart (l : list ascii) : Prop :=
  match l with
  | [] => True
  | c :: l' => ~ (c = lf /\ match l' with c' :: _ => c' = lf | [] => False end) /\ apart l'
  end.
Lemma apart_app l c : apart l -> (c = lf -> last l c <> lf \/ l = []) -> apart (l ++ [c]).
Proof.
  induction l as [|a l IH]; intros H Hc; [cbn; tauto|]. cbn [app]. destruct l as [|b l].
  - cbn in * . split; [|tauto]. intros (-> & ->). destruct (Hc eq_refl) as [E|E]; [now apply E|discriminate].
  - cbn [app apart] in * . destruct H as [H1 H2]. split; [exact H1|]. apply IH; [exact H2|]. intros E. left. destruct (Hc E) as [Hl|Hl]; [exact Hl|discriminate].
Qed.
Lemma apart_rev l : apart l -> apart (rev l).
Proof.
  induction l as [|c l IH]; intros H; [exact I|]. cbn [rev]. cbn [apart] in H. destruct H as [H1 H2]. apply apart_app; [auto|]. intros ->.
  destruct l as [|b l]; [right; reflexivity|]. left. cbn [rev]. rewrite last_last. intros ->. apply H1. auto.
Qed.
Lemma apart_chars s : no_blank_line s -> apart (list_ascii_of_string s).
Proof. induction s as [|c s IH]; [easy|]. cbn. intros [H1 H2]. split; [|auto]. intros [E1 E2]. apply H1. split; [exact E1|]. destruct s; cbn in E2; [contradiction|exact E2]. Qed.

Lemma rsplit_last r : forall cur, apart r -> rsplit_from r cur = [rev r ++ cur].
Proof.
  induction r as [|c r IH]; intros cur H; [reflexivity|]. cbn [rsplit_from]. destruct r as [|c' r]; [reflexivity|].
  cbn [apart] in H. destruct H as [H1 H2].
  destruct (Ascii.eqb_spec c lf) as [->|Hc]; [destruct (Ascii.eqb_spec c' lf) as [->|Hc']; [exfalso; apply H1; auto|]|]; cbn [andb];
    rewrite (IH _ H2); cbn [rev]; rewrite <- !app_assoc; reflexivity.
Qed.
Lemma rsplit_next r rest : forall cur, apart r -> (r = [] \/ last r lf <> lf) ->
  rsplit_from (r ++ lf :: lf :: rest) cur = (rev r ++ cur) :: rsplit_from rest [].
Proof.
  induction r as [|c r IH]; intros cur H Hl; [reflexivity|]. destruct Hl as [Hl|Hl]; [discriminate|]. cbn [app rsplit_from].
  destruct r as [|c' r].
  - cbn in Hl. cbn [app]. destruct (Ascii.eqb_spec c lf) as [E|_]; [contradiction|]. cbn [andb].
    change (lf :: lf :: rest) with ([] ++ lf :: lf :: rest). rewrite (IH _ I (or_introl eq_refl)). reflexivity.
  - cbn [apart] in H. destruct H as [H1 H2]. cbn [app].
    destruct (Ascii.eqb_spec c lf) as [->|Hc]; [destruct (Ascii.eqb_spec c' lf) as [->|Hc']; [exfalso; apply H1; auto|]|]; cbn [andb];
      change (c' :: r ++ lf :: lf :: rest) with ((c' :: r) ++ lf :: lf :: rest); rewrite (IH _ H2 (or_intror Hl)); cbn [rev]; rewrite <- !app_assoc; reflexivity.
Qed.
Lemma last_rev_start s : starts_text s -> rev (list_ascii_of_string s) = [] \/ last (rev (list_ascii_of_string s)) lf <> lf.
Proof. destruct s as [|c s]; cbn; [auto|]. intros H. right. now rewrite last_last. Qed.
Lemma chars_app a b : list_ascii_of_string (a ++ b) = list_ascii_of_string a ++ list_ascii_of_string b.
Proof. induction a as [|c a IH]; [reflexivity|]. cbn. now rewrite IH. Qed.

Lemma rsplit_blocks bs : bs <> [] -> Forall no_blank_line bs -> Forall starts_text bs -> forall rest,
  rsplit_from (rev (list_ascii_of_string (file_text bs)) ++ lf :: lf :: rest) [] = map list_ascii_of_string (rev bs) ++ rsplit_from rest [].
Proof.
  induction bs as [|b bs IH]; intros Hn Hb Hs rest; [easy|]. pose proof (apart_rev _ (apart_chars b (Forall_inv Hb))) as Ha.
  pose proof (last_rev_start b (Forall_inv Hs)) as Hl. destruct bs as [|b' bs].
  - cbn [file_text rev app map]. rewrite (rsplit_next _ _ _ Ha Hl), rev_involutive, app_nil_r. reflexivity.
  - change (file_text (b :: b' :: bs)) with (b ++ String lf (String lf (file_text (b' :: bs))))%string. rewrite chars_app.
    cbn [list_ascii_of_string]. rewrite rev_app_distr. cbn [rev]. rewrite <- !app_assoc. cbn [app].
    rewrite (IH ltac:(discriminate) (Forall_inv_tail Hb) (Forall_inv_tail Hs)).
    rewrite (rsplit_next _ _ _ Ha Hl), rev_involutive, app_nil_r. 
    cbn [rev]. rewrite !map_app, <- !app_assoc. reflexivity.
Qed.
Lemma string_chars s : string_of_list_ascii (list_ascii_of_string s) = s.
Proof. induction s as [|c s IH]; [reflexivity|]. cbn. now rewrite IH. Qed.

Lemma rsplit_file bs : bs <> [] -> Forall no_blank_line bs -> Forall starts_text (tl bs) -> rsplit (file_text bs) = rev bs.
Proof.
  intros Hn Hb Hs. unfold rsplit. assert (E : rsplit_from (rev (list_ascii_of_string (file_text bs))) [] = map list_ascii_of_string (rev bs)).
  { destruct bs as [|b bs]; [easy|]. pose proof (apart_rev _ (apart_chars b (Forall_inv Hb))) as Ha. cbn [tl] in Hs. destruct bs as [|b' bs].
    - cbn [file_text rev app map]. rewrite (rsplit_last _ _ Ha), rev_involutive, app_nil_r. reflexivity.
    - change (file_text (b :: b' :: bs)) with (b ++ String lf (String lf (file_text (b' :: bs))))%string. rewrite chars_app.
      cbn [list_ascii_of_string]. rewrite rev_app_distr. cbn [rev]. rewrite <- !app_assoc. cbn [app].
      rewrite (rsplit_blocks (b' :: bs) ltac:(discriminate) (Forall_inv_tail Hb) Hs), (rsplit_last _ _ Ha), rev_involutive, app_nil_r.

      cbn [rev]. rewrite !map_app, <- !app_assoc. reflexivity. }
  rewrite E, map_map. rewrite <- (map_id (rev bs)) at 2. apply map_ext. exact string_chars.
Qed.

Section Blocks.
Context {K : FloatOps} (real : string -> option (F K)).

Lemma geometry_read_perm b b' g : distinct_keys b -> Permutation b b' -> geometry_read real b g -> geometry_read real b' g.
Proof.
  intros D P. unfold geometry_read. intros (Hk & H). split; [eapply keys_perm; eauto|].
  rewrite <- !(fun A p k (d : A) => field_perm p b b' k d D P). exact H.
Qed.
Lemma material_read_perm b b' g : distinct_keys b -> Permutation b b' -> material_read real b g -> material_read real b' g.
Proof.
  intros D P. unfold material_read. intros (Hk & H). split; [eapply keys_perm; eauto|].
  rewrite <- !(fun A p k (d : A) => field_perm p b b' k d D P). exact H.
Qed.
Lemma xs_read_perm b b' g : distinct_keys b -> Permutation b b' -> xs_read real b g -> xs_read real b' g.
Proof.
  intros D P. unfold xs_read. intros (Hk & H). split; [eapply keys_perm; eauto|].
  rewrite <- !(fun A p k (d : A) => field_perm p b b' k d D P). exact H.
Qed.
Lemma simulation_read_perm s b b' g : distinct_keys b -> Permutation b b' -> simulation_read real s b g -> simulation_read real s b' g.
Proof.
  intros D P. unfold simulation_read. intros (Hk & H). split; [eapply keys_perm; eauto|].
  rewrite <- !(fun A p k (d : A) => field_perm p b b' k d D P). exact H.
Qed.

Lemma distinct_perm {A} (b b' : list (string * A)) : distinct_keys b -> Permutation b b' -> distinct_keys b'.
Proof. intros D P. unfold distinct_keys. eapply Permutation_NoDup; [apply Permutation_map; exact P|exact D]. Qed.

Lemma option_iff {A} (o o' : option A) : (forall a, o = Some a <-> o' = Some a) -> o = o'.
Proof. intros H. destruct o as [a|]; [symmetry; now apply H|]. destruct o' as [a|]; [|reflexivity]. now apply H. Qed.

Lemma geometry_block_perm b b' : distinct_keys b -> Permutation b b' -> geometry_from_block real b = geometry_from_block real b'.
Proof.
  intros D P. apply option_iff. intros g. rewrite !geometry_block by eauto using distinct_perm.
  split; apply geometry_read_perm; auto using Permutation_sym. eauto using distinct_perm.
Qed.
Lemma material_block_perm b b' : distinct_keys b -> Permutation b b' -> material_from_block real b = material_from_block real b'.
Proof.
  intros D P. apply option_iff. intros g. rewrite !material_block by eauto using distinct_perm.
  split; apply material_read_perm; auto using Permutation_sym. eauto using distinct_perm.
Qed.
Lemma xs_block_perm b b' : distinct_keys b -> Permutation b b' -> xs_from_block real b = xs_from_block real b'.
Proof.
  intros D P. apply option_iff. intros g. rewrite !xs_block by eauto using distinct_perm.
  split; apply xs_read_perm; auto using Permutation_sym. eauto using distinct_perm.
Qed.

(** Whether an entry of a simulation block is accepted does not depend on the parameters. *)
Definition entry_kind (r : result (option (simulation_params K))) : result bool :=
  match r with Ok (Some _) => Ok true | Ok None => Ok false | Panic => Panic | NoFuel => NoFuel end.
Lemma entry_kind_same s s' e : entry_kind (simulation_entry real s e) = entry_kind (simulation_entry real s' e).
Proof.
  destruct e as [k v]. destruct s, s'. unfold simulation_entry, fetch, first_char.
  repeat match goal with |- context [if String.eqb k ?l then _ else _] => destruct (String.eqb k l) end;
  try (destruct (real v)); try (destruct (parse_u64 v)); try reflexivity.
  all: try (destruct v as [|c v]; cbn [rbind]; [reflexivity|]; destruct (Ascii.eqb c "0"); [reflexivity|]; destruct (Ascii.eqb c "1"); [reflexivity|];
    try (destruct (Ascii.eqb c "2")); reflexivity).
  all: match goal with |- context [existsb ?f ?l] => destruct (existsb f l) end; reflexivity.
Qed.
Lemma entry_no_panic s e : (In (fst e) ["loadBalance"; "debugThreads"; "coralBenchmark"]%string -> snd e <> ""%string) ->
  exists o, simulation_entry real s e = Ok o.
Proof.
  destruct e as [k v]. cbn [fst snd In]. intros H. destruct s. unfold simulation_entry, fetch, first_char.
  repeat match goal with |- context [if String.eqb k ?l then _ else _] => destruct (String.eqb_spec k l) as [->|?] end; try (eexists; reflexivity).
  all: try (destruct v as [|c v]; [exfalso; apply H; auto; reflexivity|]; cbn [rbind]; eexists; reflexivity).
  match goal with |- context [existsb ?f ?l] => destruct (existsb f l) end; eexists; reflexivity.
Qed.

Definition entry_fine (e : string * string) : bool :=
  match entry_kind (simulation_entry real simulation_default e) with Ok true => true | _ => false end.
Lemma update_total b : forall s, switches_given b -> exists s', update_simulation real s b = Ok (s', forallb entry_fine b).
Proof.
  unfold switches_given. induction b as [|e b IH]; intros s H; [eexists; reflexivity|]. cbn [update_simulation forallb].
  destruct (entry_no_panic s e (Forall_inv H)) as (o & E). rewrite E. cbn [rbind].
  unfold entry_fine at 1. rewrite (entry_kind_same simulation_default s e), E. destruct o as [s1|]; cbn [entry_kind andb]; [|eexists; reflexivity].
  apply IH. exact (Forall_inv_tail H).
Qed.
Lemma switches_perm b b' : Permutation b b' -> switches_given b -> switches_given b'.
Proof. unfold switches_given. intros P H. rewrite Forall_forall in * . intros e He. apply H. eapply Permutation_in; [apply Permutation_sym; exact P|exact He]. Qed.
Lemma forallb_perm {A} (f : A -> bool) l l' : Permutation l l' -> forallb f l = forallb f l'.
Proof. induction 1; cbn [forallb]; [reflexivity|congruence| |congruence]. rewrite !andb_assoc. f_equal. apply andb_comm. Qed.

Lemma update_perm b b' s : distinct_keys b -> Permutation b b' -> switches_given b ->
  exists s1 s2 ok, update_simulation real s b = Ok (s1, ok) /\ update_simulation real s b' = Ok (s2, ok) /\ (ok = true -> s1 = s2).
Proof.
  intros D P W. destruct (update_total b s W) as (s1 & E1). destruct (update_total b' s (switches_perm _ _ P W)) as (s2 & E2).
  rewrite <- (forallb_perm _ _ _ P) in E2. exists s1, s2, (forallb entry_fine b). split; [exact E1|]. split; [exact E2|]. intros Ho. rewrite Ho in * .
  apply (simulation_block real b) in E1; [|exact D]. apply (simulation_read_perm s b b') in E1; auto. apply (simulation_block real b') in E1; [|eauto using distinct_perm].
  congruence.
Qed.

(** ** Files under two readers *)
Lemma parse_block_same yaml yaml' p p' raw : same_blocks yaml yaml' ->
  (forall text b, yaml text = Some b -> switches_given b) -> pa_geom p = pa_geom p' /\ pa_mats p = pa_mats p' /\ pa_xs p = pa_xs p' ->
  match parse_block real yaml p raw, parse_block real yaml' p' raw with
  | Ok (q, e), Ok (q', e') => e = e' /\ (pa_geom q = pa_geom q' /\ pa_mats q = pa_mats q' /\ pa_xs q = pa_xs q') /\ (e = None -> pa_sim p = pa_sim p' -> pa_sim q = pa_sim q')
  | Panic, Panic => True
  | _, _ => False
  end.
Proof.
  intros Sm W (Eg & Em & Ex). unfold parse_block. destruct (cut_line raw) as [[head text]|]; [|auto 6].
  specialize (Sm text). destruct (yaml text) as [b|] eqn:Ey, (yaml' text) as [b'|]; try contradiction; cbn [unwrap rbind]; [|exact I].
  destruct Sm as [D P]. specialize (W text b Ey).
  destruct (head =? "Simulation:")%string.
  { destruct (update_total b (pa_sim p) W) as (s1 & E1). destruct (update_total b' (pa_sim p') (switches_perm _ _ P W)) as (s2 & E2).
    rewrite <- (forallb_perm _ _ _ P) in E2. pose proof E1 as E1'. pose proof E2 as E2'. rewrite E1, E2. cbn [rbind]. split; [reflexivity|]. cbn. split; [auto|].
    intros Ho Es. destruct (update_perm b b' (pa_sim p) D P W) as (t1 & t2 & ok & F1 & F2 & F3).
    rewrite Es in F2. rewrite E1 in F1. rewrite E2 in F2. injection F1 as <- <-. injection F2 as <-. apply F3. destruct (forallb entry_fine b); [reflexivity|discriminate]. }
  rewrite <- (geometry_block_perm b b' D P), <- (material_block_perm b b' D P), <- (xs_block_perm b b' D P).
  destruct (head =? "Geometry:")%string; [destruct (geometry_from_block real b); cbn; rewrite ?Eg; auto 6|].
  destruct (head =? "Material:")%string; [destruct (material_from_block real b); cbn; rewrite ?Em; auto 6|].
  destruct (head =? "CrossSection:")%string; [destruct (xs_from_block real b); cbn; rewrite ?Ex; auto 6|]. auto 6.
Qed.

Lemma parse_blocks_same yaml yaml' raws : same_blocks yaml yaml' -> (forall text b, yaml text = Some b -> switches_given b) ->
  forall p p', pa_geom p = pa_geom p' /\ pa_mats p = pa_mats p' /\ pa_xs p = pa_xs p' ->
  match parse_blocks real yaml p raws, parse_blocks real yaml' p' raws with
  | Ok (q, es), Ok (q', es') => es = es' /\ (pa_geom q = pa_geom q' /\ pa_mats q = pa_mats q' /\ pa_xs q = pa_xs q') /\ (es = [] -> pa_sim p = pa_sim p' -> pa_sim q = pa_sim q')
  | Panic, Panic => True
  | _, _ => False
  end.
Proof.
  intros Sm W. induction raws as [|raw raws IH]; intros p p' E; cbn [parse_blocks]; [auto|].
  pose proof (parse_block_same yaml yaml' p p' raw Sm W E) as H.
  destruct (parse_block real yaml p raw) as [[q e]| |], (parse_block real yaml' p' raw) as [[q' e']| |]; try contradiction; cbn [rbind]; [|exact I].
  destruct H as (<- & Eq & Hs). specialize (IH q q' Eq).
  destruct (parse_blocks real yaml q raws) as [[r es]| |], (parse_blocks real yaml' q' raws) as [[r' es']| |]; try contradiction; cbn [rbind]; [|exact I].
  destruct IH as (<- & Er & Hs'). split; [reflexivity|]. split; [exact Er|]. destruct e; [discriminate|]. auto.
Qed.

Lemma get_parameters_same yaml yaml' read c : same_blocks yaml yaml' -> (forall text b, yaml text = Some b -> switches_given b) ->
  get_parameters real yaml read c = get_parameters real yaml' read c.
Proof.
  intros Sm W. unfold get_parameters. destruct (cl_input_file c) as [name|]; [|reflexivity]. destruct (read name) as [content|]; [|reflexivity].
  unfold parse_content. pose proof (parse_blocks_same yaml yaml' (rsplit content) Sm W (mkParams (from_cli c) [] [] []) (mkParams (from_cli c) [] [] []) (conj eq_refl (conj eq_refl eq_refl))) as H.
  destruct (parse_blocks real yaml _ _) as [[q es]| |], (parse_blocks real yaml' _ _) as [[q' es']| |]; try contradiction; cbn [rbind]; [|reflexivity].
  destruct H as (<- & (Eg & Em & Ex) & Hs). destruct es; [|reflexivity]. specialize (Hs eq_refl eq_refl).
  destruct q as [sq gq mq xq], q' as [sq' gq' mq' xq']. cbn in * . subst. reflexivity.
Qed.


(** ** The meaning of a file *)
Lemma map_get_app {A} (b c : list (string * A)) k : map_get (b ++ c) k = match map_get b k with Some v => Some v | None => map_get c k end.
Proof. induction b as [|[k' v] b IH]; [reflexivity|]. cbn [app map_get]. destruct (String.eqb k' k); [reflexivity|exact IH]. Qed.
Lemma field_app {A} (parse : string -> option A) b c k d x y : field parse b k d = Some x -> field parse c k x = Some y -> field parse (c ++ b) k d = Some y.
Proof. unfold field. rewrite map_get_app. destruct (map_get c k); [auto|]. congruence. Qed.
Lemma simulation_read_nil s : simulation_read real s [] s.
Proof. unfold simulation_read, field, text_of. cbn [map_get]. split; [constructor|]. repeat split. Qed.
Lemma simulation_read_app s b s1 c s2 : simulation_read real s b s1 -> simulation_read real s1 c s2 -> simulation_read real s (c ++ b) s2.
Proof.
  intros (Hk & H) (Hk' & H'). split; [apply Forall_app; split; assumption|]. conj_all.
  repeat match goal with |- _ /\ _ => split end; first [eapply field_app; eassumption|congruence].
Qed.

Lemma get_insert {A} (m : list (string * A)) k v k' : map_get (map_insert m k v) k' = if (k =? k')%string then Some v else map_get m k'.
Proof.
  induction m as [|[k0 w] m IH]; cbn [map_insert map_get]; [reflexivity|]. destruct (String.eqb_spec k0 k) as [->|Hk]; cbn [map_get].
  - destruct (String.eqb k k'); reflexivity.
  - rewrite IH. destruct (String.eqb_spec k0 k') as [->|]; [|reflexivity]. destruct (String.eqb_spec k k') as [->|]; [congruence|reflexivity].
Qed.
Lemma keys_insert {A} (m : list (string * A)) k v : map fst (map_insert m k v) = if contains_key m k then map fst m else map fst m ++ [k].
Proof.
  unfold contains_key. induction m as [|[k0 w] m IH]; cbn [map_insert map fst map_get]; [reflexivity|]. destruct (String.eqb_spec k0 k) as [->|Hk]; cbn [map fst]; [reflexivity|].
  rewrite IH. destruct (map_get m k); reflexivity.
Qed.
Lemma distinct_insert {A} (m : list (string * A)) k v : distinct_keys m -> distinct_keys (map_insert m k v).
Proof.
  unfold distinct_keys. rewrite keys_insert. intros D. destruct (contains_key m k) eqn:E; [exact D|]. apply (Permutation_NoDup (l := k :: map fst m)).
  - apply Permutation_cons_append.
  - constructor; [|exact D]. intros H. apply in_map_iff in H. destruct H as ([k' w] & <- & H). assert (Hc : contains_key m k' = true) by (apply contains_known; exists w; exact H).
    cbn in E. congruence.
Qed.
Lemma Forall_insert {A} (P : string * A -> Prop) (m : list (string * A)) k v : Forall P m -> P (k, v) -> Forall P (map_insert m k v).
Proof.
  intros H Hp. induction m as [|[k0 w] m IH]; cbn [map_insert]; [auto|]. destruct (String.eqb_spec k0 k) as [->|Hk].
  - constructor; [exact Hp|exact (Forall_inv_tail H)].
  - constructor; [exact (Forall_inv H)|apply IH; exact (Forall_inv_tail H)].
Qed.

Lemma first_named_app {A} (name_of : A -> string) l l' n : first_named name_of (l ++ l') n = match first_named name_of l n with Some a => Some a | None => first_named name_of l' n end.
Proof. unfold first_named. induction l as [|a l IH]; [reflexivity|]. cbn [app find]. destruct (name_of a =? n)%string; [reflexivity|exact IH]. Qed.

Section Meaning.
Context (yaml : string -> option block) (Hy : forall text b, yaml text = Some b -> distinct_keys b).

Definition later {A} (name_of : A -> string) (l : list A) (m : list (string * A)) (m' : list (string * A)) : Prop :=
  forall name, map_get m' name = match first_named name_of l name with Some a => Some a | None => map_get m name end.

Lemma blocks_of_snoc title raws raw : blocks_of yaml title (raws ++ [raw]) = blocks_of yaml title raws ++ under yaml title raw.
Proof. unfold blocks_of. rewrite flat_map_app. cbn [flat_map]. now rewrite app_nil_r. Qed.

Definition block_meaning (p : params K) (raw : string) (q : params K) : Prop :=
  simulation_read real (pa_sim p) (List.concat (under yaml "Simulation:" raw)) (pa_sim q) /\
  exists gs ms xs, Forall2 (geometry_read real) (under yaml "Geometry:" raw) gs /\ Forall2 (material_read real) (under yaml "Material:" raw) ms /\
    Forall2 (xs_read real) (under yaml "CrossSection:" raw) xs /\
    pa_geom q = pa_geom p ++ gs /\ later mp_name ms (pa_mats p) (pa_mats q) /\ later xp_name xs (pa_xs p) (pa_xs q).

Lemma parse_block_meaning p raw q : parse_block real yaml p raw = Ok (q, None) -> block_meaning p raw q.
Proof.
  unfold parse_block, block_meaning, under. destruct (cut_line raw) as [[head text]|].
  2:{ intros H. injection H as <-. split; [apply simulation_read_nil|]. exists [], [], []. rewrite app_nil_r. repeat split; constructor. }
  destruct (yaml text) as [b|] eqn:E; cbn [unwrap rbind]; [|discriminate]. specialize (Hy text b E).
  destruct (String.eqb_spec head "Simulation:") as [->|_].
  { destruct (update_simulation real (pa_sim p) b) as [[s ok]| |] eqn:Eu; cbn [rbind]; try discriminate. destruct ok; [|discriminate]. intros H. injection H as <-.
    cbn [String.eqb Ascii.eqb Bool.eqb]. split.
    - cbn. rewrite app_nil_r. apply (simulation_block real b); assumption.
    - exists [], [], []. cbn. rewrite app_nil_r. repeat split; constructor. }
  destruct (String.eqb_spec head "Geometry:") as [->|_].
  { destruct (geometry_from_block real b) as [g|] eqn:Eg; intros H; [|discriminate]. injection H as <-. cbn [String.eqb Ascii.eqb Bool.eqb]. split; [apply simulation_read_nil|].
    exists [g], [], []. cbn. repeat split; try constructor; [|constructor]. apply (geometry_block real b g Hy). exact Eg. }
  destruct (String.eqb_spec head "Material:") as [->|_].
  { destruct (material_from_block real b) as [g|] eqn:Eg; intros H; [|discriminate]. injection H as <-. cbn [String.eqb Ascii.eqb Bool.eqb]. split; [apply simulation_read_nil|].
    exists [], [g], []. cbn. rewrite app_nil_r. repeat split; try constructor; [|constructor|]; [apply (material_block real b g Hy); exact Eg|].
    intros name. rewrite get_insert. unfold first_named. cbn [find]. destruct (mp_name g =? name)%string; reflexivity. }
  destruct (String.eqb_spec head "CrossSection:") as [->|_]; [|discriminate].
  destruct (xs_from_block real b) as [g|] eqn:Eg; intros H; [|discriminate]. injection H as <-. cbn [String.eqb Ascii.eqb Bool.eqb]. split; [apply simulation_read_nil|].
  exists [], [], [g]. cbn. rewrite app_nil_r. repeat split; try constructor; [|constructor|]; [apply (xs_block real b g Hy); exact Eg|].
  intros name. rewrite get_insert. unfold first_named. cbn [find]. destruct (xp_name g =? name)%string; reflexivity.
Qed.

Lemma concat_one (l l' : list block) : List.concat (l ++ l') = List.concat l ++ List.concat l'.
Proof. apply concat_app. Qed.

Lemma under_one title raw : (List.length (under yaml title raw) <= 1)%nat.
Proof. unfold under. destruct (cut_line raw) as [[h t]|]; [|cbn; lia]. destruct (h =? title)%string; [destruct (yaml t)|]; cbn; lia. Qed.

Lemma later_app {A} (name_of : A -> string) l l' m m1 m2 : later name_of l m m1 -> later name_of l' m1 m2 -> later name_of (l' ++ l) m m2.
Proof. unfold later. intros H H' n. rewrite H', first_named_app. destruct (first_named name_of l' n); [reflexivity|apply H]. Qed.

Lemma parse_meaning raws : forall p q, parse_blocks real yaml p raws = Ok (q, []) ->
  simulation_read real (pa_sim p) (List.concat (blocks_of yaml "Simulation:" (rev raws))) (pa_sim q) /\
  exists gs ms xs, Forall2 (geometry_read real) (blocks_of yaml "Geometry:" (rev raws)) gs /\ Forall2 (material_read real) (blocks_of yaml "Material:" (rev raws)) ms /\
    Forall2 (xs_read real) (blocks_of yaml "CrossSection:" (rev raws)) xs /\
    pa_geom q = pa_geom p ++ rev gs /\ later mp_name ms (pa_mats p) (pa_mats q) /\ later xp_name xs (pa_xs p) (pa_xs q).
Proof.
  induction raws as [|raw raws IH]; intros p q; cbn [parse_blocks].
  - intros H. injection H as <-. split; [apply simulation_read_nil|]. exists [], [], []. cbn. rewrite app_nil_r. repeat split; constructor.
  - destruct (parse_block real yaml p raw) as [[p1 e]| |] eqn:E; cbn [rbind]; try discriminate.
    destruct (parse_blocks real yaml p1 raws) as [[q1 es]| |] eqn:Er; cbn [rbind]; try discriminate.
    destruct e; [discriminate|]. intros H. injection H as <- ->. apply parse_block_meaning in E. destruct (IH p1 q1 Er) as (Hs & gs & ms & xs & Hg & Hm & Hx & Eg & Em & Ex).
    destruct E as (Hs1 & gs1 & ms1 & xs1 & Hg1 & Hm1 & Hx1 & Eg1 & Em1 & Ex1). cbn [rev]. rewrite !blocks_of_snoc. split.
    + rewrite concat_app. eapply simulation_read_app; eassumption.
    + exists (gs ++ gs1), (ms ++ ms1), (xs ++ xs1). repeat split; try (apply Forall2_app; assumption); try (eapply later_app; eassumption).
      rewrite Eg, Eg1, rev_app_distr, <- app_assoc. f_equal. f_equal.
      pose proof (under_one "Geometry:" raw) as Hu. destruct Hg1 as [|x y l l' _ [|? ? ? ? _ _]]; cbn in Hu |- * ; try reflexivity. lia.
Qed.

(** Which files are read without errors. *)
Lemma block_fine p raw : (exists q, parse_block real yaml p raw = Ok (q, None)) <-> piece_fine real yaml raw.
Proof.
  unfold parse_block, piece_fine. destruct (cut_line raw) as [[head text]|]; [|split; [auto|eexists; reflexivity]].
  destruct (yaml text) as [b|] eqn:Ey; cbn [unwrap rbind]; [|split; [intros (q & H); discriminate|intros (b & H & _); discriminate]].
  specialize (Hy text b Ey). split.
  - intros (q & H). exists b. split; [reflexivity|].
    destruct (String.eqb_spec head "Simulation:") as [->|_].
    { left. split; [reflexivity|]. destruct (update_simulation real (pa_sim p) b) as [[s ok]| |] eqn:Eu; cbn [rbind] in H; try discriminate. destruct ok; [|discriminate].
      intros s0. assert (Hf : forall b0 s1 s2, update_simulation real s1 b0 = Ok (s2, true) -> forall s3, exists s4, update_simulation real s3 b0 = Ok (s4, true)).
      { clear. induction b0 as [|e b0 IH]; intros s1 s2 H s3; [eexists; reflexivity|]. cbn [update_simulation] in * .
        pose proof (entry_kind_same s1 s3 e) as Ek. destruct (simulation_entry real s1 e) as [[t1|]| |]; cbn [rbind] in H; try discriminate.
        destruct (simulation_entry real s3 e) as [[t3|]| |]; cbn [entry_kind] in Ek; try discriminate. cbn [rbind]. eapply IH; exact H. }
      destruct (Hf _ _ _ Eu s0) as (s4 & E4). exists s4. apply (simulation_block real b s4 Hy). exact E4. }
    destruct (String.eqb_spec head "Geometry:") as [->|_].
    { right; left. split; [reflexivity|]. destruct (geometry_from_block real b) as [g|] eqn:Eg; [|discriminate]. exists g. apply (geometry_block real b g Hy). exact Eg. }
    destruct (String.eqb_spec head "Material:") as [->|_].
    { right; right; left. split; [reflexivity|]. destruct (material_from_block real b) as [g|] eqn:Eg; [|discriminate]. exists g. apply (material_block real b g Hy). exact Eg. }
    destruct (String.eqb_spec head "CrossSection:") as [->|_]; [|discriminate].
    right; right; right. split; [reflexivity|]. destruct (xs_from_block real b) as [g|] eqn:Eg; [|discriminate]. exists g. apply (xs_block real b g Hy). exact Eg.
  - intros (b' & Eb & H). injection Eb as <-. destruct H as [(-> & H)|[(-> & g & H)|[(-> & g & H)|(-> & g & H)]]]; cbn [String.eqb Ascii.eqb Bool.eqb].
    + destruct (H (pa_sim p)) as (s' & Hs). apply (simulation_block real b s' Hy) in Hs. rewrite Hs. cbn [rbind]. eexists; reflexivity.
    + apply (geometry_block real b g Hy) in H. rewrite H. eexists; reflexivity.
    + apply (material_block real b g Hy) in H. rewrite H. eexists; reflexivity.
    + apply (xs_block real b g Hy) in H. rewrite H. eexists; reflexivity.
Qed.

Lemma file_fine raws : forall p, (exists q, parse_blocks real yaml p raws = Ok (q, [])) <-> Forall (piece_fine real yaml) raws.
Proof.
  induction raws as [|raw raws IH]; intros p; cbn [parse_blocks]; [split; [constructor|eexists; reflexivity]|]. split.
  - intros (q & H). destruct (parse_block real yaml p raw) as [[p1 e]| |] eqn:E; cbn [rbind] in H; try discriminate.
    destruct (parse_blocks real yaml p1 raws) as [[q1 es]| |] eqn:Er; cbn [rbind] in H; try discriminate. destruct e; [discriminate|].
    injection H as <- ->. constructor; [apply (block_fine p); eexists; exact E|]. apply (IH p1). eexists; exact Er.
  - intros H. destruct (proj2 (block_fine p raw) (Forall_inv H)) as (p1 & E). rewrite E. cbn [rbind].
    destruct (proj2 (IH p1) (Forall_inv_tail H)) as (q & Er). rewrite Er. cbn [rbind]. eexists; reflexivity.
Qed.

(** ** Names *)
Lemma well_named_material (p : params K) (m : material_params K) : well_named p -> well_named (add_material p m).
Proof. intros (H1 & H2 & H3 & H4). unfold well_named, add_material. cbn. split; [apply Forall_insert; auto|]. split; [apply distinct_insert; auto|]. auto. Qed.
Lemma well_named_xs (p : params K) (x : xs_params K) : well_named p -> well_named (add_cross_section p x).
Proof. intros (H1 & H2 & H3 & H4). unfold well_named, add_cross_section. cbn. split; [auto|]. split; [auto|]. split; [apply Forall_insert; auto|]. apply distinct_insert; auto. Qed.
Lemma well_named_geometry (p : params K) (g : geometry_params K) : well_named p -> well_named (add_geometry p g).
Proof. intros H. exact H. Qed.
Lemma well_named_sim (p : params K) s : well_named p -> well_named (set_sim p s).
Proof. intros H. exact H. Qed.

Lemma parse_block_named p raw q e : parse_block real yaml p raw = Ok (q, e) -> well_named p -> well_named q.
Proof.
  unfold parse_block. destruct (cut_line raw) as [[head text]|]; [|intros H; injection H as <- _; auto].
  destruct (yaml text) as [b|]; cbn [unwrap rbind]; [|discriminate]. destruct (head =? "Simulation:")%string.
  { destruct (update_simulation real (pa_sim p) b) as [[s ok]| |]; cbn [rbind]; try discriminate. intros H. injection H as <- _. apply well_named_sim. }
  destruct (head =? "Geometry:")%string; [destruct (geometry_from_block real b); intros H; injection H as <- _; auto using well_named_geometry|].
  destruct (head =? "Material:")%string; [destruct (material_from_block real b); intros H; injection H as <- _; auto using well_named_material|].
  destruct (head =? "CrossSection:")%string; [destruct (xs_from_block real b); intros H; injection H as <- _; auto using well_named_xs|].
  intros H. injection H as <- _. auto.
Qed.
Lemma parse_named raws : forall p q es, parse_blocks real yaml p raws = Ok (q, es) -> well_named p -> well_named q.
Proof.
  induction raws as [|raw raws IH]; intros p q es; cbn [parse_blocks]; [intros H; injection H as <- _; auto|].
  destruct (parse_block real yaml p raw) as [[p1 e]| |] eqn:E; cbn [rbind]; try discriminate.
  destruct (parse_blocks real yaml p1 raws) as [[q1 es']| |] eqn:Er; cbn [rbind]; try discriminate. intros H. injection H as <- _.
  intros W. eapply IH; [exact Er|]. eapply parse_block_named; eassumption.
Qed.
End Meaning.
End Blocks.
