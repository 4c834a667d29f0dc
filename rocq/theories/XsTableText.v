(** Proofs about the table of cross-sections: the text. *)
From Coq Require Import Arith NArith List Bool Reals String Ascii Lia Permutation.
From Verif Require Import Float RealOps ParticleModel NuclearModel MeshTypes TrackModel CycleModel ParamModel ParamLemmas CsvModel CsvSpec CsvLemmas SegmentFacts
  CrossingLemmas NuclearSpec TrackAccount XsTableModel XsTableSpec XsTableFacts.
Import ListNotations.
Local Open Scope N_scope.

(** ** Counting separators *)
Fixpoint count (sep : ascii -> bool) (s : string) : nat :=
  match s with EmptyString => 0 | String c s => (if sep c then 1 else 0) + count sep s end.
Lemma count_app sep a b : count sep (a ++ b)%string = (count sep a + count sep b)%nat.
Proof. induction a as [|c a IH]; cbn; [reflexivity|]. rewrite IH. lia. Qed.
Lemma count_free sep s : free sep s -> count sep s = 0%nat.
Proof. unfold free. induction s as [|c s IH]; cbn; intros H; [reflexivity|]. inversion H; subst. rewrite H2, IH by assumption. reflexivity. Qed.
Lemma split_count sep s : List.length (split_on sep s) = S (count sep s).
Proof.
  induction s as [|c s IH]; cbn; [reflexivity|]. destruct (sep c); cbn; [rewrite IH; reflexivity|].
  destruct (split_on sep s) eqn:E; [destruct (split_on_ne sep s E)|exact IH].
Qed.

Lemma word_free s : word s -> free is_bar s /\ free is_eol s /\ free is_blank s.
Proof. intros H. split; [|split]; revert H; apply Forall_impl; intros c (A & B & C); assumption. Qed.
Lemma word_uint u : word (DecimalString.NilEmpty.string_of_uint u).
Proof. unfold word. induction u; cbn; constructor; auto; repeat split; reflexivity. Qed.
Lemma word_N n : word (show_N n).
Proof.
  unfold show_N, DecimalString.NilZero.string_of_uint. destruct (N.to_uint n) eqn:E; try apply word_uint.
  constructor; [repeat split; reflexivity|constructor].
Qed.
Lemma word_app a b : word a -> word b -> word (a ++ b)%string.
Proof. unfold word. induction a as [|c a IH]; cbn; [auto|]. intros H Hb. inversion H; subst. constructor; auto. Qed.

Lemma spaces_free sep n : sep " "%char = false -> free sep (spaces n).
Proof. intros H. induction n as [|n IH]; [constructor|]. apply free_cons; assumption. Qed.
Lemma pad_free sep w s : sep " "%char = false -> free sep s -> free sep (pad_left w s).
Proof. intros H Hs. apply free_app; [apply spaces_free; exact H|exact Hs]. Qed.

(** ** Trimming *)
Lemma trim_spaces n s : trim_start (spaces n ++ s)%string = trim_start s.
Proof. induction n as [|n IH]; [reflexivity|exact IH]. Qed.
Lemma rev_spaces n : forall acc, exists k, rev_string (spaces n) acc = (spaces k ++ acc)%string /\ k = n.
Proof.
  induction n as [|n IH]; intros acc; [exists 0%nat; split; reflexivity|]. cbn [spaces rev_string]. destruct (IH (String " " acc)) as (k & E & ->).
  exists (S n). split; [|reflexivity]. rewrite E. clear. induction n as [|n IH]; [reflexivity|]. cbn [spaces append]. f_equal. exact IH.
Qed.
Lemma rev_app a b : forall acc, rev_string (a ++ b)%string acc = rev_string b (rev_string a acc).
Proof. induction a as [|c a IH]; intros acc; cbn; [reflexivity|apply IH]. Qed.
Lemma rev_free sep s : free sep s -> free sep (rev_string s "").
Proof. intros H. unfold free. rewrite rev_string_rev. cbn. rewrite app_nil_r. apply Forall_rev. exact H. Qed.
Lemma trim_around a s b : free is_blank s -> trim (spaces a ++ s ++ spaces b)%string = s.
Proof.
  intros H. unfold trim. rewrite trim_spaces. destruct s as [|c s].
  - cbn [append]. rewrite <- (app_nil_s (spaces b)). rewrite trim_spaces. reflexivity.
  - assert (E : trim_start ((String c s) ++ spaces b)%string = ((String c s) ++ spaces b)%string).
    { cbn [append trim_start]. inversion H; subst. rewrite H2. reflexivity. }
    rewrite E, rev_app. destruct (rev_spaces b (rev_string (String c s) "")) as (k & -> & _). rewrite trim_spaces.
    rewrite trim_start_free by (apply rev_free; exact H). apply rev_string_involutive.
Qed.

Lemma concat_cons x l : String.concat "" (x :: l) = (x ++ String.concat "" l)%string.
Proof. destruct l as [|y l]; [cbn; symmetry; apply app_nil_s|reflexivity]. Qed.
Lemma concat_count sep l : count sep (String.concat "" l) = fold_right Nat.add 0%nat (map (count sep) l).
Proof. induction l as [|x l IH]; [reflexivity|]. rewrite concat_cons, count_app, IH. reflexivity. Qed.
Lemma concat_free sep l : Forall (free sep) l -> free sep (String.concat "" l).
Proof. induction l as [|x l IH]; intros H; [constructor|]. rewrite concat_cons. apply free_app; [exact (Forall_inv H)|apply IH; exact (Forall_inv_tail H)]. Qed.

(** ** Lines *)
Lemma split_lines lines : Forall (free is_eol) lines ->
  split_on is_eol (String.concat "" (map (fun l => l ++ newline)%string lines)) = (lines ++ [""%string])%list.
Proof.
  induction lines as [|l lines IH]; intros H; [reflexivity|]. cbn [map]. rewrite concat_cons, app_assoc_s.
  unfold newline at 1. cbn [append]. rewrite split_on_app; [|exact (Forall_inv H)|reflexivity]. rewrite IH by exact (Forall_inv_tail H). reflexivity.
Qed.

Section Text.
Context {K : FloatOps}.
Variables show12 show13 : F K -> string.
Hypothesis words12 : forall x, word (show12 x).
Hypothesis words13 : forall x, word (show13 x).

Definition names_of (e : string * list (xs_data K)) : string := (fst e ++ "_absorb |  " ++ fst e ++ "_fission |  " ++ fst e ++ "_scatter")%string.
Definition header_of (table : list (string * list (xs_data K))) : string :=
  ("group |           energy |  " ++ String.concat "" (map names_of table))%string.
Lemma header_line table : xs_header table = (header_of table ++ newline)%string.
Proof. unfold xs_header, header_of. rewrite app_assoc_s. reflexivity. Qed.

Lemma names_counts e : word (fst e) -> count is_bar (names_of e) = 2%nat /\ free is_eol (names_of e).
Proof.
  intros H. destruct (word_free _ H) as (A & B & _). unfold names_of. split.
  - rewrite !count_app, !(count_free is_bar _ A). reflexivity.
  - repeat (apply free_app; [first [exact B|repeat constructor]|]). repeat constructor.
Qed.
Lemma header_counts table : Forall (fun e => word (fst e)) table ->
  count is_bar (header_of table) = (2 + 2 * List.length table)%nat /\ free is_eol (header_of table).
Proof.
  intros H. unfold header_of. split.
  - rewrite count_app, concat_count. change (count is_bar "group |           energy |  ") with 2%nat. f_equal.
    induction table as [|e table IH]; [reflexivity|]. cbn [map fold_right List.length]. rewrite (IH (Forall_inv_tail H)), (proj1 (names_counts e (Forall_inv H))). lia.
  - apply free_app; [repeat constructor|]. apply concat_free. rewrite Forall_map. revert H. apply Forall_impl. intros e He. apply names_counts. exact He.
Qed.

Lemma cells_counts d : count is_bar (xs_cells show13 d) = 2%nat /\ free is_eol (xs_cells show13 d).
Proof.
  unfold xs_cells.
  assert (P : forall w x, count is_bar (pad_left w (show13 x)) = 0%nat /\ free is_eol (pad_left w (show13 x))).
  { intros w x. destruct (word_free _ (words13 x)) as (A & B & _). split; [apply count_free|]; apply pad_free; try reflexivity; assumption. }
  split.
  - rewrite !count_app, !(fun w x => proj1 (P w x)). reflexivity.
  - apply free_app; [apply P|]. apply free_app; [repeat constructor|]. apply free_app; [apply P|]. apply free_app; [repeat constructor|]. apply P.
Qed.

Lemma line_counts energies table ii s : xs_line show12 show13 energies table ii = Ok s ->
  exists l, s = (l ++ newline)%string /\ count is_bar l = (2 + 2 * List.length table)%nat /\ free is_eol l.
Proof.
  intros H. unfold xs_line in H. rb H as e Ee. rb H as cs Ec. apply Ok_inj in H.
  exists (pad_left 5 (show_N ii) ++ " |  " ++ pad_left 15 (show12 e) ++ " |   " ++ String.concat "" cs)%string.
  split; [rewrite <- H; rewrite !app_assoc_s; reflexivity|].
  assert (C : fold_right Nat.add 0%nat (map (count is_bar) cs) = (2 * List.length table)%nat /\ Forall (free is_eol) cs).
  { clear - Ec words13. revert cs Ec. induction table as [|x table IH]; intros cs Ec; cbn [rmap] in Ec.
    - apply Ok_inj in Ec. subst cs. split; [reflexivity|constructor].
    - rb Ec as c E1. rb Ec as cs' E2. apply Ok_inj in Ec. subst cs. rb E1 as d E3. apply Ok_inj in E1. subst c. destruct (IH _ E2) as (A & B).
      destruct (cells_counts d) as (C1 & C2). cbn [map fold_right List.length]. rewrite A, C1. split; [lia|constructor; assumption]. }
  destruct C as (C1 & C2). destruct (word_free _ (word_N ii)) as (N1 & N2 & _). destruct (word_free _ (words12 e)) as (W1 & W2 & _). split.
  - rewrite !count_app, concat_count, C1. rewrite !(count_free is_bar (pad_left _ _)) by (apply pad_free; [reflexivity|assumption]). reflexivity.
  - apply free_app; [apply pad_free; [reflexivity|assumption]|]. apply free_app; [repeat constructor|].
    apply free_app; [apply pad_free; [reflexivity|assumption]|]. apply free_app; [repeat constructor|]. apply concat_free. exact C2.
Qed.

(** The names in the table. *)
Lemma table_names nd n : forall mats table t, rfold (fun table mat => do vec <- xs_vec nd n mat ; Ok (map_insert table (mat_name mat) vec)) mats table = Ok t ->
  NoDup (map fst table ++ map mat_name mats) -> map fst t = (map fst table ++ map (mat_name (K := K)) mats)%list.
Proof.
  induction mats as [|mat mats IH]; intros table t H D; cbn [rfold] in H.
  - apply Ok_inj in H. subst t. cbn [map]. rewrite app_nil_r. reflexivity.
  - rb H as t1 E1. rb E1 as vec Ev. apply Ok_inj in E1. subst t1.
    assert (Ek : map fst (map_insert table (mat_name mat) vec) = (map fst table ++ [mat_name mat])%list).
    { rewrite keys_insert. unfold contains_key. destruct (map_get table (mat_name mat)) as [v|] eqn:G; [|reflexivity]. exfalso.
      cbn [map] in D. apply NoDup_remove_2 in D. apply D. apply in_or_app. left. clear - G. induction table as [|[k w] table IH]; [discriminate G|].
      cbn [map_get] in G. cbn [map fst]. destruct (String.eqb_spec k (mat_name mat)) as [E|]; [left; exact E|right; apply IH; exact G]. }
    rewrite (IH _ _ H).
    + rewrite Ek, <- app_assoc. reflexivity.
    + rewrite Ek, <- app_assoc. exact D.
Qed.

(** The shape of the text. *)
Theorem text_shape order nd n mats text : (forall t, Permutation (order t) t) -> NoDup (map mat_name mats) -> Forall (fun m => word (mat_name m)) mats ->
  xs_text show12 show13 order nd n mats = Ok text ->
  exists header lines, split_on is_eol text = (header :: lines ++ [""%string])%list /\ List.length lines = N.to_nat n /\
    Forall (fun l => List.length (split_on is_bar l) = (3 + 2 * List.length mats)%nat) (header :: lines).
Proof.
  intros Ho D Hw H. unfold xs_text in H. rb H as es Ees. rb H as t Et. rb H as ls El. apply Ok_inj in H. subst text.
  pose proof (table_names nd n mats [] t Et D) as Nt. cbn [map app] in Nt.
  assert (Lt : List.length (order t) = List.length mats).
  { rewrite (Permutation_length (Ho t)). rewrite <- (map_length fst t), Nt, map_length. reflexivity. }
  assert (Wt : Forall (fun e => word (fst e)) (order t)).
  { apply Forall_forall. intros x Hx. apply (Permutation_in _ (Ho t)) in Hx. apply (in_map fst) in Hx. rewrite Nt in Hx. apply in_map_iff in Hx.
    destruct Hx as (m & <- & Hm). rewrite Forall_forall in Hw. apply Hw. exact Hm. }
  destruct (header_counts (order t) Wt) as (Hb & He). rewrite Lt in Hb.
  assert (X : exists lines, ls = map (fun l => l ++ newline)%string lines /\ List.length lines = N.to_nat n /\
    Forall (fun l => count is_bar l = (2 + 2 * List.length mats)%nat) lines /\ Forall (free is_eol) lines).
  { clear - El Lt words12 words13. pose proof (range_length (N.to_nat n) 0) as R. revert El R. generalize (nrange 0 (N.to_nat n)). generalize (N.to_nat n). clear n. intros k r. revert ls k.
    induction r as [|ii r IH]; intros ls k El R; cbn [rmap] in El; subst k.
    - apply Ok_inj in El. subst ls. exists []. repeat split; constructor.
    - rb El as s Es. rb El as ss Ess. apply Ok_inj in El. subst ls. destruct (IH _ _ Ess eq_refl) as (lines & -> & L & C & Fr).
      destruct (line_counts _ _ _ _ Es) as (l & -> & Cl & Fl). rewrite Lt in Cl. exists (l :: lines). cbn [map List.length]. rewrite L.
      repeat split; try constructor; assumption. }
  destruct X as (lines & -> & Ll & Cl & Fl). exists (header_of (order t)), lines. split; [|split; [exact Ll|]].
  - rewrite header_line. change (header_of (order t) ++ newline)%string with ((fun l => l ++ newline)%string (header_of (order t))).
    rewrite <- concat_cons. change ((header_of (order t) ++ newline)%string :: map (fun l => (l ++ newline)%string) lines) with
      (map (fun l => (l ++ newline)%string) (header_of (order t) :: lines)). rewrite split_lines by (constructor; assumption). reflexivity.
  - constructor; [rewrite split_count, Hb; reflexivity|]. revert Cl. apply Forall_impl. intros l E. rewrite split_count, E. reflexivity.
Qed.

(** ** The cells *)
Lemma cells_app a b : free is_bar a -> cells_of (a ++ String "|" b)%string = trim a :: cells_of b.
Proof. intros H. unfold cells_of. rewrite split_on_app by (assumption || reflexivity). reflexivity. Qed.
Lemma cells_last a : free is_bar a -> cells_of a = [trim a].
Proof. intros H. unfold cells_of. rewrite split_on_free by assumption. reflexivity. Qed.

(** Names followed and preceded by spaces. *)
Lemma cell_of_word a s b rest : word s -> cells_of (spaces a ++ s ++ spaces b ++ String "|" rest)%string = s :: cells_of rest.
Proof.
  intros H. destruct (word_free _ H) as (A & _ & C). rewrite <- (app_assoc_s s), <- (app_assoc_s (spaces a)). rewrite cells_app.
  - rewrite trim_around by assumption. reflexivity.
  - apply free_app; [apply spaces_free; reflexivity|]. apply free_app; [exact A|apply spaces_free; reflexivity].
Qed.
Lemma last_cell a s : word s -> cells_of (spaces a ++ s)%string = [s].
Proof.
  intros H. destruct (word_free _ H) as (A & _ & C). rewrite cells_last.
  - rewrite <- (app_nil_s s) at 1. change ""%string with (spaces 0) at 1. rewrite trim_around by assumption. reflexivity.
  - apply free_app; [apply spaces_free; reflexivity|exact A].
Qed.

Lemma header_first table : cells_of (header_of table) = "group"%string :: "energy"%string :: cells_of ("  " ++ String.concat "" (map names_of table))%string.
Proof.
  unfold header_of. change ("group |           energy |  " ++ String.concat "" (map names_of table))%string with
    (spaces 0 ++ "group" ++ spaces 1 ++ String "|" (spaces 11 ++ "energy" ++ spaces 1 ++ String "|" ("  " ++ String.concat "" (map names_of table))))%string.
  rewrite cell_of_word by (repeat constructor). rewrite cell_of_word by (repeat constructor). reflexivity.
Qed.

(** One more material: the name of the last column of the material is that of the first column of the next one too. *)
Fixpoint run_together (first : string) (table : list (string * list (xs_data K))) : list string :=
  match table with
  | [] => [first]
  | e :: table => (first ++ fst e ++ "_absorb")%string :: (fst e ++ "_fission")%string :: run_together (fst e ++ "_scatter") table
  end.
Lemma header_names : forall table first k, word first -> Forall (fun e => word (fst e)) table ->
  cells_of (spaces k ++ first ++ String.concat "" (map names_of table))%string = run_together first table.
Proof.
  induction table as [|e table IH]; intros first k Hf H; cbn [map run_together].
  - cbn [String.concat]. rewrite app_nil_s. apply last_cell. exact Hf.
  - pose proof (Forall_inv H) as He. cbn beta in He. rewrite concat_cons. unfold names_of at 1.
    assert (Wa : word "_absorb") by (repeat constructor). assert (Wf : word "_fission") by (repeat constructor). assert (Ws : word "_scatter") by (repeat constructor).
    replace (first ++ (fst e ++ "_absorb |  " ++ fst e ++ "_fission |  " ++ fst e ++ "_scatter") ++ String.concat "" (map names_of table))%string with
      ((first ++ fst e ++ "_absorb") ++ spaces 1 ++ String "|" (spaces 2 ++ (fst e ++ "_fission") ++ spaces 1 ++ String "|" (spaces 2 ++ (fst e ++ "_scatter") ++ String.concat "" (map names_of table))))%string.
    + rewrite cell_of_word by (repeat apply word_app; assumption). rewrite cell_of_word by (repeat apply word_app; assumption).
      rewrite IH; [reflexivity|apply word_app; assumption|exact (Forall_inv_tail H)].
    + rewrite !app_assoc_s. reflexivity.
Qed.

Lemma header_cells table : Forall (fun e => word (fst e)) table -> cells_of (header_of table) = "group"%string :: "energy"%string :: run_together "" table.
Proof.
  intros H. rewrite header_first. f_equal. f_equal. rewrite <- (header_names table "" 2); [reflexivity|constructor|exact H].
Qed.

Lemma cells_of_data e ii d : cells_of (pad_left 5 (show_N ii) ++ " |  " ++ pad_left 15 (show12 e) ++ " |   " ++ xs_cells show13 d)%string =
  [show_N ii; show12 e; show13 (xs_clip (xs_abs d)); show13 (xs_clip (xs_fis d)); show13 (xs_clip (xs_sca d))].
Proof.
  unfold xs_cells, pad_left. set (a := show13 (xs_clip (xs_abs d))). set (b := show13 (xs_clip (xs_fis d))). set (c := show13 (xs_clip (xs_sca d))).
  set (i := show_N ii). set (x := show12 e).
  assert (S2 : forall k s, (spaces k ++ s)%string = (spaces 0 ++ spaces k ++ s)%string) by reflexivity.
  assert (J : forall j k, (spaces j ++ spaces k)%string = spaces (j + k)).
  { intros j k. induction j as [|j IH]; [reflexivity|]. cbn [spaces append Nat.add]. f_equal. exact IH. }
  match goal with |- cells_of ?t = _ => assert (E : t = (spaces (5 - String.length i) ++ i ++ spaces 1 ++ String "|" (spaces (2 + (15 - String.length x)) ++ x ++ spaces 1 ++ String "|"
    (spaces (3 + (20 - String.length a)) ++ a ++ spaces 1 ++ String "|" (spaces (2 + (22 - String.length b)) ++ b ++ spaces 1 ++ String "|" (spaces (2 + (22 - String.length c)) ++ c)))))%string) end.
  { rewrite <- !J. rewrite !app_assoc_s. reflexivity. }
  rewrite E. rewrite cell_of_word by apply word_N. rewrite !cell_of_word by (apply words12 || apply words13). rewrite last_cell by apply words13. reflexivity.
Qed.

Lemma rmap_nth {A B} (f : A -> result B) : forall l bs, rmap f l = Ok bs -> List.length bs = List.length l /\
  forall i a, nth_error l i = Some a -> exists b, nth_error bs i = Some b /\ f a = Ok b.
Proof.
  induction l as [|a l IH]; intros bs H; cbn [rmap] in H.
  - apply Ok_inj in H. subst bs. split; [reflexivity|]. intros [|i] x E; discriminate E.
  - rb H as b Eb. rb H as bs' Ebs. apply Ok_inj in H. subst bs. destruct (IH _ Ebs) as (L & Hn). split; [cbn; rewrite L; reflexivity|].
    intros [|i] x E; [injection E as <-; exists b; split; [reflexivity|exact Eb]|]. apply (Hn i x E).
Qed.
Lemma nth_range n : forall lo i, (i < n)%nat -> nth_error (nrange lo n) i = Some (lo + N.of_nat i).
Proof.
  induction n as [|n IH]; intros lo i H; [lia|]. destruct i as [|i]; cbn [nrange nth_error]; [f_equal; lia|]. rewrite IH by lia. f_equal. lia.
Qed.

(** The lines of the text. *)
Lemma text_lines order nd n mats text : (forall t, Permutation (order t) t) -> NoDup (map mat_name mats) -> Forall (fun m => word (mat_name m)) mats ->
  xs_text show12 show13 order nd n mats = Ok text ->
  exists es table lines, xs_energies nd n = Ok es /\ xs_table nd n mats = Ok table /\ map fst table = map mat_name mats /\
    split_on is_eol text = (header_of (order table) :: lines ++ [""%string])%list /\ List.length lines = N.to_nat n /\
    forall g, (g < n) -> exists l, nth_error lines (N.to_nat g) = Some l /\ xs_line show12 show13 es (order table) g = Ok (l ++ newline)%string.
Proof.
  intros Ho D Hw H. unfold xs_text in H. rb H as es Ees. rb H as t Et. rb H as ls El. apply Ok_inj in H. subst text.
  pose proof (table_names nd n mats [] t Et D) as Nt. cbn [map app] in Nt.
  assert (Wt : Forall (fun e => word (fst e)) (order t)).
  { apply Forall_forall. intros x Hx. apply (Permutation_in _ (Ho t)) in Hx. apply (in_map fst) in Hx. rewrite Nt in Hx. apply in_map_iff in Hx.
    destruct Hx as (m & <- & Hm). rewrite Forall_forall in Hw. apply Hw. exact Hm. }
  destruct (header_counts (order t) Wt) as (Hb & He). destruct (rmap_nth _ _ _ El) as (Ll & Hl). rewrite range_length in Ll.
  assert (X : exists lines, ls = map (fun l => l ++ newline)%string lines /\ Forall (free is_eol) lines).
  { clear - El words12 words13. revert ls El. generalize (nrange 0 (N.to_nat n)). induction l as [|ii l IH]; intros ls El; cbn [rmap] in El.
    - apply Ok_inj in El. subst ls. exists []. split; [reflexivity|constructor].
    - rb El as s Es. rb El as ss Ess. apply Ok_inj in El. subst ls. destruct (IH _ Ess) as (lines & -> & Fr).
      destruct (line_counts _ _ _ _ Es) as (x & -> & _ & Fl). exists (x :: lines). split; [reflexivity|constructor; assumption]. }
  destruct X as (lines & -> & Fl). exists es, t, lines. split; [exact Ees|]. split; [exact Et|]. split; [exact Nt|]. rewrite map_length in Ll. split; [|split; [exact Ll|]].
  - rewrite header_line. change (header_of (order t) ++ newline)%string with ((fun l => l ++ newline)%string (header_of (order t))).
    rewrite <- concat_cons. change ((header_of (order t) ++ newline)%string :: map (fun l => (l ++ newline)%string) lines) with
      (map (fun l => (l ++ newline)%string) (header_of (order t) :: lines)). rewrite split_lines by (constructor; assumption). reflexivity.
  - intros g Hg. destruct (Hl (N.to_nat g) g) as (s & Es & El').
    + rewrite nth_range by lia. f_equal. lia.
    + rewrite nth_error_map in Es. destruct (nth_error lines (N.to_nat g)) as [l|]; [|discriminate Es]. injection Es as <-. exists l. split; [reflexivity|exact El'].
Qed.

(** One material: five columns. *)
Theorem text_one_material order nd n (mat : material K) text : (forall t, Permutation (order t) t) -> word (mat_name mat) ->
  xs_text show12 show13 order nd n [mat] = Ok text ->
  exists es table vec header lines, xs_energies nd n = Ok es /\ xs_table nd n [mat] = Ok table /\ map_get table (mat_name mat) = Some vec /\
    split_on is_eol text = (header :: lines ++ [""%string])%list /\ List.length lines = N.to_nat n /\
    cells_of header = ["group"; "energy"; mat_name mat ++ "_absorb"; mat_name mat ++ "_fission"; mat_name mat ++ "_scatter"]%string /\
    forall g, g < n -> exists l e d, nth_error lines (N.to_nat g) = Some l /\ nth_error es (N.to_nat g) = Some e /\ nth_error vec (N.to_nat g) = Some d /\
      cells_of l = [show_N g; show12 e; show13 (xs_clip (xs_abs d)); show13 (xs_clip (xs_fis d)); show13 (xs_clip (xs_sca d))].
Proof.
  intros Ho Hw H. destruct (text_lines order nd n [mat] text Ho) as (es & t & lines & Ees & Et & Nt & Es & Ll & Hl); [repeat constructor; auto|repeat constructor; auto|exact H|].
  cbn [map] in Nt. destruct t as [|[name vec] [|y t]]; [discriminate Nt| |destruct y; discriminate Nt]. injection Nt as ->.
  assert (Eo : order [(mat_name mat, vec)] = [(mat_name mat, vec)]) by (apply Permutation_length_1_inv; apply Permutation_sym; apply Ho).
  rewrite Eo in Es, Hl. exists es, [(mat_name mat, vec)], vec, (header_of [(mat_name mat, vec)]), lines.
  split; [exact Ees|]. split; [exact Et|]. split; [cbn [map_get]; rewrite String.eqb_refl; reflexivity|]. split; [exact Es|]. split; [exact Ll|]. split.
  - rewrite header_cells by (repeat constructor; exact Hw). reflexivity.
  - intros g Hg. destruct (Hl g Hg) as (l & Enl & El). unfold xs_line in El. rb El as e Ee. rb El as cs Ec. cbn [rmap snd] in Ec. rb Ec as c E1. rb E1 as d E2.
    apply Ok_inj in E1. cbn [rbind] in Ec. apply Ok_inj in Ec. subst cs c. apply vec_get_nth in Ee, E2. exists l, e, d.
    split; [exact Enl|]. split; [exact Ee|]. split; [exact E2|]. apply Ok_inj in El. cbn [String.concat] in El.
    assert (Q : l = (pad_left 5 (show_N g) ++ " |  " ++ pad_left 15 (show12 e) ++ " |   " ++ xs_cells show13 d)%string).
    { assert (I : forall a b : string, (a ++ newline)%string = (b ++ newline)%string -> a = b).
      { clear. induction a as [|x a IH]; intros [|y b] Q; cbn in Q.
        - reflexivity.
        - exfalso. injection Q as _ Q. destruct b; discriminate Q.
        - exfalso. injection Q as _ Q. destruct a; discriminate Q.
        - injection Q as -> Q. f_equal. apply IH. exact Q. }
      apply I. rewrite <- El. rewrite !app_assoc_s. reflexivity. }
    rewrite Q. apply cells_of_data.
Qed.

(** ** Any number of materials *)
Lemma trim_left k x : trim (spaces k ++ x)%string = trim x.
Proof. unfold trim. rewrite trim_spaces. reflexivity. Qed.
Lemma trim_start_app x k : trim_start (x ++ spaces k)%string = (trim_start x ++ spaces k)%string \/ (trim_start (x ++ spaces k)%string = ""%string /\ trim_start x = ""%string).
Proof.
  induction x as [|c x IH].
  - right. split; [|reflexivity]. cbn [append]. rewrite <- (app_nil_s (spaces k)), trim_spaces. reflexivity.
  - cbn [append trim_start]. destruct (is_blank c); [exact IH|]. left. reflexivity.
Qed.
Lemma trim_right x k : trim (x ++ spaces k)%string = trim x.
Proof.
  unfold trim. destruct (trim_start_app x k) as [E|[E1 E2]]; [|rewrite E1, E2; reflexivity].
  rewrite E, rev_app. destruct (rev_spaces k (rev_string (trim_start x) "")) as (j & -> & _). rewrite trim_spaces. reflexivity.
Qed.
Lemma cell_around j x k rest : free is_bar x -> cells_of (spaces j ++ x ++ spaces k ++ String "|" rest)%string = trim x :: cells_of rest.
Proof.
  intros H. rewrite <- (app_assoc_s x), <- (app_assoc_s (spaces j)). rewrite cells_app.
  - rewrite trim_left, trim_right. reflexivity.
  - apply free_app; [apply spaces_free; reflexivity|]. apply free_app; [exact H|apply spaces_free; reflexivity].
Qed.
Lemma spaces_add j k : (spaces j ++ spaces k)%string = spaces (j + k).
Proof. induction j as [|j IH]; [reflexivity|]. cbn [spaces append Nat.add]. f_equal. exact IH. Qed.

(** Three texts, the last two padded. *)
Definition text3 (wb wc : nat) (t : string * string * string) : string :=
  let '(a, b, c) := t in (a ++ " |  " ++ pad_left wb b ++ " |  " ++ pad_left wc c)%string.
Lemma cells_together wb wc : forall l first j, free is_bar first ->
  Forall (fun t => let '(a, b, c) := t in free is_bar a /\ word b /\ word c) l ->
  cells_of (spaces j ++ first ++ String.concat "" (map (text3 wb wc) l))%string = side_by_side first l.
Proof.
  induction l as [|[[a b] c] l IH]; intros first j Hf H; cbn [map side_by_side].
  - cbn [String.concat]. rewrite app_nil_s, cells_last; [rewrite trim_left; reflexivity|]. apply free_app; [apply spaces_free; reflexivity|exact Hf].
  - pose proof (Forall_inv H) as (Ha & Hb & Hc). rewrite concat_cons. unfold text3 at 1, pad_left. destruct (word_free _ Hb) as (Hb1 & _ & Hb3). destruct (word_free _ Hc) as (Hc1 & _).
    match goal with |- cells_of ?t = _ => assert (E : t = (spaces j ++ (first ++ a) ++ spaces 1 ++ String "|" (spaces (2 + (wb - String.length b)) ++ b ++ spaces 1 ++ String "|"
      (spaces (2 + (wc - String.length c)) ++ c ++ String.concat "" (map (text3 wb wc) l))))%string) end.
    { rewrite <- !spaces_add. rewrite !app_assoc_s. reflexivity. }
    rewrite E, cell_around by (apply free_app; assumption). rewrite cell_around by exact Hb1. rewrite (trim_free b) by exact Hb3. rewrite IH; [reflexivity|exact Hc1|exact (Forall_inv_tail H)].
Qed.

Lemma free_tail_newline (a b : string) : (a ++ newline)%string = (b ++ newline)%string -> a = b.
Proof.
  revert b. induction a as [|x a IH]; intros [|y b] Q; cbn in Q.
  - reflexivity.
  - exfalso. injection Q as _ Q. destruct b; discriminate Q.
  - exfalso. injection Q as _ Q. destruct a; discriminate Q.
  - injection Q as -> Q. f_equal. apply IH. exact Q.
Qed.

Theorem text_columns order nd n mats text : (forall t, Permutation (order t) t) -> NoDup (map mat_name mats) -> Forall (fun m => word (mat_name m)) mats ->
  xs_text show12 show13 order nd n mats = Ok text ->
  exists es table columns header lines, xs_energies nd n = Ok es /\ xs_table nd n mats = Ok table /\ Permutation columns table /\
    split_on is_eol text = (header :: lines ++ [""%string])%list /\ List.length lines = N.to_nat n /\
    cells_of header = "group"%string :: "energy"%string :: side_by_side "" (map material_names columns) /\
    forall g, g < n -> exists l e ds, nth_error lines (N.to_nat g) = Some l /\ nth_error es (N.to_nat g) = Some e /\
      Forall2 (fun column d => nth_error (snd column) (N.to_nat g) = Some d) columns ds /\
      cells_of l = show_N g :: show12 e :: side_by_side "" (map (material_values show13) ds).
Proof.
  intros Ho D Hw H. destruct (text_lines order nd n mats text Ho D Hw H) as (es & t & lines & Ees & Et & Nt & Es & Ll & Hl).
  assert (Wo : Forall (fun e => word (fst e)) (order t)).
  { apply Forall_forall. intros x Hx. apply (Permutation_in _ (Ho t)) in Hx. apply (in_map fst) in Hx. rewrite Nt in Hx. apply in_map_iff in Hx.
    destruct Hx as (m & <- & Hm). rewrite Forall_forall in Hw. apply Hw. exact Hm. }
  exists es, t, (order t), (header_of (order t)), lines. split; [exact Ees|]. split; [exact Et|]. split; [apply Ho|]. split; [exact Es|]. split; [exact Ll|]. split.
  - rewrite header_first. f_equal. f_equal. rewrite <- (cells_together 0 0 (map material_names (order t)) "" 2).
    + assert (E : map names_of (order t) = map (text3 0 0) (map material_names (order t))); [|rewrite E; reflexivity].
      rewrite map_map. apply map_ext. intros e. unfold names_of, text3, material_names, pad_left. cbn [Nat.sub spaces append]. rewrite !app_assoc_s. reflexivity.
    + constructor.
    + rewrite Forall_map. revert Wo. apply Forall_impl. intros e He. unfold material_names. split; [apply word_free; apply word_app; [exact He|repeat constructor]|].
      split; apply word_app; try exact He; repeat constructor.
  - intros g Hg. destruct (Hl g Hg) as (l & Enl & El). unfold xs_line in El. rb El as e Ee. rb El as cs Ec. apply Ok_inj in El. apply vec_get_nth in Ee.
    assert (X : exists ds, Forall2 (fun column d => nth_error (snd column) (N.to_nat g) = Some d) (order t) ds /\ cs = map (text3 22 22) (map (material_values show13) ds)).
    { clear - Ec. revert cs Ec. induction (order t) as [|x o IH]; intros cs Ec; cbn [rmap] in Ec.
      - apply Ok_inj in Ec. subst cs. exists []. split; [constructor|reflexivity].
      - rb Ec as c E1. rb Ec as cs' E2. apply Ok_inj in Ec. subst cs. rb E1 as d E3. apply Ok_inj in E1. subst c. apply vec_get_nth in E3.
        destruct (IH _ E2) as (ds & F2 & ->). exists (d :: ds). split; [constructor; assumption|]. reflexivity. }
    destruct X as (ds & F2 & ->). exists l, e, ds. split; [exact Enl|]. split; [exact Ee|]. split; [exact F2|].
    assert (Q : l = (pad_left 5 (show_N g) ++ " |  " ++ pad_left 15 (show12 e) ++ " |   " ++ String.concat "" (map (text3 22 22) (map (material_values show13) ds)))%string).
    { apply free_tail_newline. rewrite <- El. rewrite !app_assoc_s. reflexivity. }
    rewrite Q. unfold pad_left.
    match goal with |- cells_of ?t = _ => assert (E : t = (spaces (5 - String.length (show_N g)) ++ show_N g ++ spaces 1 ++ String "|" (spaces (2 + (15 - String.length (show12 e))) ++ show12 e ++ spaces 1 ++ String "|"
      (spaces 3 ++ "" ++ String.concat "" (map (text3 22 22) (map (material_values show13) ds)))))%string) end.
    { rewrite <- !spaces_add. rewrite !app_assoc_s. reflexivity. }
    rewrite E. rewrite cell_of_word by apply word_N. rewrite cell_of_word by apply words12. rewrite cells_together; [reflexivity|constructor|].
    rewrite Forall_map. apply Forall_forall. intros d _. unfold material_values. split; [apply pad_free; [reflexivity|apply word_free; apply words13]|]. split; apply words13.
Qed.

(** Several materials: two columns share a cell of the header. *)
Theorem text_several order nd n mats text : (forall t, Permutation (order t) t) -> NoDup (map mat_name mats) -> Forall (fun m => word (mat_name m)) mats ->
  (2 <= List.length mats)%nat -> xs_text show12 show13 order nd n mats = Ok text ->
  exists header lines a b, split_on is_eol text = header :: lines /\ In a (map mat_name mats) /\ In b (map mat_name mats) /\ a <> b /\
    nth_error (cells_of header) 4 = Some (a ++ "_scatter" ++ b ++ "_absorb")%string.
Proof.
  intros Ho D Hw L H. destruct (text_lines order nd n mats text Ho D Hw H) as (es & t & lines & Ees & Et & Nt & Es & Ll & Hl).
  pose proof (Ho t) as P. apply (Permutation_map fst) in P. rewrite Nt in P.
  assert (Wo : Forall (fun e => word (fst e)) (order t)).
  { apply Forall_forall. intros x Hx. apply (in_map fst) in Hx. apply (Permutation_in _ P) in Hx. apply in_map_iff in Hx.
    destruct Hx as (m & <- & Hm). rewrite Forall_forall in Hw. apply Hw. exact Hm. }
  pose proof (header_cells (order t) Wo) as Hc. assert (Do : NoDup (map fst (order t))) by (apply (Permutation_NoDup (Permutation_sym P)); exact D).
  assert (Lo : List.length (map fst (order t)) = List.length (map mat_name mats)) by (apply Permutation_length; exact P). rewrite !map_length in Lo.
  destruct (order t) as [|[a va] [|[b vb] rest]]; try (cbn in Lo; lia). cbn [map fst] in P, Do.
  eexists. eexists. exists a, b. split; [exact Es|]. split; [apply (Permutation_in _ P); left; reflexivity|]. split; [apply (Permutation_in _ P); right; left; reflexivity|].
  split; [apply NoDup_cons_iff in Do; destruct Do as [Do _]; intros ->; apply Do; left; reflexivity|].
  rewrite Hc. cbn [run_together fst nth_error]. rewrite app_assoc_s. reflexivity.
Qed.
End Text.
