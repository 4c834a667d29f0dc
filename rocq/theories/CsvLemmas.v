(** Proofs about the csv reports. *)
From Coq Require Import Arith NArith List Bool String Ascii DecimalString Lia.
From Verif Require Import Float Balance CycleModel TimerModel CsvModel CsvSpec.
Import ListNotations.
Local Open Scope N_scope.

(** ** Splitting *)
Definition free (sep : ascii -> bool) (s : string) : Prop := Forall (fun c => sep c = false) (list_ascii_of_string s).

Lemma free_app sep a b : free sep a -> free sep b -> free sep (a ++ b).
Proof. unfold free. induction a as [|c a IH]; cbn; [auto|]. intros H Hb. inversion H; subst. constructor; auto. Qed.
Lemma free_cons sep c s : sep c = false -> free sep s -> free sep (String c s).
Proof. unfold free. cbn. auto. Qed.

Lemma split_on_ne sep s : split_on sep s <> [].
Proof. destruct s as [|c s]; cbn; [discriminate|]. destruct (sep c); [discriminate|]. destruct (split_on sep s); discriminate. Qed.
Lemma split_on_free sep s : free sep s -> split_on sep s = [s].
Proof. unfold free. induction s as [|c s IH]; cbn; intros H; [reflexivity|]. inversion H; subst. rewrite H2. rewrite IH by assumption. reflexivity. Qed.
Lemma split_on_app sep a c b : free sep a -> sep c = true -> split_on sep (a ++ String c b) = a :: split_on sep b.
Proof.
  unfold free. induction a as [|x a IH]; cbn; intros H Hc; [rewrite Hc; reflexivity|]. inversion H; subst. rewrite H2, IH by assumption. reflexivity.
Qed.

Lemma eol_newline : is_eol (ascii_of_N 10) = true. Proof. reflexivity. Qed.

Lemma app_assoc_s (a b c : string) : ((a ++ b) ++ c = a ++ (b ++ c))%string.
Proof. induction a as [|x a IH]; cbn; [reflexivity|]. f_equal. exact IH. Qed.
Lemma app_nil_s (a : string) : (a ++ "" = a)%string.
Proof. induction a as [|x a IH]; cbn; [reflexivity|]. f_equal. exact IH. Qed.

(** The fields of a line. *)
Lemma split_fields l : l <> [] -> Forall (free is_semicolon) l -> split_on is_semicolon (csv_fields l) = l.
Proof.
  induction l as [|f l IH]; intros Hn H; [congruence|]. inversion H; subst. destruct l as [|g l].
  - cbn. apply split_on_free. assumption.
  - change (csv_fields (f :: g :: l)) with (f ++ String ";" (csv_fields (g :: l)))%string.
    rewrite split_on_app by (auto; reflexivity). f_equal. apply IH; [discriminate|assumption].
Qed.
Lemma fields_free_eol l : Forall (free is_eol) l -> free is_eol (csv_fields l).
Proof.
  induction l as [|f l IH]; intros H; [constructor|]. inversion H; subst. destruct l as [|g l]; [assumption|].
  change (csv_fields (f :: g :: l)) with (f ++ String ";" (csv_fields (g :: l)))%string.
  apply free_app; [assumption|]. apply free_cons; [reflexivity|]. apply IH. assumption.
Qed.
Lemma fields_ne f g l : csv_fields (f :: g :: l) <> ""%string.
Proof. change (csv_fields (f :: g :: l)) with (f ++ String ";" (csv_fields (g :: l)))%string. destruct f; discriminate. Qed.

(** The lines of a text. *)
Fixpoint csv_text (lines : list (list string)) : string := match lines with [] => ""%string | l :: lines => (csv_line l ++ csv_text lines)%string end.
Lemma csv_text_app a b : csv_text (a ++ b) = (csv_text a ++ csv_text b)%string.
Proof. induction a as [|l a IH]; cbn [csv_text app]; [reflexivity|]. rewrite IH. symmetry. apply app_assoc_s. Qed.

Definition is_line (n : nat) (l : list string) : Prop := List.length l = n /\ Forall (free is_semicolon) l /\ Forall (free is_eol) l.

Lemma split_text n lines : Forall (is_line n) lines -> split_on is_eol (csv_text lines) = (map csv_fields lines ++ [""%string])%list.
Proof.
  induction lines as [|l lines IH]; intros H; [reflexivity|]. inversion H as [|x y Hl Hr]; subst. cbn [csv_text map app].
  unfold csv_line, newline. rewrite app_assoc_s. cbn [append]. rewrite split_on_app; [|apply fields_free_eol, Hl|reflexivity]. rewrite IH by assumption. reflexivity.
Qed.
Lemma filter_lines n lines : (2 <= n)%nat -> Forall (is_line n) lines ->
  filter (fun l => negb (String.eqb l "")) (map csv_fields lines ++ [""%string])%list = map csv_fields lines.
Proof.
  intros Hn. induction lines as [|l lines IH]; intros H; [reflexivity|]. inversion H as [|x y Hl Hr]; subst. cbn [map app filter].
  destruct Hl as (Hlen & _). destruct l as [|f [|g l]]; [cbn in Hlen; lia|cbn in Hlen; lia|].
  destruct (String.eqb_spec (csv_fields (f :: g :: l)) "") as [E|E]; [exfalso; exact (fields_ne _ _ _ E)|]. cbn [negb]. rewrite IH by assumption. reflexivity.
Qed.
Lemma records_of_text n header lines : (2 <= n)%nat -> Forall (is_line n) (header :: lines) -> csv_records (csv_text (header :: lines)) = Ok lines.
Proof.
  intros Hn H. unfold csv_records. rewrite (split_text n) by assumption. rewrite (filter_lines n) by assumption. rewrite map_map.
  replace (map (fun x => split_on is_semicolon (csv_fields x)) (header :: lines)) with (header :: lines).
  - inversion H as [|x y Hh Hl]; subst. replace (forallb _ lines) with true; [reflexivity|]. symmetry. apply forallb_forall. intros l Hin.
    rewrite Forall_forall in Hl. destruct (Hl l Hin) as (A & _). destruct Hh as (B & _). rewrite A, B. apply Nat.eqb_refl.
  - symmetry. rewrite <- (map_id (header :: lines)) at 2. apply map_ext_in. intros l Hin. rewrite Forall_forall in H. destruct (H l Hin) as (A & B & _).
    apply split_fields; [|assumption]. intros ->. cbn in A. lia.
Qed.

(** ** Trimming *)
Lemma rev_string_rev s : forall acc, list_ascii_of_string (rev_string s acc) = (List.rev (list_ascii_of_string s) ++ list_ascii_of_string acc)%list.
Proof. induction s as [|c s IH]; intros acc; cbn; [reflexivity|]. rewrite IH. cbn. rewrite <- app_assoc. reflexivity. Qed.
Lemma trim_start_free s : free is_blank s -> trim_start s = s.
Proof. unfold free. destruct s as [|c s]; cbn; [reflexivity|]. intros H. inversion H; subst. rewrite H2. reflexivity. Qed.
Lemma rev_string_involutive s : rev_string (rev_string s "") "" = s.
Proof.
  rewrite <- (string_of_list_ascii_of_string (rev_string (rev_string s "") "")), !rev_string_rev. cbn. rewrite !app_nil_r, rev_involutive.
  apply string_of_list_ascii_of_string.
Qed.
Lemma trim_free s : free is_blank s -> trim s = s.
Proof.
  intros H. unfold trim. rewrite (trim_start_free s) by assumption. rewrite trim_start_free; [apply rev_string_involutive|].
  unfold free. rewrite rev_string_rev. cbn. rewrite app_nil_r. apply Forall_rev. exact H.
Qed.

Lemma plain_semicolon s : plain s -> free is_semicolon s.
Proof. apply Forall_impl. intros c H. apply H. Qed.
Lemma plain_eol s : plain s -> free is_eol s.
Proof. apply Forall_impl. intros c H. apply H. Qed.
Lemma plain_blank s : plain s -> free is_blank s.
Proof. apply Forall_impl. intros c H. apply H. Qed.

(** Decimal numbers are plain. *)
Lemma string_of_uint_plain u : plain (NilEmpty.string_of_uint u).
Proof. unfold plain. induction u; cbn; constructor; auto; repeat split; reflexivity. Qed.
Lemma show_N_plain n : plain (show_N n).
Proof.
  unfold show_N, NilZero.string_of_uint. destruct (N.to_uint n) eqn:E; try apply string_of_uint_plain.
  constructor; [repeat split; reflexivity|constructor].
Qed.

(** ** The columns *)
Section Read.
Context {D : FloatOps}.
Variable parse : string -> option (F D).

Lemma push_all_spec columns : forall record idx values, List.length values = List.length columns ->
  (forall i v, nth_error values i = Some v -> read_field parse record (idx + i) = Ok v) ->
  push_all parse columns record idx = Ok (map (fun '(c, v) => (c ++ [v])%list) (combine columns values)).
Proof.
  induction columns as [|c columns IH]; intros record idx [|v values] Hl H; try discriminate Hl; [reflexivity|]. cbn [push_all].
  rewrite <- (Nat.add_0_r idx) at 1. rewrite (H 0%nat v eq_refl). cbn [rbind]. rewrite (IH record (S idx) values).
  - reflexivity.
  - cbn in Hl. lia.
  - intros i w Hi. replace (S idx + i)%nat with (idx + S i)%nat by lia. apply H. exact Hi.
Qed.

Definition column_of {A} (f : nat -> A -> F D) (rows : list A) (i : nat) : list (F D) := map (f i) rows.

Lemma combine_map_seq {A} (g : nat -> list (F D)) (h : nat -> A) n : forall s,
  combine (map g (seq s n)) (map h (seq s n)) = map (fun i => (g i, h i)) (seq s n).
Proof. induction n as [|n IH]; intros s; [reflexivity|]. cbn [seq map combine]. rewrite IH. reflexivity. Qed.

Lemma read_lines_spec {A} n (f : nat -> A -> F D) (fields : A -> list string) :
  (forall a i, (i < n)%nat -> read_field parse (map trim (fields a)) i = Ok (f i a)) ->
  forall rows done, read_lines parse (map (column_of f done) (seq 0 n)) (map fields rows) = Ok (map (column_of f (done ++ rows)) (seq 0 n)).
Proof.
  intros Hf. induction rows as [|a rows IH]; intros done; [rewrite app_nil_r; reflexivity|]. cbn [map read_lines].
  rewrite (push_all_spec _ _ 0 (map (fun i => f i a) (seq 0 n))).
  - cbn [rbind]. rewrite combine_map_seq, map_map. replace (done ++ a :: rows)%list with ((done ++ [a]) ++ rows)%list by (rewrite <- app_assoc; reflexivity).
    rewrite <- IH. f_equal. apply map_ext. intros i. unfold column_of. rewrite map_app. reflexivity.
  - rewrite !map_length. reflexivity.
  - intros i v Hi. assert (Hlt : (i < n)%nat). { apply nth_error_Some_lt in Hi || (assert (nth_error (map (fun i => f i a) (seq 0 n)) i <> None) by congruence; apply nth_error_Some in H; rewrite map_length, seq_length in H; exact H). }
    cbn [Nat.add]. rewrite Hf by assumption. rewrite nth_error_map in Hi. rewrite nth_error_nth' with (d := 0%nat) in Hi by (rewrite seq_length; exact Hlt).
    rewrite seq_nth in Hi by exact Hlt. cbn in Hi. congruence.
Qed.
End Read.
