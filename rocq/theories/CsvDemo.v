(** A way of writing f64 numbers that is read back, for the concrete cases. *)
From Coq Require Import Arith NArith ZArith List Bool String Ascii DecimalString DecimalN Lia SpecFloat.
From Flocq Require Import Core IEEE754.BinarySingleNaN.
From Verif Require Import Float RngIeee Ieee CsvModel CsvSpec CsvLemmas.
Import ListNotations.
Local Open Scope N_scope.
Local Open Scope string_scope.

Definition parse_N (s : string) : option N := option_map N.of_uint (NilZero.uint_of_string s).
Lemma parse_show_N n : parse_N (show_N n) = Some n.
Proof.
  unfold parse_N, show_N. rewrite NilZero.usu; [cbn; rewrite Unsigned.of_to; reflexivity|]. intros E. apply (f_equal N.of_uint) in E as E'. rewrite Unsigned.of_to in E'. cbn in E'. subst n. discriminate E.
Qed.

Definition show_spec (x : spec_float) : string :=
  match x with
  | S754_zero false => "z" | S754_zero true => "y"
  | S754_infinity false => "i" | S754_infinity true => "j"
  | S754_nan => "n"
  | S754_finite s m e => (if s then "p" else "q") ++ show_N (Npos m) ++ (if (e <? 0)%Z then "f" else "e") ++ show_N (Z.abs_N e)
  end.
Definition is_f (c : ascii) : bool := Ascii.eqb c "f".
Definition is_e (c : ascii) : bool := Ascii.eqb c "e".
Definition parse_mantissa (s : bool) (text : string) : option spec_float :=
  match split_on is_f text, split_on is_e text with
  | [a; b], _ => match parse_N a, parse_N b with Some (Npos m), Some e => Some (S754_finite s m (- Z.of_N e)) | _, _ => None end
  | _, [a; b] => match parse_N a, parse_N b with Some (Npos m), Some e => Some (S754_finite s m (Z.of_N e)) | _, _ => None end
  | _, _ => None
  end.
Definition parse_spec (text : string) : option spec_float :=
  match text with
  | String c r =>
      if Ascii.eqb c "z" then Some (S754_zero false) else if Ascii.eqb c "y" then Some (S754_zero true)
      else if Ascii.eqb c "i" then Some (S754_infinity false) else if Ascii.eqb c "j" then Some (S754_infinity true)
      else if Ascii.eqb c "n" then Some S754_nan
      else if Ascii.eqb c "p" then parse_mantissa true r else if Ascii.eqb c "q" then parse_mantissa false r
      else None
  | EmptyString => None
  end.

Lemma digits_free sep u : (forall c, In c ["0"; "1"; "2"; "3"; "4"; "5"; "6"; "7"; "8"; "9"]%char -> sep c = false) -> free sep (NilEmpty.string_of_uint u).
Proof. intros H. unfold free. induction u; cbn; constructor; auto; apply H; cbn; tauto. Qed.
Lemma show_N_free sep n : (forall c, In c ["0"; "1"; "2"; "3"; "4"; "5"; "6"; "7"; "8"; "9"]%char -> sep c = false) -> free sep (show_N n).
Proof.
  intros H. unfold show_N, NilZero.string_of_uint. destruct (N.to_uint n); try (apply digits_free; exact H). constructor; [apply H; cbn; tauto|constructor].
Qed.
Lemma show_N_f n : free is_f (show_N n).
Proof. apply show_N_free. intros c Hc. repeat (destruct Hc as [<- |Hc]; [reflexivity|]). destruct Hc. Qed.
Lemma show_N_e n : free is_e (show_N n).
Proof. apply show_N_free. intros c Hc. repeat (destruct Hc as [<- |Hc]; [reflexivity|]). destruct Hc. Qed.

Lemma parse_show_spec x : parse_spec (show_spec x) = Some x.
Proof.
  assert (G : forall s m e, parse_mantissa s (show_N (Npos m) ++ (if (e <? 0)%Z then "f" else "e") ++ show_N (Z.abs_N e)) = Some (S754_finite s m e)).
  { intros s m e. unfold parse_mantissa. destruct (Z.ltb_spec e 0).
    - change ("f" ++ show_N (Z.abs_N e)) with (String "f" (show_N (Z.abs_N e))). rewrite split_on_app; [|apply show_N_f|reflexivity]. rewrite (split_on_free is_f) by apply show_N_f.
      rewrite !parse_show_N. do 2 f_equal. lia.
    - change ("e" ++ show_N (Z.abs_N e)) with (String "e" (show_N (Z.abs_N e))).
      rewrite (split_on_free is_f) by (apply free_app; [apply show_N_f|apply free_cons; [reflexivity|apply show_N_f]]).
      rewrite split_on_app; [|apply show_N_e|reflexivity]. rewrite (split_on_free is_e) by apply show_N_e. rewrite !parse_show_N. do 2 f_equal. lia. }
  destruct x as [[]|[]| |[] m e]; try reflexivity; cbn [show_spec append parse_spec Ascii.eqb Bool.eqb]; apply G.
Qed.
Lemma parse_spec_digits n : parse_spec (show_N n) = None.
Proof. unfold show_N, NilZero.string_of_uint. destruct (N.to_uint n); reflexivity. Qed.
Lemma plain_app a b : plain a -> plain b -> plain (a ++ b).
Proof. unfold plain. induction a as [|c a IH]; cbn; [auto|]. intros H Hb. inversion H; subst. constructor; auto. Qed.
Lemma show_spec_plain x : plain (show_spec x).
Proof.
  assert (P1 : forall c, is_semicolon c = false -> is_eol c = false -> is_blank c = false -> plain (String c "")) by (intros c A B C; repeat constructor; assumption).
  destruct x as [[]|[]| |s m e]; try (apply P1; reflexivity). cbn [show_spec].
  apply plain_app; [destruct s; apply P1; reflexivity|]. apply plain_app; [apply show_N_plain|]. apply plain_app; [destruct (e <? 0)%Z; apply P1; reflexivity|apply show_N_plain].
Qed.

Definition show_f64 (x : F K64) : string := show_spec (B2SF (x : f64)).
Definition of_spec (x : spec_float) : f64 :=
  match Bool.bool_dec (valid_binary 53 1024 x) true with left H => SF2B x H | right _ => B754_nan end.
Lemma of_spec_B2SF (x : f64) : of_spec (B2SF x) = x.
Proof.
  unfold of_spec. destruct (Bool.bool_dec _ true) as [H|H]; [apply SF2B_B2SF|]. exfalso. apply H. apply valid_binary_B2SF.
Qed.
Definition parse_f64 (s : string) : option (F K64) :=
  match parse_spec s with Some x => Some (of_spec x : F K64) | None => option_map (fof_N (f := K64)) (parse_N s) end.
Lemma show_f64_back : reads_back show_f64 parse_f64 (fun x => x).
Proof.
  intros x. split; [apply show_spec_plain|]. unfold parse_f64, show_f64. rewrite parse_show_spec. f_equal. apply of_spec_B2SF.
Qed.
Lemma show_N_back n : parse_f64 (show_N n) = Some (fof_N n).
Proof. unfold parse_f64. rewrite parse_spec_digits, parse_show_N. reflexivity. Qed.
Lemma show_micros_back : reads_back show_N parse_f64 fof_N.
Proof. intros n. split; [apply show_N_plain|apply show_N_back]. Qed.
Lemma show_f64_plain x : plain (show_f64 x).
Proof. apply show_spec_plain. Qed.
