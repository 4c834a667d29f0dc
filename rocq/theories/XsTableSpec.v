(** Vocabulary for the claims about the table of cross-sections. *)
From Coq Require Import NArith List Bool Reals String Ascii.
From Verif Require Import Float RealOps ParticleModel NuclearModel CsvModel PopSpec NuclearSpec XsTableModel.
Import ListNotations.
Local Open Scope N_scope.

(** The macroscopic cross-section, for a density of one, of the reactions of kind [k] among those that a particle of group [g] may undergo in the material. *)
Definition kind_part (nd : nuclear_data Rops) (g : N) (k : reaction_type) (mat : material Rops) : R :=
  Rsum (map (sigma 1 g) (filter (fun pr => is_kind k (snd pr)) (partners nd (mat_iso mat)))).

(** No cross-section and no ratio is negative, and the ratios are not all zero. *)
Definition nonneg_params (mp : material_params Rops) : Prop :=
  (0 <= mp_total_cross_section mp /\ 0 <= mp_scattering_ratio mp /\ 0 <= mp_fission_ratio mp /\ 0 <= mp_absorption_ratio mp /\ 0 < weight_sum mp)%R.

(** A text with no bar, no end of line and no white space. *)
Definition is_bar (c : ascii) : bool := N.eqb (N_of_ascii c) 124.
Definition word (s : string) : Prop :=
  Forall (fun c => is_bar c = false /\ is_eol c = false /\ is_blank c = false) (list_ascii_of_string s).
(** The cells of a line, as a reader of the table sees them. *)
Definition cells_of (line : string) : list string := map trim (split_on is_bar line).

(** The cells of a line with three texts for each material: nothing separates the third one of a material from the first one of the next. *)
Fixpoint side_by_side (first : string) (l : list (string * string * string)) : list string :=
  match l with
  | [] => [trim first]
  | (a, b, c) :: l => trim (first ++ a)%string :: b :: side_by_side c l
  end.
(** The texts of a material in the line of names and in a line of values. *)
Definition material_names {K : FloatOps} (e : string * list (xs_data K)) : string * string * string :=
  (fst e ++ "_absorb", fst e ++ "_fission", fst e ++ "_scatter")%string.
Definition material_values {K : FloatOps} (show13 : F K -> string) (d : xs_data K) : string * string * string :=
  (pad_left 20 (show13 (xs_clip (xs_abs d))), show13 (xs_clip (xs_fis d)), show13 (xs_clip (xs_sca d))).
