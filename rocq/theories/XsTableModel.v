(** Model of the table of cross-sections, [check_cross_sections] in /repo/fastiron/src/init.rs lines 332-441, which
    [init_mcdata] (lines 36-43) writes to a file when the user asks for it. *)
From Coq Require Import NArith String List Bool Ascii.
From Verif Require Import Float ParticleModel NuclearModel TrackModel CycleModel ParamModel CsvModel.
Import ListNotations.
Local Open Scope N_scope.
Local Open Scope float_scope.

(** [{:>w}]: spaces on the left up to the width [w]; a longer text is left as it is. *)
Fixpoint spaces (n : nat) : string := match n with O => "" | S n => String " " (spaces n) end.
Definition pad_left (w : nat) (s : string) : string := (spaces (w - String.length s) ++ s)%string.

Section Table.
Context {K : FloatOps}.

(** Lines 332-337, [XSData]. *)
Record xs_data : Type := mkXsData { xs_abs : F K; xs_fis : F K; xs_sca : F K }.
Definition xs_zero : xs_data := mkXsData f0 f0 f0.

(** Lines 365-368: the middle of each group. *)
Definition xs_energies (nd : nuclear_data K) (n_groups : N) : result (list (F K)) :=
  rmap (fun ii => do a <- vec_get (nd_energies nd) ii ; do b <- vec_get (nd_energies nd) (ii + 1) ; Ok ((a +. b) /. (f1 +. f1)))
    (nrange 0 (N.to_nat n_groups)).

(** Lines 385-395: [v] is added to the cross-section of that kind. *)
Definition xs_add (t : reaction_type) (v : F K) (d : xs_data) : xs_data :=
  match t with
  | Scatter => mkXsData (xs_abs d) (xs_fis d) (xs_sca d +. v)
  | Absorption => mkXsData (xs_abs d +. v) (xs_fis d) (xs_sca d)
  | Fission => mkXsData (xs_abs d) (xs_fis d +. v) (xs_sca d)
  end.
(** Line 385: the loop over the groups; [xc_vec] has one entry per group, so the loop is over the entries from number [ii]. *)
Fixpoint xs_add_reaction (r : reaction K) (n_isotopes : F K) (ii : N) (xc_vec : list xs_data) : result (list xs_data) :=
  match xc_vec with
  | [] => Ok []
  | d :: xc_vec =>
      do x <- vec_get (r_cross_section r) ii ;
      do rest <- xs_add_reaction r n_isotopes (ii + 1) xc_vec ;
      Ok (xs_add (r_type r) (x /. n_isotopes) d :: rest)
  end.
(** Lines 375-397: the loops over the isotopes and their reactions. *)
Definition xs_vec (nd : nuclear_data K) (n_groups : N) (mat : material K) : result (list xs_data) :=
  let n_isotopes := fof_N (N.of_nat (List.length (mat_iso mat))) in
  rfold (fun vec iso =>
      do reactions <- vec_get (nd_isotopes nd) (iso_gid iso) ;
      rfold (fun vec r => xs_add_reaction r n_isotopes 0 vec) reactions vec)
    (mat_iso mat) (repeat xs_zero (N.to_nat n_groups)).
(** Lines 371-399, [xc_table]. *)
Definition xs_table (nd : nuclear_data K) (n_groups : N) (mats : list (material K)) : result (list (string * list xs_data)) :=
  rfold (fun table mat => do vec <- xs_vec nd n_groups mat ; Ok (map_insert table (mat_name mat) vec)) mats [].

(** Lines 423-431: what is printed instead of a small value. *)
Definition xs_clip (v : F K) : F K := if v <. ftiny then f0 else v.

(** How numbers are turned into text is left open: [show12] is [{:.12}] and [show13] is [{:.13}]. *)
Variables show12 show13 : F K -> string.
Local Open Scope string_scope.

(** Lines 410-418. *)
Definition xs_header (table : list (string * list xs_data)) : string :=
  "group |           energy |  " ++
  String.concat "" (map (fun e => fst e ++ "_absorb |  " ++ fst e ++ "_fission |  " ++ fst e ++ "_scatter") table) ++ newline.
(** Lines 432-437. *)
Definition xs_cells (d : xs_data) : string :=
  pad_left 20 (show13 (xs_clip (xs_abs d))) ++ " |  " ++ pad_left 22 (show13 (xs_clip (xs_fis d))) ++ " |  " ++ pad_left 22 (show13 (xs_clip (xs_sca d))).
(** Lines 421-439, for one group. *)
Definition xs_line (energies : list (F K)) (table : list (string * list xs_data)) (ii : N) : result string :=
  do e <- vec_get energies ii ;
  do cells <- rmap (fun entry => do d <- vec_get (snd entry) ii ; Ok (xs_cells d)) table ;
  Ok (pad_left 5 (show_N ii) ++ " |  " ++ pad_left 15 (show12 e) ++ " |   " ++ String.concat "" cells ++ newline).

(** Lines 359-441: the text of the file.  The iteration order of the hash map is that of [order table]; it does not change between the header and the lines,
    since only the values of the map are changed.  Errors of the file system are not modelled. *)
Definition xs_text (order : list (string * list xs_data) -> list (string * list xs_data)) (nd : nuclear_data K) (n_groups : N)
    (mats : list (material K)) : result string :=
  do energies <- xs_energies nd n_groups ;
  do table <- xs_table nd n_groups mats ;
  do lines <- rmap (xs_line energies (order table)) (nrange 0 (N.to_nat n_groups)) ;
  Ok (xs_header (order table) ++ String.concat "" lines).

(** Lines 36-43 and 402-408: the file written when [init_mcdata] has built [md], its name and its text. *)
Definition xs_file (order : list (string * list xs_data) -> list (string * list xs_data)) (p : params K) (md : mcdata K)
  : result (option (string * string)) :=
  let out := si_cross_sections_out (pa_sim p) in
  if (out =? "")%string then Ok None
  else
    do text <- xs_text order (td_nuclear (mc_track md)) (si_n_groups (pa_sim p)) (td_mats (mc_track md)) ;
    Ok (Some (out ++ ".dat", text)).

End Table.
Arguments xs_data : clear implicits.
