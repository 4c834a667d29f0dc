(** Model of the file of the energy spectrum, /repo/fastiron/src/data/energy_spectrum.rs lines 23-71, written at the end of a run by
    [game_over] (main.rs line 173).  The counts are those of [update_spectrum], in CycleModel.v. *)
From Coq Require Import NArith String List Bool Ascii.
From Verif Require Import Float ParticleModel NuclearModel TrackModel CycleModel ParamModel CsvModel XsTableModel.
Import ListNotations.
Local Open Scope N_scope.
Local Open Scope float_scope.

Section Spectrum.
Context {K : FloatOps}.
(** How numbers are turned into text is left open: [show15] is [{:.15}]. *)
Variable show15 : F K -> string.
Local Open Scope string_scope.

(** Lines 50-54 and 56-60. *)
Definition spectrum_header : string := "energy level index |         energy level |         count".
Definition spectrum_rule : string := "-------------------|----------------------|--------------".
(** Lines 62-69, for one level; indexing out of bounds panics. *)
Definition spectrum_line (energies : list (F K)) (counts : list N) (ii : N) : result string :=
  do e <- vec_get energies ii ;
  do n <- vec_get counts ii ;
  Ok (pad_left 18 (show_N ii) ++ " | " ++ pad_left 20 (show15 e) ++ " | " ++ pad_left 13 (show_N n) ++ newline).
(** Lines 41-70, [print_spectrum]: the name of the file and its text, nothing when no name was given.  Errors of the file system are not
    modelled. *)
Definition print_spectrum (file_name : string) (energies : list (F K)) (counts : list N) : result (option (string * string)) :=
  if (file_name =? "")%string then Ok None
  else
    do lines <- rmap (spectrum_line energies counts) (nrange 0 (List.length energies)) ;
    Ok (Some (file_name ++ ".dat", spectrum_header ++ newline ++ spectrum_rule ++ newline ++ String.concat "" lines)).

(** main.rs line 173: the file at the end of a run of [md], which [init_mcdata] built from [p], that ended in [s]; [init_mcresults]
    (init.rs lines 113-119) gave the name of [p] to the spectrum. *)
Definition spectrum_file (p : params K) (md : mcdata K) (s : sim K) : result (option (string * string)) :=
  print_spectrum (si_energy_spectrum (pa_sim p)) (nd_energies (td_nuclear (mc_track md))) (rs_spectrum (s_results s)).

End Spectrum.
