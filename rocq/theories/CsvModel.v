(** Model of the csv reports: the writer, /repo/fastiron/src/data/tallies.rs and utils/mc_fast_timer.rs, and the
    reader, /repo/fastiron-stats/src/structures/raw.rs. *)
From Coq Require Import NArith List Bool String Ascii DecimalString.
From Verif Require Import Float Balance CycleModel TimerModel.
Import ListNotations.
Local Open Scope N_scope.
Local Open Scope string_scope.

(** Decimal writing of an unsigned integer, as [{}] writes it. *)
Definition show_N (n : N) : string := NilZero.string_of_uint (N.to_uint n).
Definition newline : string := String (Ascii.ascii_of_N 10) "".
(** A line whose fields are separated by [;]. *)
Fixpoint csv_fields (l : list string) : string :=
  match l with [] => "" | [f] => f | f :: l => f ++ ";" ++ csv_fields l end.
Definition csv_line (l : list string) : string := csv_fields l ++ newline.

(** mc_fast_timer.rs lines 32-43, [Display] of a section. *)
Definition section_text (s : section) : string :=
  match s with
  | SMain => "Section::Main                 "
  | SPopulationControl => "Section::PopulationControl    "
  | SCycleTracking => "Section::CycleTracking        "
  | SCycleTrackingProcess => "Section::CycleTrackingProcess "
  | SCycleTrackingSort => "Section::CycleTrackingSort    "
  | SCycleSync => "Section::CycleSync            "
  end.

Section Write.
(** [K] is the arithmetic of the simulation, [D] is f64.  How numbers are turned into text is left open: [show] is [{:e}] on [T], [show64] is [{:e}] on
    f64, [show_micros] is [{:e}] on a u128, [show_percent] is [{:.1}] on f64. *)
Context {K D : FloatOps}.
Variable show : F K -> string.
Variable show64 : F D -> string.
Variable show_micros : N -> string.
Variable show_percent : F D -> string.

(** tallies.rs line 271. *)
Definition tallies_header : list string :=
  ["cycle"; "start"; "source"; "rr"; "split"; "absorb"; "scatter"; "fission"; "produce"; "collision"; "escape"; "census"; "num_seg"; "scalar_flux";
   "ppControl(s)"; "cycleTracking(s)"; "cycleSync(s)"].
(** Lines 304-325. *)
Definition tallies_fields (r : report K) (t : time_row) : list string :=
  let b := rp_balance r in
  [ show_N (rp_cycle r); show_N (bget b EStart); show_N (bget b ESource); show_N (bget b EOverRr + bget b EWeightRr); show_N (bget b ESplit);
    show_N (bget b EAbsorb); show_N (bget b EScatter); show_N (bget b EFission); show_N (bget b EProduce); show_N (bget b ECollision);
    show_N (bget b EEscape); show_N (bget b ECensus); show_N (bget b ENumSegments); show (rp_flux r);
    show64 (as_secs (tr_population t)); show64 (as_secs (tr_tracking t)); show64 (as_secs (tr_sync t)) ].
(** Lines 255-273 and 299-326, [print_summary] with [csv]: what becomes of the file.  The first cycle truncates it, the others append to it and panic when it
    does not exist; the other errors of the file system are not modelled. *)
Definition print_csv (file : option string) (r : report K) (t : time_row) : result (option string) :=
  let file := if N.eqb (rp_cycle r) 0 then Some (csv_line tallies_header) else file in
  do content <- unwrap file ;
  Ok (Some (content ++ csv_line (tallies_fields r t))).
(** All the calls of [print_summary] in a run. *)
Fixpoint print_all (file : option string) (rows : list (report K * time_row)) : result (option string) :=
  match rows with
  | [] => Ok file
  | (r, t) :: rows => do file <- print_csv file r t ; print_all file rows
  end.

(** mc_fast_timer.rs lines 134-137. *)
Definition timers_header : list string := ["Timer Name"; "#calls"; "Shortest(µs)"; "Average(µs)"; "Longest(µs)"; "Total(µs)"; "Efficiency(%)"].
(** Lines 170-179. *)
Definition timer_fields (l : timer_line D) : list string :=
  [ section_text (tl_section l); show_N (tl_calls l); show_micros (tl_shortest l); show_micros (tl_average l); show_micros (tl_longest l); show_micros (tl_total l);
    show_percent (tl_efficiency l) ].
(** Lines 127-139 and 165-180. *)
Definition timers_csv (c : timers) : string :=
  List.fold_left (fun content l => content ++ csv_line (timer_fields l)) (cumulative_report c) (csv_line timers_header).
End Write.

(** ** The reader *)

Fixpoint split_on (sep : ascii -> bool) (s : string) : list string :=
  match s with
  | EmptyString => [""]
  | String c r =>
      if sep c then "" :: split_on sep r
      else match split_on sep r with [] => [String c ""] | f :: fs => String c f :: fs end
  end.
Definition is_eol (c : ascii) : bool := (N.eqb (N_of_ascii c) 10) || (N.eqb (N_of_ascii c) 13).
Definition is_semicolon (c : ascii) : bool := N.eqb (N_of_ascii c) 59.
(** White space, among the ASCII characters. *)
Definition is_blank (c : ascii) : bool := (N.eqb (N_of_ascii c) 32) || ((N.leb 9 (N_of_ascii c)) && (N.leb (N_of_ascii c) 13)).
Fixpoint trim_start (s : string) : string := match s with String c r => if is_blank c then trim_start r else s | _ => s end.
Fixpoint rev_string (s acc : string) : string := match s with EmptyString => acc | String c r => rev_string r (String c acc) end.
(** [str::trim]. *)
Definition trim (s : string) : string := rev_string (trim_start (rev_string (trim_start s) "")) "".

(** [csv::ReaderBuilder::new().delimiter(b';')] and [records()]: the lines that are not empty; the first one is the header and is not given; a line with another
    number of fields than the header is an error, which [unwrap] turns into a panic.  Quoted fields are not modelled: the reports contain no quotes. *)
Definition csv_records (text : string) : result (list (list string)) :=
  match List.map (split_on is_semicolon) (List.filter (fun l => negb (String.eqb l "")) (split_on is_eol text)) with
  | [] => Ok []
  | header :: lines => do _ <- rassert (forallb (fun l => Nat.eqb (List.length l) (List.length header)) lines) ; Ok lines
  end.

(** raw.rs lines 17-52, [TalliedData]. *)
Inductive tallied_data : Set :=
  TCycle | TStart | TSource | TRr | TSplit | TAbsorb | TScatter | TFission | TProduce | TCollision | TEscape | TCensus | TNumSeg | TScalarFlux
| TPopulationControl | TCycleTracking | TCycleSync.
(** [tallied_data as usize]. *)
Definition tallied_index (d : tallied_data) : nat :=
  match d with
  | TCycle => 0 | TStart => 1 | TSource => 2 | TRr => 3 | TSplit => 4 | TAbsorb => 5 | TScatter => 6 | TFission => 7 | TProduce => 8 | TCollision => 9
  | TEscape => 10 | TCensus => 11 | TNumSeg => 12 | TScalarFlux => 13 | TPopulationControl => 14 | TCycleTracking => 15 | TCycleSync => 16
  end.
(** raw.rs lines 55-81, [Display]. *)
Definition tallied_text (d : tallied_data) : string :=
  match d with
  | TCycle => "Cycle" | TStart => "Start" | TSource => "Source" | TRr => "Rr" | TSplit => "Split" | TAbsorb => "Absorb" | TScatter => "Scatter"
  | TFission => "Fission" | TProduce => "Produce" | TCollision => "Collision" | TEscape => "Escape" | TCensus => "Census" | TNumSeg => "NumSeg"
  | TScalarFlux => "ScalarFlux" | TPopulationControl => "PopulationControl" | TCycleTracking => "CycleTracking" | TCycleSync => "CycleSync"
  end.
(** raw.rs line 13, [N_TALLIED_DATA]. *)
Definition n_tallied_data : nat := 17.

Section Read.
Context {D : FloatOps}.
(** [str::parse::<f64>]. *)
Variable parse : string -> option (F D).

(** [record.get(idx).unwrap()] then [parse().unwrap()]. *)
Definition read_field (record : list string) (idx : nat) : result (F D) :=
  do text <- unwrap (nth_error record idx) ; unwrap (parse text).
(** raw.rs lines 158-166: the values of each column; the loop over the lines is outside, the one over the columns inside. *)
Fixpoint push_all (columns : list (list (F D))) (record : list string) (idx : nat) : result (list (list (F D))) :=
  match columns with
  | [] => Ok []
  | c :: columns => do v <- read_field record idx ; do rest <- push_all columns record (S idx) ; Ok ((c ++ [v])%list :: rest)
  end.
Fixpoint read_lines (columns : list (list (F D))) (lines : list (list string)) : result (list (list (F D))) :=
  match lines with
  | [] => Ok columns
  | record :: lines => do columns <- push_all columns (List.map trim record) 0 ; read_lines columns lines
  end.
(** raw.rs lines 152-172, [TalliesReport::from], before the statistics (see StatModel.v). *)
Definition read_tallies (text : string) : result (list (list (F D))) :=
  do lines <- csv_records text ; read_lines (List.repeat [] n_tallied_data) lines.

(** raw.rs lines 230-239, [SummarizedVariable]. *)
Record summary : Type := mkSummary { su_mean : F D; su_lowest : F D; su_highest : F D; su_total : F D }.
Definition read_summary (record : list string) : result summary :=
  do lowest <- read_field record 2 ;
  do mean <- read_field record 3 ;
  do highest <- read_field record 4 ;
  do total <- read_field record 5 ;
  Ok (mkSummary mean lowest highest total).
(** raw.rs lines 248-266, [TimerReport::from]; [res[timer_idx]] panics when there are more lines than sections. *)
Fixpoint read_timer_lines (res : list summary) (idx : nat) (lines : list (list string)) : result (list summary) :=
  match lines with
  | [] => Ok res
  | record :: lines =>
      do _ <- rassert (Nat.ltb idx (List.length res)) ;
      do s <- read_summary (List.map trim record) ;
      read_timer_lines (list_set res idx s) (S idx) lines
  end.
Definition read_timers (text : string) : result (list summary) :=
  do lines <- csv_records text ; read_timer_lines (List.repeat (mkSummary f0 f0 f0 f0) 6) 0 lines.
End Read.
Arguments summary : clear implicits.
