(** What the reports should contain, and what is asked of the texts of numbers. *)
From Coq Require Import NArith List Bool String Ascii.
From Verif Require Import Float Balance CycleModel TimerModel CsvModel.
Import ListNotations.
Local Open Scope N_scope.

Section Spec.
Context {K D : FloatOps}.

(** A text without separators, ends of lines and white space. *)
Definition plain (s : string) : Prop :=
  Forall (fun c => is_semicolon c = false /\ is_eol c = false /\ is_blank c = false) (list_ascii_of_string s).
(** Written with [show] and parsed again, [a] gives the f64 [value a]. *)
Definition reads_back {A} (show : A -> string) (parse : string -> option (F D)) (value : A -> F D) : Prop :=
  forall a, plain (show a) /\ parse (show a) = Some (value a).

(** The quantity that each name stands for, for one cycle; [value] is the conversion of a flux to f64. *)
Definition quantity (value : F K -> F D) (d : tallied_data) (row : report K * time_row) : F D :=
  let b := rp_balance (fst row) in
  match d with
  | TCycle => fof_N (rp_cycle (fst row))
  | TStart => fof_N (bget b EStart)
  | TSource => fof_N (bget b ESource)
  | TRr => fof_N (bget b EOverRr + bget b EWeightRr)
  | TSplit => fof_N (bget b ESplit)
  | TAbsorb => fof_N (bget b EAbsorb)
  | TScatter => fof_N (bget b EScatter)
  | TFission => fof_N (bget b EFission)
  | TProduce => fof_N (bget b EProduce)
  | TCollision => fof_N (bget b ECollision)
  | TEscape => fof_N (bget b EEscape)
  | TCensus => fof_N (bget b ECensus)
  | TNumSeg => fof_N (bget b ENumSegments)
  | TScalarFlux => value (rp_flux (fst row))
  | TPopulationControl => as_secs (tr_population (snd row))
  | TCycleTracking => as_secs (tr_tracking (snd row))
  | TCycleSync => as_secs (tr_sync (snd row))
  end.
(** The name that the simulation writes above each quantity. *)
Definition written_name (d : tallied_data) : string :=
  match d with
  | TCycle => "cycle" | TStart => "start" | TSource => "source" | TRr => "rr" | TSplit => "split" | TAbsorb => "absorb" | TScatter => "scatter"
  | TFission => "fission" | TProduce => "produce" | TCollision => "collision" | TEscape => "escape" | TCensus => "census" | TNumSeg => "num_seg"
  | TScalarFlux => "scalar_flux" | TPopulationControl => "ppControl(s)" | TCycleTracking => "cycleTracking(s)" | TCycleSync => "cycleSync(s)"
  end%string.
(** What the reader should know of a section: the figures of its line. *)
Definition summary_of (c : timers) (s : section) : summary D :=
  let x := tm_slot c s in
  mkSummary (fof_N (as_micros (sl_avg x))) (fof_N (as_micros (sl_min x))) (fof_N (as_micros (sl_max x))) (fof_N (as_micros (sl_tot x))).
End Spec.
