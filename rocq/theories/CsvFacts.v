(** What the statistics tool reads is what the simulation wrote. *)
From Coq Require Import Arith NArith List Bool String Ascii Lia.
From Verif Require Import Float Balance NuclearModel ParticleModel TrackModel CycleModel CycleSpec CycleAccount CycleFacts TimerModel CsvModel CsvSpec CsvLemmas.
Import ListNotations.
Local Open Scope N_scope.

(** ** The tallies *)
Section Tallies.
Context {K D : FloatOps}.
Variable show : F K -> string.
Variable show64 : F D -> string.
Variable parse : string -> option (F D).
Variable value : F K -> F D.
Hypothesis Hshow : reads_back show parse value.
Hypothesis Hshow64 : reads_back show64 parse (fun x => x).
Hypothesis HN : forall n, parse (show_N n) = Some (fof_N n).

Definition data_at (i : nat) : tallied_data :=
  match i with
  | 0 => TCycle | 1 => TStart | 2 => TSource | 3 => TRr | 4 => TSplit | 5 => TAbsorb | 6 => TScatter | 7 => TFission | 8 => TProduce | 9 => TCollision
  | 10 => TEscape | 11 => TCensus | 12 => TNumSeg | 13 => TScalarFlux | 14 => TPopulationControl | 15 => TCycleTracking | _ => TCycleSync
  end%nat.
Lemma data_at_index d : data_at (tallied_index d) = d.
Proof. destruct d; reflexivity. Qed.

Notation fields := (fun row : report K * time_row => tallies_fields show show64 (fst row) (snd row)).

Lemma fields_plain row : Forall plain (fields row).
Proof. unfold tallies_fields. cbv zeta. repeat (constructor; [first [apply show_N_plain | apply Hshow | apply Hshow64]|]). constructor. Qed.
Lemma fields_line row : is_line 17 (fields row).
Proof.
  split; [reflexivity|]. split; eapply Forall_impl; [|apply fields_plain| |apply fields_plain]; [exact plain_semicolon|exact plain_eol].
Qed.
Lemma header_line : is_line 17 tallies_header.
Proof. split; [reflexivity|]. split; repeat constructor. Qed.

Lemma fields_read row i : (i < 17)%nat -> read_field parse (map trim (fields row)) i = Ok (quantity value (data_at i) row).
Proof.
  intros Hi. unfold read_field. rewrite nth_error_map.
  assert (E : exists s, nth_error (fields row) i = Some s /\ plain s /\ parse s = Some (quantity value (data_at i) row)).
  { do 17 (destruct i as [|i]; [eexists; split; [reflexivity|];
      split; [first [apply show_N_plain | apply Hshow | apply Hshow64] | first [apply HN | apply Hshow | apply Hshow64]]|]). lia. }
  destruct E as (s & E & Hp & Hv). rewrite E. cbn [option_map unwrap rbind]. rewrite trim_free by (apply plain_blank, Hp). rewrite Hv. reflexivity.
Qed.

Lemma print_all_app rows : (forall r t, In (r, t) rows -> rp_cycle r <> 0) -> forall content,
  print_all show show64 (Some content) rows = Ok (Some (content ++ csv_text (map fields rows))%string).
Proof.
  induction rows as [|[r t] rows IH]; intros H content; [cbn; rewrite app_nil_s; reflexivity|]. cbn [print_all]. unfold print_csv.
  destruct (N.eqb_spec (rp_cycle r) 0) as [E|_]; [exfalso; apply (H r t); [left; reflexivity|exact E]|]. cbn [unwrap rbind].
  rewrite IH by (intros r' t' Hin; apply (H r' t'); right; exact Hin). cbn [map csv_text fst snd]. rewrite app_assoc_s. reflexivity.
Qed.
Lemma nrange_nonzero n : forall lo, lo <> 0 -> ~ In 0 (nrange lo n).
Proof. induction n as [|n IH]; intros lo Hl; cbn; [tauto|]. intros [E|E]; [congruence|]. apply (IH (N.succ lo)); [lia|exact E]. Qed.
Lemma print_all_text rows : map (fun row => rp_cycle (fst row)) rows = nrange 0 (List.length rows) -> rows <> [] -> forall file,
  print_all show show64 file rows = Ok (Some (csv_text (tallies_header :: map fields rows))).
Proof.
  destruct rows as [|[r t] rows]; intros Hc Hn file; [congruence|]. clear Hn. cbn [map List.length nrange fst] in Hc. injection Hc as Hr Hrows.
  cbn [print_all]. unfold print_csv. rewrite Hr. cbn [N.eqb unwrap rbind]. rewrite print_all_app.
  - cbn [map csv_text fst snd]. rewrite app_assoc_s. reflexivity.
  - intros r' t' Hin E. apply (nrange_nonzero (List.length rows) 1 ltac:(lia)). rewrite <- Hrows, <- E.
    change (rp_cycle r') with (rp_cycle (fst (r', t'))). apply (in_map (fun row : report K * time_row => rp_cycle (fst row))). exact Hin.
Qed.

Theorem tallies_read_back rows file : rows <> [] -> map (fun row => rp_cycle (fst row)) rows = nrange 0 (List.length rows) ->
  exists text columns, print_all show show64 file rows = Ok (Some text) /\ (exists rest, text = csv_line tallies_header ++ rest)%string /\
    read_tallies parse text = Ok columns /\ List.length columns = n_tallied_data /\
    forall d, nth_error tallies_header (tallied_index d) = Some (written_name d) /\ nth_error columns (tallied_index d) = Some (map (quantity value d) rows).
Proof.
  intros Hn Hc. exists (csv_text (tallies_header :: map fields rows)), (map (column_of (fun i => quantity value (data_at i)) rows) (seq 0 17)).
  split; [apply print_all_text; assumption|]. split; [eexists; reflexivity|]. split; [|split].
  - unfold read_tallies. rewrite (records_of_text 17) ; [|lia|].
    + cbn [rbind]. exact (read_lines_spec parse 17 (fun i => quantity value (data_at i)) fields (fun a i => fields_read a i) rows []).
    + constructor; [exact header_line|]. apply Forall_forall. intros l Hin. apply in_map_iff in Hin as (row & <- & _). apply fields_line.
  - reflexivity.
  - intros d. split; destruct d; reflexivity.
Qed.
End Tallies.

(** ** The timers *)
Section Timers.
Context {D : FloatOps}.
Variable show_micros : N -> string.
Variable show_percent : F D -> string.
Variable parse : string -> option (F D).
Hypothesis Hmicros : reads_back show_micros parse fof_N.
Hypothesis Hpercent : forall x, plain (show_percent x).

Notation fields := (timer_fields show_micros show_percent).
Notation line c s := (timer_line_of (K := D) c s).

Lemma section_free s : free is_semicolon (section_text s) /\ free is_eol (section_text s).
Proof. destruct s; split; repeat constructor. Qed.
Lemma timer_is_line c s : is_line 7 (fields (line c s)).
Proof.
  split; [reflexivity|]. split.
  - constructor; [apply section_free|]. repeat (constructor; [apply plain_semicolon; first [apply show_N_plain|apply Hmicros|apply Hpercent]|]). constructor.
  - constructor; [apply section_free|]. repeat (constructor; [apply plain_eol; first [apply show_N_plain|apply Hmicros|apply Hpercent]|]). constructor.
Qed.
Lemma timer_header_line : is_line 7 timers_header.
Proof. split; [reflexivity|]. split; repeat constructor. Qed.

Lemma timers_csv_text c : timers_csv show_micros show_percent c = csv_text (timers_header :: map (fun s => fields (line c s)) all_sections).
Proof.
  assert (G : forall l acc, fold_left (fun content x => (content ++ csv_line (fields x))%string) l acc = (acc ++ csv_text (map fields l))%string).
  { induction l as [|x l IH]; intros acc; cbn [fold_left map csv_text]; [rewrite app_nil_s; reflexivity|]. rewrite IH, app_assoc_s. reflexivity. }
  unfold timers_csv, cumulative_report. rewrite G, map_map. reflexivity.
Qed.

Lemma micros_field c s i v : nth_error (fields (line c s)) i = Some (show_micros v) -> read_field parse (map trim (fields (line c s))) i = Ok (fof_N v).
Proof.
  intros E. unfold read_field. rewrite nth_error_map, E. cbn [option_map unwrap rbind]. rewrite trim_free by apply plain_blank, Hmicros.
  destruct (Hmicros v) as (_ & ->). reflexivity.
Qed.
Lemma summary_read c s : read_summary parse (map trim (fields (line c s))) = Ok (summary_of c s).
Proof.
  unfold read_summary. rewrite (micros_field c s 2 _ eq_refl). cbn [rbind]. rewrite (micros_field c s 3 _ eq_refl). cbn [rbind].
  rewrite (micros_field c s 4 _ eq_refl). cbn [rbind]. rewrite (micros_field c s 5 _ eq_refl). reflexivity.
Qed.

Theorem timers_read_back c : exists reports, read_timers parse (timers_csv show_micros show_percent c) = Ok reports /\ List.length reports = 6%nat /\
  forall s, nth_error reports (section_index s) = Some (summary_of c s).
Proof.
  exists (map (summary_of c) all_sections). split; [|split; [reflexivity|intros []; reflexivity]].
  unfold read_timers. rewrite timers_csv_text, (records_of_text 7); [|lia|].
  - cbn [rbind all_sections map]. cbn [read_timer_lines]. 
    repeat (rewrite summary_read; cbn [List.length repeat Nat.ltb Nat.leb rassert rbind list_set read_timer_lines]). reflexivity.
  - constructor; [exact timer_header_line|]. apply Forall_forall. intros l Hin. apply in_map_iff in Hin as (s & <- & _). apply timer_is_line.
Qed.
End Timers.

(** ** Of a whole run *)
Theorem run_tallies_read_back (K D : FloatOps) (show : F K -> string) (show64 : F D -> string) parse (value : F K -> F D) fuel cfuel (md : mcdata K) d s times file :
  reads_back show parse value -> reads_back show64 parse (fun x => x) -> (forall n, parse (show_N n) = Some (fof_N n)) ->
  core_loop fuel cfuel md (initial_sim md d) (Ok s) -> sp_n_steps (mc_params md) <> 0 -> List.length times = List.length (s_reports s) ->
  exists text columns, print_all show show64 file (combine (s_reports s) times) = Ok (Some text) /\ read_tallies parse text = Ok columns /\
    forall d, nth_error tallies_header (tallied_index d) = Some (written_name d) /\
      nth_error columns (tallied_index d) = Some (map (quantity value d) (combine (s_reports s) times)).
Proof.
  intros Hs H64 HN Hrun Hn Ht. destruct (run_chained fuel cfuel md d s Hrun) as (Hc & _).
  assert (Hlen : List.length (s_reports s) = N.to_nat (sp_n_steps (mc_params md))). { rewrite <- (map_length rp_cycle), Hc. apply nrange_length. }
  assert (Hm : map (fun row : report K * time_row => rp_cycle (fst row)) (combine (s_reports s) times) = map rp_cycle (s_reports s)).
  { clear - Ht. revert times Ht. induction (s_reports s) as [|r l IH]; intros [|t times] Ht; try discriminate Ht; [reflexivity|]. cbn. f_equal. apply IH. cbn in Ht. lia. }
  destruct (tallies_read_back show show64 parse value Hs H64 HN (combine (s_reports s) times) file) as (text & columns & A & _ & B & _ & C).
  - intros E. apply (f_equal (@List.length _)) in E. rewrite combine_length in E. cbn in E. lia.
  - rewrite Hm, Hc, combine_length. f_equal. lia.
  - exists text, columns. auto.
Qed.
