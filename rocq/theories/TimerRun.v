(** The timers over a whole run (C52). *)
From Coq Require Import NArith List Bool Lia.
From Verif Require Import Float TrackAccount TimerModel TimerSpec TimerLemmas.
Import ListNotations.
Local Open Scope N_scope.
Local Opaque duration_max.

(** State of the timers: times [l] of the cycles already cleared, time [v] of the current one, sum [C] and number [k] of all the measurements. *)
Definition kept (c : timers) (l : section -> list N) (v C k : section -> N) : Prop :=
  forall s, s <> SMain -> N.of_nat (length (l s)) = tm_n_avg c /\ stats (tm_slot c s) (l s) /\ w_last (sl_watch (tm_slot c s)) = v s /\ v s <= duration_max /\
    w_cumulative (sl_watch (tm_slot c s)) = C s /\ w_calls (sl_watch (tm_slot c s)) = k s.

Lemma kept_adds c c' l v C k (a : section -> list N) : kept c l v C k -> tm_n_avg c' = tm_n_avg c -> (forall s, s <> SMain -> slot_adds (tm_slot c s) (tm_slot c' s) (a s)) ->
  kept c' l (fun s => v s + sum_of (a s)) (fun s => C s + sum_of (a s)) (fun s => k s + N.of_nat (length (a s))).
Proof.
  intros Q En Ha s Hs. destruct (Q s Hs) as (Q1 & Q2 & Q3 & Q4 & Q5 & Q6). destruct (Ha s Hs) as (A1 & A2 & A3 & A4 & A5 & A6 & A7 & A8).
  split; [congruence|]. split; [unfold stats in *; rewrite A1, A2, A3, A4; exact Q2|]. split; [congruence|]. split; [|split; congruence].
  rewrite <- Q3, <- A5. apply A8. rewrite Q3. exact Q4.
Qed.

Lemma kept_clear c c' l v C k : kept c l v C k -> clear_last_cycle_timers c = Ok c' ->
  kept c' (fun s => l s ++ [v s]) (fun _ => 0) C k /\ tm_slot c' SMain = tm_slot c SMain.
Proof.
  intros Q H. unfold clear_last_cycle_timers in H. rb H as z Ez. rb H as x1 E1. rb H as x2 E2. rb H as x3 E3. rb H as x4 E4. rb H as x5 E5. injection H as <-.
  split; [|reflexivity].
  assert (one : forall s y, s <> SMain -> clear_slot (tm_n_avg c + 1) (tm_slot c s) = Ok y -> N.of_nat (length (l s ++ [v s])) = tm_n_avg c + 1 /\ stats y (l s ++ [v s]) /\
    w_last (sl_watch y) = 0 /\ 0 <= duration_max /\ w_cumulative (sl_watch y) = C s /\ w_calls (sl_watch y) = k s).
  { intros s y Hs E. destruct (Q s Hs) as (Q1 & Q2 & Q3 & Q4 & Q5 & Q6). rewrite <- Q1 in E. destruct (clear_stats _ _ _ Q2 ltac:(rewrite Q3; exact Q4) E) as (S1 & S2 & S3 & S4).
    rewrite Q3 in S1. rewrite app_length. cbn [length]. split; [lia|]. split; [exact S1|]. split; [exact S2|]. split; [lia|]. split; congruence. }
  intros s Hs. cbn [tm_n_avg tm_slot]. destruct s; [contradiction|..]; apply one; assumption || discriminate.
Qed.

Section Run.
Variable clock : nat -> N.

Lemma per_cycle_sum s : forall rounds b, sum_of (per_cycle clock s b rounds) = sum_of (all_measured clock s b rounds).
Proof. induction rounds as [|r rounds IH]; intros b; [reflexivity|]. cbn [per_cycle all_measured]. rewrite sum_app, <- IH. reflexivity. Qed.
Lemma per_cycle_length s : forall rounds b, length (per_cycle clock s b rounds) = length rounds.
Proof. induction rounds as [|r rounds IH]; intros b; [reflexivity|]. cbn [per_cycle length]. now rewrite IH. Qed.

Definition row_of (v : section -> N) : time_row := mkTimeRow (v SPopulationControl) (v SCycleTracking) (v SCycleSync).
Definition sync_adds (b : nat) (s : section) : list N := match s with SCycleSync => [elapsed clock b (b + 1)] | _ => [] end.
Definition main_running (c : timers) : Prop := w_start (sl_watch (tm_slot c SMain)) = clock 0 /\ w_calls (sl_watch (tm_slot c SMain)) = 0.

Lemma kept_ext c l v C k v' C' k' : kept c l v C k -> (forall s, s <> SMain -> v s = v' s /\ C s = C' s /\ k s = k' s) -> kept c l v' C' k'.
Proof. intros Q E s Hs. destruct (Q s Hs) as (Q1 & Q2 & Q3 & Q4 & Q5 & Q6), (E s Hs) as (<- & <- & <-). split; [exact Q1|]. split; [exact Q2|]. split; [exact Q3|]. split; [exact Q4|]. split; assumption. Qed.

Lemma sync_first c b l v C k c' rows i : kept c l v C k -> main_running c -> sync_timers clock 0 c b = Ok (c', rows, i) ->
  rows = [] /\ i = (b + 2)%nat /\ main_running c' /\
  kept c' l (fun s => v s + sum_of (sync_adds b s)) (fun s => C s + sum_of (sync_adds b s)) (fun s => k s + N.of_nat (length (sync_adds b s))).
Proof.
  intros Q M H. unfold sync_timers in H. cbn [rbind] in H. rb H as c1 E. injection H as <- <- <-. apply measure_one in E as (A & B & D).
  split; [reflexivity|]. split; [reflexivity|]. split; [unfold main_running; rewrite (D SMain) by discriminate; exact M|].
  apply (kept_adds c); [exact Q|exact A|]. intros s _. specialize (B s). destruct s; exact B.
Qed.
Lemma sync_later n c b l v C k c' rows i : kept c l v C k -> main_running c -> sync_timers clock (S n) c b = Ok (c', rows, i) ->
  rows = [row_of v] /\ i = (b + 2)%nat /\ main_running c' /\
  kept c' (fun s => l s ++ [v s]) (fun s => sum_of (sync_adds b s)) (fun s => C s + sum_of (sync_adds b s)) (fun s => k s + N.of_nat (length (sync_adds b s))).
Proof.
  intros Q M H. unfold sync_timers in H. rb H as q E. destruct q as [c2 rows2]. rb E as c1 E1. injection E as <- <-. rb H as c3 E3. injection H as <- <- <-.
  assert (Q0 : kept (start c SCycleSync (clock b)) l v C k).
  { apply (kept_ext _ _ (fun s => v s + sum_of []) (fun s => C s + sum_of []) (fun s => k s + N.of_nat (@length N []))).
    - apply (kept_adds c _ l v C k (fun _ => []) Q); [reflexivity|]. intros s _. apply start_adds.
    - intros s _. unfold sum_of. cbn. rewrite !N.add_0_r. auto. }
  assert (Es : w_start (sl_watch (tm_slot c1 SCycleSync)) = clock b).
  { unfold clear_last_cycle_timers in E1. rb E1 as z Ez. rb E1 as x1 F1. rb E1 as x2 F2. rb E1 as x3 F3. rb E1 as x4 F4. rb E1 as x5 F5. injection E1 as <-. cbn [tm_slot].
    unfold clear_slot in F5. rb F5 as t1 G1. rb F5 as t2 G2. rb F5 as t3 G3. injection F5 as <-. cbn [sl_watch w_start]. reflexivity. }
  split; [|split; [reflexivity|]].
  - unfold row_of, last_cycle. destruct (Q0 SPopulationControl ltac:(discriminate)) as (_ & _ & -> & _), (Q0 SCycleTracking ltac:(discriminate)) as (_ & _ & -> & _),
      (Q0 SCycleSync ltac:(discriminate)) as (_ & _ & -> & _). reflexivity.
  - destruct (kept_clear _ _ _ _ _ _ Q0 E1) as (Q1 & M1). apply stop_adds in E3 as (A & B & D & _). rewrite Es in B. split.
    + unfold main_running. rewrite (D SMain), M1, start_other by discriminate. exact M.
    + pose proof (kept_adds c1 c3 _ _ _ _ (sync_adds b) Q1 A) as R. apply R. intros s _. specialize (B s). destruct s; exact B.
Qed.
Lemma process_kept r b c c' i l v C k : kept c l v C k -> main_running c -> process_timers clock r c (b + 2) = Ok (c', i) -> i = (b + (6 + 4 * r))%nat /\ main_running c' /\
  kept c' l (fun s => v s + sum_of (process_adds clock r b s)) (fun s => C s + sum_of (process_adds clock r b s)) (fun s => k s + N.of_nat (length (process_adds clock r b s))).
Proof.
  intros Q M H. apply process_add in H as (-> & A & B & D). split; [reflexivity|]. split; [unfold main_running; rewrite D; exact M|]. apply (kept_adds c); [exact Q|exact A|]. intros s _. apply B.
Qed.

Lemma both_adds r b s : s <> SMain -> sync_adds b s ++ process_adds clock r b s = measured clock s b r.
Proof. destruct s; try contradiction; try reflexivity. Qed.

Lemma cycles_kept : forall rounds n c b l v C k c' rows i step, kept c l v C k -> main_running c -> cycle_timers clock (S n) rounds c b = Ok (c', rows, i, step) ->
  step = (S n + length rounds)%nat /\ S i = (b + reading_after rounds)%nat /\ main_running c' /\ exists l' v', 
    kept c' l' v' (fun s => C s + sum_of (all_measured clock s b rounds)) (fun s => k s + N.of_nat (length (all_measured clock s b rounds))) /\
    (forall s, s <> SMain -> l' s ++ [v' s] = (l s ++ [v s]) ++ per_cycle clock s b rounds) /\
    rows ++ [row_of v'] = row_of v :: time_rows clock b rounds.
Proof.
  induction rounds as [|r rounds IH]; intros n c b l v C k c' rows i step Q M H; cbn [cycle_timers] in H.
  - injection H as <- <- <- <-. split; [cbn; lia|]. split; [cbn; lia|]. split; [exact M|]. exists l, v. split; [|split; [intros; now rewrite app_nil_r|reflexivity]].
    apply (kept_ext _ _ v C k); [exact Q|]. intros s _. cbn. lia.
  - rb H as q E1. destruct q as [[c1 rows1] i1]. rb H as q E2. destruct q as [c2 i2]. rb H as q E3. destruct q as [[[c3 rows3] i3] step3]. injection H as <- <- <- <-.
    destruct (sync_later _ _ _ _ _ _ _ _ _ _ Q M E1) as (-> & -> & M1 & Q1). destruct (process_kept _ _ _ _ _ _ _ _ _ Q1 M1 E2) as (-> & M2 & Q2).
    assert (Q2' : kept c2 (fun s => l s ++ [v s]) (fun s => sum_of (measured clock s b r)) (fun s => C s + sum_of (measured clock s b r)) (fun s => k s + N.of_nat (length (measured clock s b r)))).
    { apply (kept_ext _ _ _ _ _ _ _ _ Q2). intros s Hs. rewrite <- (both_adds r b s Hs), sum_app, app_length. lia. }
    destruct (IH _ _ _ _ _ _ _ _ _ _ _ Q2' M2 E3) as (-> & Hi & M3 & l' & v' & Q3 & L3 & R3).
    split; [cbn [length]; lia|]. split; [cbn [reading_after]; lia|]. split; [exact M3|]. exists l', v'. split; [|split].
    + apply (kept_ext _ _ _ _ _ _ _ _ Q3). intros s _. cbn [all_measured]. rewrite sum_app, app_length. lia.
    + intros s Hs. rewrite (L3 s Hs). cbn [per_cycle]. rewrite <- !app_assoc. reflexivity.
    + cbn [app]. rewrite R3. reflexivity.
Qed.

Definition no_cycle (s : section) : list N := [].
Definition zero (s : section) : N := 0.
Lemma kept_start : kept (start timers_default SMain (clock 0)) no_cycle zero zero zero.
Proof.
  intros s Hs. rewrite start_other by exact Hs. unfold no_cycle, zero. cbn [tm_slot timers_default tm_n_avg start set_slot length sl_watch watch_default w_last w_cumulative w_calls].
  split; [reflexivity|]. split; [|split; [reflexivity|split; [lia|split; reflexivity]]]. unfold stats, truncated_mean, sum_of. cbn. repeat split; try lia. constructor.
Qed.

(** The synchronisation at the end of the run, seen by one section. *)
Definition after_all (s : section) (rounds : list nat) : list N := all_measured clock s 1 rounds ++ sync_adds (last_sync rounds) s.

Lemma run_ok rounds c rows : run_timers clock rounds = Ok (c, rows) ->
  rows = time_rows clock 1 rounds /\
  (exists v, kept c (fun s => per_cycle clock s 1 rounds) v (fun s => sum_of (after_all s rounds)) (fun s => N.of_nat (length (after_all s rounds)))) /\
  (let d := elapsed clock 0 (last_sync rounds + 2) in exists w, tm_slot c SMain = mkSlot w d d d d /\ w_calls w = 1).
Proof.
  intros H. unfold run_timers in H. rb H as q E1. destruct q as [[[c1 rows1] i1] step1]. rb H as q E2. destruct q as [[c2 rows2] i2]. rb H as c3 E3. injection H as <- <-.
  assert (M0 : main_running (start timers_default SMain (clock 0))) by (split; reflexivity).
  assert (G : rows1 ++ rows2 = time_rows clock 1 rounds /\ i2 = (last_sync rounds + 2)%nat /\ main_running c2 /\
    exists v, kept c2 (fun s => per_cycle clock s 1 rounds) v (fun s => sum_of (after_all s rounds)) (fun s => N.of_nat (length (after_all s rounds)))).
  { destruct rounds as [|r rounds]; cbn [cycle_timers] in E1.
    - injection E1 as <- <- <- <-. destruct (sync_first _ _ _ _ _ _ _ _ _ kept_start M0 E2) as (-> & -> & M2 & Q2). split; [reflexivity|]. split; [reflexivity|]. split; [exact M2|].
      exists (fun s => sum_of (sync_adds 1 s)). apply (kept_ext _ _ _ _ _ _ _ _ Q2). intros s _. unfold after_all, zero. cbn [all_measured app last_sync reading_after]. repeat split; lia.
    - rb E1 as q F1. destruct q as [[d1 rw1] j1]. rb E1 as q F2. destruct q as [d2 j2]. rb E1 as q F3. destruct q as [[[d3 rw3] j3] st3]. injection E1 as <- <- <- <-.
      destruct (sync_first _ _ _ _ _ _ _ _ _ kept_start M0 F1) as (-> & -> & M1 & Q1). destruct (process_kept _ _ _ _ _ _ _ _ _ Q1 M1 F2) as (-> & M2 & Q2).
      assert (Q2' : kept d2 no_cycle (fun s => sum_of (measured clock s 1 r)) (fun s => sum_of (measured clock s 1 r)) (fun s => N.of_nat (length (measured clock s 1 r)))).
      { apply (kept_ext _ _ _ _ _ _ _ _ Q2). intros s Hs. rewrite <- (both_adds r 1 s Hs), sum_app, app_length. unfold zero. lia. }
      destruct (cycles_kept _ _ _ _ _ _ _ _ _ _ _ _ Q2' M2 F3) as (-> & Hi & M3 & l' & v' & Q3 & L3 & R3).
      cbn [Nat.add] in E2. destruct (sync_later _ _ _ _ _ _ _ _ _ _ Q3 M3 E2) as (-> & -> & M4 & Q4).
      assert (Hj : j3 = last_sync (r :: rounds)) by (unfold last_sync; cbn [reading_after]; lia). subst j3.
      split; [cbn [app time_rows]; exact R3|]. split; [reflexivity|]. split; [exact M4|]. eexists. intros s Hs. destruct (Q4 s Hs) as (A1 & A2 & A3 & A4 & A5 & A6).
      cbn beta in * . rewrite (L3 s Hs) in A1, A2. unfold no_cycle in A1, A2. cbn [app] in A1, A2.
      cbn [per_cycle]. split; [exact A1|]. split; [exact A2|]. split; [exact A3|]. split; [exact A4|]. unfold after_all. cbn [all_measured]. rewrite !sum_app, !app_length. split; [rewrite A5|rewrite A6]; lia. }
  destruct G as (-> & -> & (M1 & M2) & v & Q). split; [reflexivity|]. apply stop_adds in E3 as (A & B & D & S1 & S2). split.
  - exists v. intros s Hs. unfold update_main_stats, set_slot. cbn [tm_n_avg tm_slot]. destruct (section_eqb SMain s) eqn:E; [destruct s; discriminate || contradiction|].
    rewrite (D s Hs), A. apply Q. exact Hs.
  - specialize (B SMain). cbn [section_eqb section_index Nat.eqb] in B. destruct B as (_ & _ & _ & _ & _ & _ & B & _). rewrite M2 in B.
    eexists. unfold update_main_stats, set_slot. cbn [tm_slot section_eqb section_index Nat.eqb]. rewrite S1, S2, M1. split; [reflexivity|exact B].
Qed.

Lemma stats_report rounds s x : rounds <> [] -> stats x (per_cycle clock s 1 rounds) -> section_report clock rounds s x.
Proof.
  intros Hr (T & M & _ & R). pose proof (per_cycle_length s rounds 1) as L. rewrite per_cycle_sum in T. destruct (per_cycle clock s 1 rounds) as [|u l] eqn:E.
  - destruct rounds; [contradiction|discriminate].
  - destruct R as (R1 & R2 & R3). constructor; rewrite ?E; assumption.
Qed.
End Run.
