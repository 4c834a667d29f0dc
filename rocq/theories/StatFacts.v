(** Proofs about the tables written by the statistics tool. *)
From Coq Require Import Reals Lra Arith NArith ZArith QArith List Bool String Ascii Lia.
From Verif Require Import Float RealOps TimerModel CsvModel StatModel.
Import ListNotations.
Local Open Scope N_scope.

Lemma rmap_total {A B} (f : A -> result B) (g : A -> B) l : (forall x, In x l -> f x = Ok (g x)) -> rmap f l = Ok (map g l).
Proof.
  induction l as [|x l IH]; intros H; [reflexivity|]. cbn [rmap map]. rewrite (H x) by (left; reflexivity). cbn [rbind].
  rewrite IH by (intros y Hy; apply H; right; exact Hy). reflexivity.
Qed.

Lemma nth_error_Some_ex {A} (l : list A) i : (i < List.length l)%nat -> exists x, nth_error l i = Some x.
Proof. intros H. destruct (nth_error l i) eqn:E; [eauto|]. apply nth_error_None in E. lia. Qed.

(** ** The correlations *)
Section Table.
Context {D : FloatOps}.

Lemma correlation_total (x y : variable D) : List.length (va_values x) = List.length (va_values y) -> exists r, correlation x y = Ok r.
Proof.
  intros H. unfold correlation. destruct (feq (va_variance x) f0 || feq (va_variance y) f0); [eauto|]. unfold covariance. rewrite H, Nat.eqb_refl. cbn. eauto.
Qed.

Theorem saved_correlations (show6 : F D -> string) (columns : list (list (F D))) n : List.length columns = n_tallied_data -> Forall (fun c => List.length c = n) columns ->
  exists data lines, correlation_results (map new_variable columns) = Ok data /\ save_correlation show6 data = Ok (correlation_header :: lines) /\
    map (hd ""%string) lines = map tallied_text correlation_rows /\ tl correlation_header = map tallied_text correlation_cols /\
    forall row col, In row correlation_rows -> In col correlation_cols -> exists i j line x y r,
      nth_error correlation_rows i = Some row /\ nth_error correlation_cols j = Some col /\ nth_error lines i = Some line /\
      nth_error columns (tallied_index row) = Some x /\ nth_error columns (tallied_index col) = Some y /\
      correlation (new_variable x) (new_variable y) = Ok r /\ nth_error (tl line) j = Some (show6 r).
Proof.
  intros Hl Hn. set (column d := nth (tallied_index d) columns []).
  assert (Hc : forall d, nth_error columns (tallied_index d) = Some (column d)).
  { intros d. apply nth_error_nth'. rewrite Hl. destruct d; cbn; unfold n_tallied_data; lia. }
  assert (Hlen : forall d, List.length (column d) = n).
  { intros d. rewrite Forall_forall in Hn. apply Hn. eapply nth_error_In, Hc. }
  set (val d e := match correlation (new_variable (column d)) (new_variable (column e)) with Ok r => r | _ => f0 end).
  assert (Hval : forall d e, correlation (new_variable (column d)) (new_variable (column e)) = Ok (val d e)).
  { intros d e. unfold val. destruct (correlation_total (new_variable (column d)) (new_variable (column e))) as (r & ->); [|reflexivity]. cbn [va_values new_variable]. rewrite !Hlen. reflexivity. }
  assert (Hdata : correlation_results (map new_variable columns) = Ok (List.concat (map (fun d => map (val d) correlation_cols) correlation_rows))).
  { unfold correlation_results. rewrite (rmap_total _ (fun d => map (val d) correlation_cols)); [reflexivity|]. intros d _. apply rmap_total. intros e _.
    unfold report_get. rewrite !nth_error_map, !Hc. cbn [option_map unwrap rbind]. apply Hval. }
  exists (List.concat (map (fun d => map (val d) correlation_cols) correlation_rows)), (map (fun d => tallied_text d :: map (fun e => show6 (val d e)) correlation_cols) correlation_rows).
  split; [exact Hdata|]. split; [reflexivity|]. split; [reflexivity|]. split; [reflexivity|]. intros row col Hr Hco.
  apply In_nth_error in Hr as (i & Hi). apply In_nth_error in Hco as (j & Hj).
  exists i, j, (tallied_text row :: map (fun e => show6 (val row e)) correlation_cols), (column row), (column col), (val row col).
  split; [exact Hi|]. split; [exact Hj|]. split; [rewrite nth_error_map, Hi; reflexivity|]. split; [apply Hc|]. split; [apply Hc|]. split; [apply Hval|].
  cbn [tl]. rewrite nth_error_map, Hj. reflexivity.
Qed.

(** ** The comparison *)
Theorem saved_comparison (old new : list (summary D)) : List.length old = 6%nat -> List.length new = 6%nat ->
  exists lines, save_comparison old new = Ok lines /\ List.length lines = 6%nat /\
    forall s, exists o n, nth_error old (section_index s) = Some o /\ nth_error new (section_index s) = Some n /\
      nth_error lines (section_index s) = Some (section_name s, su_total o, su_total n, fmul (fdiv (fsub (su_mean n) (su_mean o)) (su_mean o)) (flit (100 # 1))).
Proof.
  intros Ho Hn. destruct old as [|o0 [|o1 [|o2 [|o3 [|o4 [|o5 [|]]]]]]]; try discriminate Ho. destruct new as [|n0 [|n1 [|n2 [|n3 [|n4 [|n5 [|]]]]]]]; try discriminate Hn.
  eexists. split; [reflexivity|]. split; [reflexivity|]. intros s. destruct s; do 2 eexists; repeat (split; [reflexivity|]); reflexivity.
Qed.

(** ** The scaling studies *)
Definition threads_at (t_init t_factor : N) (i : nat) : N := t_init * t_factor ^ N.of_nat i.
Definition study_file (root : string) (n : N) : string := (root ++ show_N n ++ ".csv")%string.
(** The ideal average tracking time of run [i], knowing that of run 0. *)
Definition ideal_time (ty : scaling_type) (reference : F D) (i : nat) : F D :=
  match ty with Weak => reference | Strong factor => fdiv reference (fof_N (factor ^ N.of_nat i)) end.

Lemma threads_defined t_init t_factor n : (forall i, (i < n)%nat -> threads_at t_init t_factor i < 2 ^ 64 /\ t_factor ^ N.of_nat i < 2 ^ 64) ->
  rmap (fun idx => do q <- upow t_factor idx ; umul t_init q) (seq 0 n) = Ok (map (threads_at t_init t_factor) (seq 0 n)).
Proof.
  intros H. apply rmap_total. intros i Hi. apply in_seq in Hi. destruct (H i ltac:(lia)) as (A & B). unfold threads_at in A. unfold upow, umul. cbv zeta.
  destruct (N.ltb_spec (t_factor ^ N.of_nat i) (2 ^ 64)) as [_|E]; [|lia]. cbn [rbind]. destruct (N.ltb_spec (t_init * t_factor ^ N.of_nat i) (2 ^ 64)) as [_|E]; [reflexivity|lia].
Qed.

Lemma map_seq_nth {A} (f : nat -> A) n i : (i < n)%nat -> nth_error (map f (seq 0 n)) i = Some (f i).
Proof. intros H. rewrite nth_error_map, (nth_error_nth' _ 0%nat) by (rewrite seq_length; exact H). rewrite seq_nth by exact H. reflexivity. Qed.

Theorem scaling_study (files : string -> option (list (summary D))) root t_init t_iter t_factor ty :
  (forall i, (i < N.to_nat t_iter)%nat -> threads_at t_init t_factor i < 2 ^ 64 /\ t_factor ^ N.of_nat i < 2 ^ 64) ->
  (forall i, (i < N.to_nat t_iter)%nat -> exists r, files (study_file root (threads_at t_init t_factor i)) = Some r /\ List.length r = 6%nat) ->
  (ty = Weak \/ ty = Strong t_factor) -> t_iter <> 0 ->
  exists study tracking others, scaling_results files root t_init t_iter t_factor ty = Ok study /\
    sg_threads study = map (threads_at t_init t_factor) (seq 0 (N.to_nat t_iter)) /\ sg_type study = ty /\
    save_tracking study = Ok tracking /\ save_others study = Ok others /\ List.length tracking = N.to_nat t_iter /\ List.length others = N.to_nat t_iter /\
    exists reference, forall i, (i < N.to_nat t_iter)%nat -> exists r main population tracked process sorted sync,
      files (study_file root (threads_at t_init t_factor i)) = Some r /\
      nth_error r (section_index SMain) = Some main /\ nth_error r (section_index SPopulationControl) = Some population /\
      nth_error r (section_index SCycleTracking) = Some tracked /\ nth_error r (section_index SCycleTrackingProcess) = Some process /\
      nth_error r (section_index SCycleTrackingSort) = Some sorted /\ nth_error r (section_index SCycleSync) = Some sync /\
      (i = 0%nat -> reference = su_mean tracked) /\
      nth_error (sg_tracking study) i = Some (su_mean tracked) /\
      nth_error tracking i = Some (threads_at t_init t_factor i, su_mean tracked, ideal_time ty reference i, su_mean process, su_mean sorted) /\
      nth_error others i = Some (threads_at t_init t_factor i, su_mean main, su_mean population, su_mean sync).
Proof.
  intros Hov Hf Hty Hn. set (n := N.to_nat t_iter) in * . set (th := threads_at t_init t_factor).
  set (rep i := match files (study_file root (th i)) with Some r => r | None => [] end).
  assert (Hrep : forall i, (i < n)%nat -> files (study_file root (th i)) = Some (rep i) /\ List.length (rep i) = 6%nat).
  { intros i Hi. destruct (Hf i Hi) as (r & A & B). unfold rep, th. rewrite A. auto. }
  set (zero := mkSummary (D := D) f0 f0 f0 f0). set (get s i := nth (section_index s) (rep i) zero).
  assert (Hget : forall s i, (i < n)%nat -> nth_error (rep i) (section_index s) = Some (get s i)).
  { intros s i Hi. apply nth_error_nth'. destruct (Hrep i Hi) as (_ & ->). destruct s; cbn; lia. }
  set (mn s i := su_mean (get s i)).
  assert (Hreports : rmap (fun k => unwrap (files (study_file root k))) (map th (seq 0 n)) = Ok (map rep (seq 0 n))).
  { assert (G : forall l, (forall i, In i l -> (i < n)%nat) -> rmap (fun k => unwrap (files (study_file root k))) (map th l) = Ok (map rep l)).
    { induction l as [|i l IH]; intros Hl; [reflexivity|]. cbn [map rmap]. destruct (Hrep i) as (-> & _); [apply Hl; left; reflexivity|]. cbn [unwrap rbind].
      rewrite IH by (intros k Hk; apply Hl; right; exact Hk). reflexivity. }
    apply G. intros i Hi. apply in_seq in Hi. lia. }
  assert (Hmeans : forall s, rmap (fun r => do x <- timers_get r s ; Ok (su_mean x)) (map rep (seq 0 n)) = Ok (map (mn s) (seq 0 n))).
  { intros s. assert (G : forall l, (forall i, In i l -> (i < n)%nat) -> rmap (fun r => do x <- timers_get r s ; Ok (su_mean x)) (map rep l) = Ok (map (mn s) l)).
    { induction l as [|i l IH]; intros Hl; [reflexivity|]. cbn [map rmap]. unfold timers_get at 1. rewrite (Hget s i) by (apply Hl; left; reflexivity). cbn [unwrap rbind].
      rewrite IH by (intros k Hk; apply Hl; right; exact Hk). reflexivity. }
    apply G. intros i Hi. apply in_seq in Hi. lia. }
  set (study := mkScaling (map th (seq 0 n)) (map (mn SMain) (seq 0 n)) (map (mn SPopulationControl) (seq 0 n)) (map (mn SCycleTracking) (seq 0 n))
    (map (mn SCycleTrackingProcess) (seq 0 n)) (map (mn SCycleTrackingSort) (seq 0 n)) (map (mn SCycleSync) (seq 0 n)) ty).
  assert (Hn0 : (0 < n)%nat) by (unfold n; lia).
  assert (Hideal : forall i, (i < n)%nat -> ideal_tracking ty (mn SCycleTracking 0%nat) i = Ok (ideal_time ty (mn SCycleTracking 0%nat) i)).
  { intros i Hi. destruct Hty as [-> | ->]; [reflexivity|]. unfold ideal_tracking, ideal_time, upow. cbv zeta. destruct (Hov i Hi) as (_ & B).
    destruct (N.ltb_spec (t_factor ^ N.of_nat i) (2 ^ 64)); [reflexivity|lia]. }
  exists study, (map (fun i => (th i, mn SCycleTracking i, ideal_time ty (mn SCycleTracking 0%nat) i, mn SCycleTrackingProcess i, mn SCycleTrackingSort i)) (seq 0 n)),
    (map (fun i => (th i, mn SMain i, mn SPopulationControl i, mn SCycleSync i)) (seq 0 n)).
  split. { unfold scaling_results. fold n. rewrite (threads_defined t_init t_factor n Hov). cbn [rbind]. fold th. unfold study_file in Hreports. rewrite Hreports. cbn [rbind]. cbv zeta.
    rewrite !Hmeans. reflexivity. }
  split; [reflexivity|]. split; [reflexivity|].
  split. { unfold save_tracking, study. cbn [sg_tracking sg_threads sg_process sg_sort sg_type]. rewrite (map_seq_nth _ n 0 Hn0). cbn [unwrap rbind]. rewrite !map_length, seq_length, Nat.eqb_refl. cbn [rassert rbind].
    apply rmap_total. intros i Hi. apply in_seq in Hi. rewrite Hideal by lia. rewrite !map_seq_nth by lia. reflexivity. }
  split. { unfold save_others, study. cbn [sg_total sg_threads sg_population sg_sync]. rewrite !map_length, seq_length, Nat.eqb_refl. cbn [rassert rbind].
    apply rmap_total. intros i Hi. apply in_seq in Hi. rewrite !map_seq_nth by lia. reflexivity. }
  split; [rewrite map_length, seq_length; reflexivity|]. split; [rewrite map_length, seq_length; reflexivity|].
  exists (mn SCycleTracking 0%nat). intros i Hi. exists (rep i), (get SMain i), (get SPopulationControl i), (get SCycleTracking i), (get SCycleTrackingProcess i), (get SCycleTrackingSort i), (get SCycleSync i).
  split; [apply Hrep; exact Hi|]. do 6 (split; [apply Hget; exact Hi|]). split; [intros ->; reflexivity|]. unfold study. cbn [sg_tracking]. rewrite !map_seq_nth by exact Hi. auto.
Qed.
End Table.

(** ** Percentages and speedups in exact arithmetic *)
Local Open Scope R_scope.

Theorem change_of_means (o n : R) : 0 < o -> let change := (n - o) / o * 100 in n = o * (1 + change / 100) /\ (0 < change <-> o < n) /\ (change < 0 <-> n < o).
Proof.
  intros Ho change. assert (E : change * o = (n - o) * 100) by (unfold change; field; lra). split; [unfold change; field; lra|]. split; split; intros H; nra.
Qed.

Theorem speedup_from_one (study : scaling Rops) t_iter t_factor reference : sg_type study = Strong t_factor ->
  sg_threads study = map (threads_at 1 t_factor) (seq 0 (N.to_nat t_iter)) -> nth_error (sg_tracking study) 0 = Some reference -> reference <> 0 ->
  List.length (sg_tracking study) = N.to_nat t_iter -> t_factor <> 0%N ->
  (forall i, (i < N.to_nat t_iter)%nat -> nth_error (sg_tracking study) i = Some (ideal_time (D := Rops) (Strong t_factor) reference i)) ->
  exists points, plotted_speedup study = Ok points /\ List.length points = N.to_nat t_iter /\ forall ideal real, In (ideal, real) points -> ideal = real.
Proof.
  intros Hty Hth Href Hne Hlen Hf Hi. set (n := N.to_nat t_iter) in * .
  exists (map (fun i => (IZR (Z.of_N (threads_at 1 t_factor i)), reference / ideal_time (D := Rops) (Strong t_factor) reference i)) (seq 0 n)).
  split; [|split].
  - unfold plotted_speedup. rewrite Hth, map_length, seq_length, Href, Hty.
    assert (G : forall l, (forall i, In i l -> (i < n)%nat) -> rmap (fun '(idx, k) => do r <- unwrap (Some reference) ; do t <- unwrap (nth_error (sg_tracking study) idx) ; Ok (fof_N (f := Rops) k, fdiv (f := Rops) r t))
      (combine l (map (threads_at 1 t_factor) l)) = Ok (map (fun i => (IZR (Z.of_N (threads_at 1 t_factor i)), reference / ideal_time (D := Rops) (Strong t_factor) reference i)) l)).
    { induction l as [|i l IH]; intros Hl; [reflexivity|]. cbn [map combine rmap]. rewrite IH by (intros k Hk; apply Hl; right; exact Hk).
      rewrite (Hi i) by (apply Hl; left; reflexivity). reflexivity. }
    apply G. intros i Hi'. apply in_seq in Hi'. lia.
  - rewrite map_length, seq_length. reflexivity.
  - intros ideal real Hin. apply in_map_iff in Hin as (i & E & _). apply pair_equal_spec in E as (E1 & E2). rewrite <- E1, <- E2.
    assert (T : threads_at 1 t_factor i = (t_factor ^ N.of_nat i)%N) by (unfold threads_at; apply N.mul_1_l). rewrite T.
    change (ideal_time (D := Rops) (Strong t_factor) reference i) with (reference / IZR (Z.of_N (t_factor ^ N.of_nat i))).
    assert (IZR (Z.of_N (t_factor ^ N.of_nat i)) <> 0). { apply not_0_IZR. assert (t_factor ^ N.of_nat i <> 0)%N by (apply N.pow_nonzero; exact Hf). lia. }
    revert Hne. change (F Rops) with R in * . change (@f0 Rops) with 0. intros Hne. field. split; assumption.
Qed.
