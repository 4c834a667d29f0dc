(** Proofs about the statistics in exact arithmetic. *)
From Coq Require Import Reals Lra List Bool NArith Lia.
From Verif Require Import Float RealOps StatSpec CsvModel StatModel.
Import ListNotations.
Local Open Scope R_scope.

Notation var := (new_variable (D := Rops)).

Lemma fsum_total (l : list R) : fsum (K := Rops) l = total l.
Proof.
  unfold fsum. change (@f0 Rops) with 0. change (@fadd Rops) with Rplus.
  assert (G : forall l a, fold_left Rplus l a = a + total l). { induction l0 as [|x l0 IH]; intros a; [cbn; lra|]. cbn [fold_left]. rewrite IH. change (total (x :: l0)) with (x + total l0). lra. }
  rewrite G. lra.
Qed.
Lemma of_nat_INR n : fof_N (f := Rops) (N.of_nat n) = INR n.
Proof. cbn. rewrite nat_N_Z, <- INR_IZR_INZ. reflexivity. Qed.

Lemma total_cons x l : total (x :: l) = x + total l.
Proof. reflexivity. Qed.
Lemma total_map_plus {A} (f g : A -> R) l : total (map (fun x => f x + g x) l) = total (map f l) + total (map g l).
Proof. induction l as [|x l IH]; [cbn; lra|]. cbn [map]. rewrite !total_cons, IH. lra. Qed.
Lemma total_map_scal {A} c (f : A -> R) l : total (map (fun x => c * f x) l) = c * total (map f l).
Proof. induction l as [|x l IH]; [cbn; lra|]. cbn [map]. rewrite !total_cons, IH. lra. Qed.
Lemma total_map_const {A} c (l : list A) : total (map (fun _ => c) l) = INR (length l) * c.
Proof. induction l as [|x l IH]; [cbn; lra|]. cbn [map length]. rewrite total_cons, IH, S_INR. lra. Qed.
Lemma total_nonneg {A} (f : A -> R) l : (forall x, In x l -> 0 <= f x) -> 0 <= total (map f l).
Proof. induction l as [|x l IH]; intros H; [cbn; lra|]. cbn [map]. rewrite total_cons. assert (0 <= f x) by (apply H; left; reflexivity). assert (0 <= total (map f l)) by (apply IH; intros; apply H; right; assumption). lra. Qed.
Lemma total_zero {A} (f : A -> R) l : (forall x, In x l -> 0 <= f x) -> total (map f l) = 0 -> forall x, In x l -> f x = 0.
Proof.
  induction l as [|x l IH]; intros H E y Hy; [destruct Hy|]. cbn [map] in E. rewrite total_cons in E. assert (0 <= f x) by (apply H; left; reflexivity).
  assert (0 <= total (map f l)) by (apply total_nonneg; intros; apply H; right; assumption).
  destruct Hy as [<-|Hy]; [lra|]. apply IH; [intros; apply H; right; assumption|lra|assumption].
Qed.

Definition dev (l : list R) (x : R) : R := x - average l.

Lemma var_values (l : list R) : va_values (var l) = l.
Proof. reflexivity. Qed.
Lemma var_mean (l : list R) : va_mean (var l) = average l.
Proof. unfold new_variable. cbv zeta. cbn [va_mean]. rewrite fsum_total, of_nat_INR. reflexivity. Qed.
Lemma var_variance (l : list R) : va_variance (var l) = spread l.
Proof.
  unfold new_variable. cbv zeta. cbn [va_variance]. rewrite (fsum_total (map _ l)), (fsum_total l), of_nat_INR. unfold spread. fold (average l).
  unfold average at 1. rewrite map_length. change (fdiv (f := Rops)) with Rdiv. f_equal. f_equal. apply map_ext. intros x. change ((x - average l) * (x - average l) = (x - average l) ^ 2). ring.
Qed.
Lemma cov_value (l m : list R) : length l = length m -> covariance (var l) (var m) = Ok (joint_spread l m).
Proof.
  intros H. unfold covariance. rewrite !var_values, !var_mean. change (@length (F Rops)) with (@length R). rewrite <- H. rewrite Nat.eqb_refl. cbn [rassert rbind]. rewrite fsum_total, of_nat_INR.
  apply (f_equal (@Ok R)). unfold joint_spread. unfold average at 3. rewrite map_length, combine_length, <- H, Nat.min_id. reflexivity.
Qed.

Lemma INR_pos {A} (l : list A) : l <> [] -> 0 < INR (length l).
Proof. destruct l; [congruence|]. intros _. apply lt_0_INR. cbn. lia. Qed.

Theorem spread_nonneg l : 0 <= spread l.
Proof.
  unfold spread, average at 1. destruct l as [|x l]; [cbn; unfold Rdiv; lra|]. apply Rmult_le_pos.
  - apply total_nonneg. intros. apply pow2_ge_0.
  - left. apply Rinv_0_lt_compat. rewrite map_length. apply INR_pos. discriminate.
Qed.
Lemma average_const l c : l <> [] -> (forall x, In x l -> x = c) -> average l = c.
Proof.
  intros Hn H. unfold average. replace (total l) with (INR (length l) * c).
  - field. apply Rgt_not_eq, INR_pos, Hn.
  - rewrite <- total_map_const. f_equal. rewrite <- (map_id l) at 2. apply map_ext_in. intros x Hx. symmetry. apply H. exact Hx.
Qed.
Theorem spread_zero l : spread l = 0 <-> constant l.
Proof.
  destruct l as [|x0 l0] eqn:El; [split; intros _; [exists 0; intros x []|unfold spread, average; cbn; unfold Rdiv; lra]|]. rewrite <- El. assert (Hn : l <> []) by congruence. clear El.
  pose proof (INR_pos l Hn) as Hp. split.
  - intros E. unfold spread, average at 1 in E. rewrite map_length in E.
    assert (E' : total (map (fun x => (x - average l) ^ 2) l) = 0). { apply (Rmult_eq_reg_r (/ INR (length l))); [unfold Rdiv in E; lra|]. apply Rinv_neq_0_compat. lra. }
    exists (average l). intros x Hx. pose proof (total_zero (fun x => (x - average l) ^ 2) l (fun y _ => pow2_ge_0 _) E' x Hx) as Z. cbn beta in Z.
    destruct (Req_dec (x - average l) 0) as [Q|Q]; [lra|]. pose proof (pow_nonzero _ 2 Q). contradiction.
  - intros (c & H). pose proof (average_const l c Hn H) as Ha. unfold spread, average at 1. rewrite Ha.
    replace (total (map (fun x => (x - c) ^ 2) l)) with 0; [unfold Rdiv; lra|]. symmetry. rewrite (map_ext_in _ (fun _ => 0)); [rewrite total_map_const; lra|].
    intros x Hx. rewrite (H x Hx). ring.
Qed.

(** ** Cauchy and Schwarz *)
Lemma cauchy_schwarz {A} (f g : A -> R) l : total (map (fun x => f x * g x) l) ^ 2 <= total (map (fun x => f x ^ 2) l) * total (map (fun x => g x ^ 2) l).
Proof.
  set (a := total (map (fun x => f x ^ 2) l)). set (b := total (map (fun x => f x * g x) l)). set (c := total (map (fun x => g x ^ 2) l)).
  assert (Ha : 0 <= a) by (apply total_nonneg; intros; apply pow2_ge_0). assert (Hc : 0 <= c) by (apply total_nonneg; intros; apply pow2_ge_0).
  assert (Q : forall t, 0 <= a + t * (-2 * b) + t ^ 2 * c).
  { intros t. unfold a, b, c. rewrite <- !total_map_scal, <- !total_map_plus. apply total_nonneg. intros x _.
    replace (f x ^ 2 + t * (-2 * (f x * g x)) + t ^ 2 * g x ^ 2) with ((f x - t * g x) ^ 2) by ring. apply pow2_ge_0. }
  destruct (Req_dec c 0) as [Z|Z].
  - assert (b = 0). { destruct (Req_dec b 0) as [|Nb]; [assumption|]. exfalso. specialize (Q ((a + 1) / (2 * b))). rewrite Z in Q.
      replace (a + (a + 1) / (2 * b) * (-2 * b) + ((a + 1) / (2 * b)) ^ 2 * 0) with (-1) in Q by (field; assumption). lra. }
    rewrite H, Z. lra.
  - assert (Hp : 0 < c) by lra. specialize (Q (b / c)). replace (a + b / c * (-2 * b) + (b / c) ^ 2 * c) with ((a * c - b ^ 2) / c) in Q by (field; lra).
    assert (0 <= a * c - b ^ 2). { apply (Rmult_le_reg_r (/ c)); [apply Rinv_0_lt_compat; exact Hp|]. unfold Rdiv in Q. lra. } lra.
Qed.

Lemma map_fst_combine {A B} (f : A -> R) (l : list A) : forall (m : list B), length l = length m -> map (fun xy => f (fst xy)) (combine l m) = map f l.
Proof. induction l as [|x l IH]; intros [|y m] H; try discriminate H; [reflexivity|]. cbn. f_equal. apply IH. cbn in H. lia. Qed.
Lemma map_snd_combine {A B} (f : B -> R) (m : list B) : forall (l : list A), length l = length m -> map (fun xy => f (snd xy)) (combine l m) = map f m.
Proof. induction m as [|y m IH]; intros [|x l] H; try discriminate H; [reflexivity|]. cbn. f_equal. apply IH. cbn in H. lia. Qed.

Lemma joint_bound l m : length l = length m -> joint_spread l m ^ 2 <= spread l * spread m.
Proof.
  intros H. destruct l as [|x0 l0] eqn:El; [destruct m; [|discriminate H]; unfold joint_spread, spread, average; cbn; unfold Rdiv; lra|].
  rewrite <- El in * . assert (Hn : l <> []) by congruence. clear El x0 l0. pose proof (INR_pos l Hn) as Hp.
  unfold joint_spread, spread. unfold average at 1 4 6. rewrite !map_length, combine_length, <- H, Nat.min_id.
  pose proof (cauchy_schwarz (fun xy => fst xy - average l) (fun xy => snd xy - average m) (combine l m)) as CS. cbn beta in CS.
  rewrite (map_fst_combine (fun x => (x - average l) ^ 2) l m H) in CS. rewrite (map_snd_combine (fun y => (y - average m) ^ 2) m l H) in CS.
  rewrite (map_ext (fun '(x, y) => (x - average l) * (y - average m)) (fun xy : R * R => (fst xy - average l) * (snd xy - average m))) by (intros [x y]; reflexivity).
  set (B := total _) in * . set (A := total (map (fun x => (x - average l) ^ 2) l)) in * . set (C := total (map (fun y => (y - average m) ^ 2) m)) in * . set (n := INR (length l)) in * .
  replace ((B / n) ^ 2) with (B ^ 2 * / (n * n)) by (field; lra). replace (A / n * (C / n)) with (A * C * / (n * n)) by (field; lra).
  apply Rmult_le_compat_r; [|exact CS]. left. apply Rinv_0_lt_compat. apply Rmult_lt_0_compat; exact Hp.
Qed.

(** ** The correlation *)
Lemma correlation_value l m : length l = length m -> correlation (var l) (var m) =
  Ok (if Req_EM_T (spread l) 0 then 0 else if Req_EM_T (spread m) 0 then 0 else joint_spread l m / sqrt (spread l * spread m)).
Proof.
  intros H. unfold correlation. rewrite !var_variance, (cov_value l m H). change (feq (f := Rops)) with Reqb. change (@f0 Rops) with 0. unfold Reqb.
  destruct (Req_EM_T (spread l) 0); cbn [orb]; [reflexivity|]. destruct (Req_EM_T (spread m) 0); reflexivity.
Qed.

Theorem correlation_bound (l m : list R) : length l = length m -> exists r, correlation (var l) (var m) = Ok r /\ -1 <= r <= 1.
Proof.
  intros H. rewrite (correlation_value l m H). eexists. split; [reflexivity|]. destruct (Req_EM_T (spread l) 0); [lra|]. destruct (Req_EM_T (spread m) 0); [lra|].
  pose proof (spread_nonneg l). pose proof (spread_nonneg m). assert (P : 0 < spread l * spread m) by (apply Rmult_lt_0_compat; lra).
  pose proof (sqrt_lt_R0 _ P) as Hs. pose proof (joint_bound l m H) as J. set (s := sqrt (spread l * spread m)) in * . set (j := joint_spread l m) in * .
  assert (E : s * s = spread l * spread m) by (apply sqrt_sqrt; lra).
  assert (Q : j ^ 2 <= s ^ 2) by (replace (s ^ 2) with (s * s) by ring; rewrite E; exact J).
  assert (-s <= j <= s). { apply Rabs_le_inv || idtac. apply Rabs_def2_le || idtac. split; nra. }
  split; apply (Rmult_le_reg_r s); try assumption; unfold Rdiv; rewrite ?Rmult_assoc, ?Rinv_l by lra; lra.
Qed.

Lemma joint_sym l : forall m, length l = length m -> joint_spread l m = joint_spread m l.
Proof.
  intros m H. unfold joint_spread. unfold average at 1 4. rewrite !map_length, !combine_length, (Nat.min_comm (length l)). f_equal. f_equal.
  generalize (average l), (average m). intros a b. clear - H. revert m H. induction l as [|x l IH]; intros [|y m] H; try discriminate H; [reflexivity|]. cbn. f_equal; [ring|]. apply IH. cbn in H. lia.
Qed.
Theorem correlation_sym (l m : list R) : length l = length m -> correlation (var l) (var m) = correlation (var m) (var l).
Proof.
  intros H. rewrite (correlation_value l m H), (correlation_value m l (eq_sym H)), (joint_sym l m H), (Rmult_comm (spread l)).
  destruct (Req_EM_T (spread l) 0), (Req_EM_T (spread m) 0); reflexivity.
Qed.
Theorem correlation_constant (l m : list R) : length l = length m -> constant l \/ constant m -> correlation (var l) (var m) = Ok 0.
Proof.
  intros H C. rewrite (correlation_value l m H). destruct (Req_EM_T (spread l) 0) as [|A]; [reflexivity|]. destruct (Req_EM_T (spread m) 0) as [|B]; [reflexivity|].
  exfalso. destruct C as [C|C]; apply spread_zero in C; contradiction.
Qed.

(** A change of units changes nothing but the sign. *)
Lemma average_affine a b l : l <> [] -> average (map (fun x => a * x + b) l) = a * average l + b.
Proof.
  intros Hn. pose proof (INR_pos l Hn). unfold average. rewrite map_length, (total_map_plus (fun x => a * x) (fun _ => b)), total_map_const, total_map_scal, map_id. field. lra.
Qed.
Lemma spread_affine a b l : l <> [] -> spread (map (fun x => a * x + b) l) = a ^ 2 * spread l.
Proof.
  intros Hn. unfold spread. rewrite (average_affine a b l Hn). rewrite map_map. unfold average at 1 3. rewrite !map_length.
  rewrite (map_ext _ (fun x => a ^ 2 * (x - average l) ^ 2)) by (intros x; ring). rewrite total_map_scal. unfold Rdiv. ring.
Qed.
Lemma joint_affine a b l m : length l = length m -> l <> [] -> joint_spread (map (fun x => a * x + b) l) m = a * joint_spread l m.
Proof.
  intros H Hn. unfold joint_spread. rewrite (average_affine a b l Hn). unfold average at 1 4. rewrite !map_length, !combine_length, !map_length. unfold Rdiv. rewrite <- Rmult_assoc. f_equal.
  rewrite <- total_map_scal. f_equal. generalize (average l), (average m). intros u v. clear - H. revert m H.
  induction l as [|x l IH]; intros [|y m] H; try discriminate H; [reflexivity|]. cbn. f_equal; [ring|]. apply IH. cbn in H. lia.
Qed.
Theorem correlation_affine a b (l m : list R) r : length l = length m -> a <> 0 -> correlation (var l) (var m) = Ok r ->
  correlation (var (map (fun x => a * x + b) l)) (var m) = Ok (if Rlt_dec 0 a then r else - r).
Proof.
  intros H Ha. rewrite (correlation_value l m H), (correlation_value _ m) by (rewrite map_length; exact H). intros E.
  assert (E' : r = (if Req_EM_T (spread l) 0 then 0 else if Req_EM_T (spread m) 0 then 0 else joint_spread l m / sqrt (spread l * spread m))) by (symmetry; exact (f_equal (fun o => match o with Ok a => a | _ => 0 end) E)). subst r. clear E.
  destruct l as [|x0 l0] eqn:El.
  { cbn [map]. assert (Z : spread [] = 0) by (unfold spread, average; cbn; unfold Rdiv; lra). destruct (Req_EM_T (spread []) 0); [|contradiction].
    apply (f_equal (@Ok R)). destruct (Rlt_dec 0 a); lra. }
  rewrite <- El in * . assert (Hn : l <> []) by congruence. clear El x0 l0.
  apply (f_equal (@Ok R)). rewrite (spread_affine a b l Hn), (joint_affine a b l m H Hn).
  destruct (Req_EM_T (spread l) 0) as [Z|Z].
  { destruct (Req_EM_T (a ^ 2 * spread l) 0) as [Q|Q]; [|exfalso; apply Q; rewrite Z; ring]. destruct (Rlt_dec 0 a); lra. }
  destruct (Req_EM_T (a ^ 2 * spread l) 0) as [Q|_].
  { exfalso. apply Rmult_integral in Q as [Q|Q]; [|contradiction]. exact (pow_nonzero a 2 Ha Q). }
  destruct (Req_EM_T (spread m) 0) as [Y|Y]; [destruct (Rlt_dec 0 a); lra|].
  pose proof (spread_nonneg l). pose proof (spread_nonneg m). assert (P : 0 < spread l * spread m) by (apply Rmult_lt_0_compat; lra). pose proof (sqrt_lt_R0 _ P) as Hs.
  rewrite Rmult_assoc, sqrt_mult_alt by apply pow2_ge_0. destruct (Rlt_dec 0 a) as [G|G].
  - rewrite sqrt_pow2 by lra. field. lra.
  - replace (a ^ 2) with ((- a) ^ 2) by ring. rewrite sqrt_pow2 by lra. field. lra.
Qed.
Lemma joint_self l : joint_spread l l = spread l.
Proof.
  unfold joint_spread, spread. f_equal. generalize (average l). intros a. induction l as [|x l IH]; [reflexivity|]. cbn [combine map]. rewrite IH. f_equal. ring.
Qed.
Theorem correlation_self (l : list R) : ~ constant l -> correlation (var l) (var l) = Ok 1.
Proof.
  intros H. rewrite (correlation_value l l eq_refl). destruct (Req_EM_T (spread l) 0) as [E|E]; [exfalso; apply H, spread_zero, E|].
  rewrite joint_self. pose proof (spread_nonneg l). rewrite sqrt_square by assumption. apply (f_equal (@Ok R)). field. exact E.
Qed.
(** Series of different lengths, neither constant: a panic. *)
Theorem correlation_lengths (l m : list R) : length l <> length m -> ~ constant l -> ~ constant m -> correlation (var l) (var m) = Panic.
Proof.
  intros H A B. unfold correlation. rewrite !var_variance. change (feq (f := Rops)) with Reqb. change (@f0 Rops) with 0. unfold Reqb.
  destruct (Req_EM_T (spread l) 0) as [E|_]; [exfalso; apply A, spread_zero, E|]. destruct (Req_EM_T (spread m) 0) as [E|_]; [exfalso; apply B, spread_zero, E|].
  cbn [orb]. unfold covariance. rewrite !var_values. change (@length (F Rops)) with (@length R). destruct (Nat.eqb_spec (length l) (length m)); [contradiction|reflexivity].
Qed.
