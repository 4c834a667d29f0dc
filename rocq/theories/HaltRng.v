(** Draws of exactly zero or one do not come twice in a row (C67). *)
From Coq Require Import NArith ZArith List Bool Reals Lra Lia.
From Verif Require Import Float RealOps RngModel RngLemmas.
Import ListNotations.
Local Open Scope N_scope.

(** The states from which a zero or a one is drawn. *)
Definition extreme (s : N) : bool := (s =? 0) || (two64 - 1024 <=? s).

Lemma extreme_iff s : s < two64 -> (extreme s = true <-> round53 s = 0 \/ round53 s = two64).
Proof.
  intros H. unfold extreme. rewrite orb_true_iff, N.eqb_eq, N.leb_le, (round53_zero s H), (round53_top s H). tauto.
Qed.

Lemma all_below (P : N -> bool) n : forallb P (map N.of_nat (seq 0 n)) = true -> forall k, k < N.of_nat n -> P k = true.
Proof.
  intros H k Hk. rewrite forallb_forall in H. apply H. apply in_map_iff. exists (N.to_nat k). split; [apply N2Nat.id|].
  apply in_seq. lia.
Qed.

Definition after_top (k : N) : bool := negb (extreme (rng_next (two64 - 1024 + k))).
Lemma after_tops : forallb after_top (map N.of_nat (seq 0 1024)) = true. Proof. vm_compute. reflexivity. Qed.
Lemma after_zero : extreme (rng_next 0) = false. Proof. vm_compute. reflexivity. Qed.

Lemma no_two_extremes s : s < two64 -> extreme s = true -> extreme (rng_next s) = false.
Proof.
  intros Hs H. unfold extreme in H at 1. apply orb_true_iff in H as [H|H].
  - apply N.eqb_eq in H. subst s. exact after_zero.
  - apply N.leb_le in H. pose proof (all_below after_top 1024 after_tops (s - (two64 - 1024))) as A.
    assert (E : two64 - 1024 + (s - (two64 - 1024)) = s) by (unfold two64 in * ; lia).
    unfold after_top in A. rewrite E in A. apply negb_true_iff, A. unfold two64 in * . lia.
Qed.

(** What is drawn from another state is at least one ulp away from one. *)
Lemma round53_gap n : n < two64 -> round53 n <> two64 -> round53 n <= two64 - 2048.
Proof.
  intros H2 Hn. destruct (N.lt_ge_cases n 9007199254740992) as [H1|H1].
  - rewrite round53_spec_small by exact H1. unfold two64. lia.
  - assert (T : n < two64 - 1024). { destruct (N.lt_ge_cases n (two64 - 1024)) as [C|C]; [exact C|]. apply (round53_top n H2) in C. contradiction. }
    pose proof (round53_le n H2) as L. destruct (round53_close n H1 H2) as [He [U1 [U2 [q [Eq Hq]]]]]. cbv zeta in * .
    set (e := N.log2 n - 52) in * . rewrite Eq in * . clear Eq.
    assert (D : e <= 11 /\ e <> 0 \/ e = 0 \/ 11 < e) by lia.
    destruct (N.lt_ge_cases 11 e) as [C|C].
    { exfalso. assert (2 ^ 12 <= 2 ^ e) by (apply N.pow_le_mono_r; lia). assert (2 ^ 12 * 4503599627370496 <= q * 2 ^ e) by nia.
      assert (q * 2 ^ e = two64) by (unfold two64 in * ; change (2 ^ 12) with 4096 in * ; lia). contradiction. }
    assert (E64 : two64 = 9007199254740992 * 2 ^ (11 - e) * 2 ^ e).
    { rewrite <- N.mul_assoc, <- N.pow_add_r. replace (11 - e + e) with 11 by lia. reflexivity. }
    destruct (N.eq_dec e 11) as [-> |Ne].
    + change (2 ^ 11) with 2048 in * . unfold two64 in * . lia.
    + assert (2 ^ e <= 2 ^ 10) by (apply N.pow_le_mono_r; lia). assert (q * 2 ^ e <= 9007199254740992 * 2 ^ 10) by nia.
      change (2 ^ 10) with 1024 in * . unfold two64. lia.
Qed.

Local Open Scope R_scope.
Lemma draw_gap s : (s < two64)%N -> extreme s = false -> 0 < fsample (f := Rops) s <= 1 - / 2 ^ 53.
Proof.
  intros Hs He. cbn [fsample Rops]. assert (N0 : round53 s <> 0%N /\ round53 s <> two64).
  { split; intros C; assert (X : extreme s = true) by (apply extreme_iff; auto); rewrite X in He; discriminate. }
  destruct N0 as (N0 & N1). pose proof (round53_gap s Hs N1) as G.
  assert (P : 0 < IZR (Z.of_N (round53 s)) <= 18446744073709551616 - 2048).
  { split; [apply (IZR_lt 0); lia|]. rewrite <- minus_IZR. apply IZR_le. unfold two64 in G. lia. }
  replace (IZR (Z.of_N two64)) with 18446744073709551616 by reflexivity. set (x := IZR (Z.of_N (round53 s))) in * . clearbody x.
  split; [apply Rdiv_lt_0_compat; lra|]. replace (/ 2 ^ 53) with (2048 / 18446744073709551616) by (simpl; field). lra.
Qed.
Lemma paths_gap s : (s < two64)%N -> extreme s = false -> / 2 ^ 53 <= - ln (fsample (f := Rops) s).
Proof.
  intros Hs He. destruct (draw_gap s Hs He) as (H0 & H1). generalize dependent (fsample (f := Rops) s). change (F Rops) with R. intros x H0 H1.
  assert (L : ln x <= x - 1). { pose proof (exp_ineq1_le (ln x)) as A. rewrite exp_ln in A by exact H0. lra. }
  lra.
Qed.
Lemma paths_extreme s : (s < two64)%N -> extreme s = true -> - ln (fsample (f := Rops) s) = 0.
Proof.
  intros Hs He. apply (extreme_iff s Hs) in He. cbn [fsample Rops]. destruct He as [-> | ->].
  - cbn [Z.of_N]. unfold Rdiv. rewrite Rmult_0_l. unfold ln. destruct (Rlt_dec 0 0) as [C|C]; [exfalso; exact (Rlt_irrefl 0 C)|apply Ropp_0].
  - unfold Rdiv. rewrite Rinv_r; [|unfold two64; apply not_0_IZR; discriminate]. rewrite ln_1. apply Ropp_0.
Qed.
