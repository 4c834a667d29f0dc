(** Proofs about the random number generator. *)
From Coq Require Import NArith ZArith Znumtheory List Bool Lia Arith FinFun.
From Verif Require Import RngModel.
Import ListNotations.
Local Open Scope N_scope.

(** * The linear congruential step *)

Section LCG.
  Local Open Scope Z_scope.
  Variable a c : Z.
  Hypothesis Ha : exists h, a = 4 * h + 1.
  Hypothesis Hc : exists h, c = 2 * h + 1.

  Fixpoint geo (n : nat) : Z :=
    match n with O => 0 | S n => geo n * a + 1 end.

  Fixpoint apow (n : nat) : Z := match n with O => 1 | S n => a * apow n end.

  Lemma apow_geo n : apow n - 1 = (a - 1) * geo n.
  Proof. induction n as [|n IH]; cbn [apow geo]; [ring|]. nia. Qed.

  Lemma apow_1_mod4 n : exists h, apow n = 4 * h + 1.
  Proof.
    destruct Ha as [h Hh].
    induction n as [|n [k Hk]]; cbn [apow]; [exists 0; ring|].
    rewrite Hk, Hh. exists (4 * h * k + h + k). ring.
  Qed.

  Lemma geo_add n m : geo (n + m) = geo n * apow m + geo m.
  Proof.
    induction m as [|m IH].
    - rewrite Nat.add_0_r. cbn. ring.
    - rewrite Nat.add_succ_r. cbn [geo apow]. rewrite IH. ring.
  Qed.

  Lemma geo_double n : geo (n + n) = geo n * (1 + apow n).
  Proof. rewrite geo_add. ring. Qed.

  Lemma geo_parity n : exists h, geo n - Z.of_nat n = 2 * h.
  Proof.
    destruct Ha as [h Hh].
    induction n as [|n [k Hk]]; cbn [geo]; [exists 0; reflexivity|].
    exists (k + 2 * h * geo n). rewrite Nat2Z.inj_succ, Hh. lia.
  Qed.

  Lemma odd_coprime_pow2 x k : (exists h, x = 2 * h + 1) -> rel_prime (2 ^ Z.of_nat k) x.
  Proof.
    intros [h Hh]. apply rel_prime_sym.
    induction k as [|k IH]; [apply rel_prime_sym, rel_prime_1|].
    - rewrite Nat2Z.inj_succ, Z.pow_succ_r by lia.
      apply rel_prime_mult; [|exact IH].
      apply rel_prime_sym. apply prime_rel_prime; [apply prime_2|].
      intros [q Hq]. lia.
  Qed.

  Lemma geo_val k : forall n, (2 ^ Z.of_nat k | geo n) <-> (2 ^ Z.of_nat k | Z.of_nat n).
  Proof.
    induction k as [|k IH]; intros n.
    - cbn. split; intros _; apply Z.divide_1_l.
    - rewrite Nat2Z.inj_succ, Z.pow_succ_r by lia.
      destruct (Nat.Even_or_Odd n) as [[m Hm]|[m Hm]].
      + subst n. replace (2 * m)%nat with (m + m)%nat by lia.
        rewrite geo_double. destruct (apow_1_mod4 m) as [h Hh]. rewrite Hh.
        replace (geo m * (1 + (4 * h + 1))) with (2 * (geo m * (2 * h + 1))) by ring.
        replace (Z.of_nat (m + m)) with (2 * Z.of_nat m) by lia.
        assert (D : forall x y, (2 * x | 2 * y) <-> (x | y)).
        { intros x y. split; intros [q Hq]; exists q; lia. }
        rewrite !D. rewrite <- IH. split; intros Hd.
        * apply Gauss with (2 * h + 1); [rewrite Z.mul_comm; exact Hd|].
          apply odd_coprime_pow2. exists h; reflexivity.
        * apply Z.divide_mul_l. exact Hd.
      + destruct (geo_parity n) as [h Hh].
        split; intros [q Hq]; exfalso; lia.
  Qed.

  (** closed form of the n-th state *)
  Fixpoint lin_iter (n : nat) (s : Z) : Z :=
    match n with O => s | S n => a * lin_iter n s + c end.

  Lemma lin_iter_form n s : lin_iter n s - s = geo n * ((a - 1) * s + c).
  Proof.
    induction n as [|n IH]; cbn [lin_iter geo]; [ring|].
    replace (lin_iter n s) with (s + geo n * ((a - 1) * s + c)) by lia. ring.
  Qed.

  Lemma lin_iter_period k n s :
    (2 ^ Z.of_nat k | lin_iter n s - s) <-> (2 ^ Z.of_nat k | Z.of_nat n).
  Proof.
    rewrite lin_iter_form, <- geo_val. split; intros H.
    - apply Gauss with ((a - 1) * s + c); [rewrite Z.mul_comm; exact H|].
      apply odd_coprime_pow2. destruct Ha as [h Hh], Hc as [g Hg].
      exists (2 * h * s + g). rewrite Hh, Hg. ring.
    - apply Z.divide_mul_l. exact H.
  Qed.
End LCG.

Definition lcg_a : Z := 2862933555777941757%Z.
Definition lcg_c : Z := 3037000493%Z.

Lemma lcg_a_mod4 : exists h, (lcg_a = 4 * h + 1)%Z.
Proof. exists 715733388944485439%Z. reflexivity. Qed.
Lemma lcg_c_odd : exists h, (lcg_c = 2 * h + 1)%Z.
Proof. exists 1518500246%Z. reflexivity. Qed.

Lemma two64_pow : Z.of_N two64 = (2 ^ Z.of_nat 64)%Z.
Proof. reflexivity. Qed.

Lemma rng_next_lt s : rng_next s < two64.
Proof. unfold rng_next. apply N.mod_lt. discriminate. Qed.

Lemma rng_next_mod s :
  (Z.of_N (rng_next s) = (lcg_a * Z.of_N s + lcg_c) mod Z.of_N two64)%Z.
Proof.
  unfold rng_next.
  rewrite N2Z.inj_mod, N2Z.inj_add, N2Z.inj_mod, N2Z.inj_mul.
  rewrite Zplus_mod_idemp_l. reflexivity.
Qed.

(** the state after [n] draws *)
Definition rng_iter (n : nat) (s : N) : N := Nat.iter n rng_next s.

Lemma rng_iter_lt n s : s < two64 -> rng_iter n s < two64.
Proof. intros Hs. destruct n; cbn; [exact Hs|apply rng_next_lt]. Qed.

Lemma rng_iter_mod n s :
  s < two64 -> (Z.of_N (rng_iter n s) = lin_iter lcg_a lcg_c n (Z.of_N s) mod Z.of_N two64)%Z.
Proof.
  intros Hs. induction n as [|n IH].
  - cbn [rng_iter Nat.iter nat_rect lin_iter]. rewrite Z.mod_small; [reflexivity|lia].
  - change (rng_iter (S n) s) with (rng_next (rng_iter n s)).
    rewrite rng_next_mod, IH. cbn [lin_iter].
    rewrite (Z.add_mod (lcg_a * _)), (Z.mul_mod lcg_a (_ mod _)) by discriminate.
    rewrite Z.mod_mod by discriminate.
    rewrite <- Z.mul_mod, <- Z.add_mod by discriminate. reflexivity.
Qed.

Lemma rng_iter_return n s : s < two64 ->
  (rng_iter n s = s <-> (Z.of_N two64 | Z.of_nat n)%Z).
Proof.
  intros Hs.
  rewrite two64_pow, <- (lin_iter_period lcg_a lcg_c lcg_a_mod4 lcg_c_odd 64 n (Z.of_N s)).
  rewrite <- two64_pow.
  rewrite <- N2Z.inj_iff, rng_iter_mod by exact Hs.
  split; intros H.
  - assert (H2 : (Z.of_N s mod Z.of_N two64 = Z.of_N s)%Z) by (apply Z.mod_small; lia).
    apply Z.mod_divide; [discriminate|].
    rewrite Zminus_mod, H, H2. rewrite Z.sub_diag. reflexivity.
  - destruct H as [q Hq].
    replace (lin_iter lcg_a lcg_c n (Z.of_N s)) with (Z.of_N s + q * Z.of_N two64)%Z by lia.
    rewrite Z.mod_add by discriminate. apply Z.mod_small. lia.
Qed.

(** inverse of the multiplier modulo 2^64 *)
Lemma rng_next_inj s t : s < two64 -> t < two64 -> rng_next s = rng_next t -> s = t.
Proof.
  intros Hs Ht H. apply N2Z.inj.
  apply (f_equal Z.of_N) in H. rewrite !rng_next_mod in H.
  assert (D : (Z.of_N two64 | lcg_a * (Z.of_N s - Z.of_N t))%Z).
  { apply Z.mod_divide; [discriminate|].
    replace (lcg_a * (Z.of_N s - Z.of_N t))%Z
      with ((lcg_a * Z.of_N s + lcg_c) - (lcg_a * Z.of_N t + lcg_c))%Z by ring.
    rewrite Zminus_mod, H, Z.sub_diag. reflexivity. }
  apply Gauss in D.
  - destruct D as [q Hq].
    assert (q = 0)%Z by nia. nia.
  - rewrite two64_pow. apply odd_coprime_pow2.
    exists 1431466777888970878%Z. reflexivity.
Qed.

Lemma rng_iter_add n m s : rng_iter (n + m) s = rng_iter n (rng_iter m s).
Proof. unfold rng_iter. induction n as [|n IH]; cbn; [reflexivity|]. f_equal. exact IH. Qed.

Lemma rng_iter_inj_state n s t : s < two64 -> t < two64 -> rng_iter n s = rng_iter n t -> s = t.
Proof.
  intros Hs Ht. induction n as [|n IH]; [intros H; exact H|].
  change (rng_iter (S n) s) with (rng_next (rng_iter n s)).
  change (rng_iter (S n) t) with (rng_next (rng_iter n t)).
  intros H. apply IH. apply rng_next_inj in H; auto using rng_iter_lt.
Qed.

Lemma rng_iter_distinct s i j : s < two64 ->
  N.of_nat i < two64 -> N.of_nat j < two64 -> rng_iter i s = rng_iter j s -> i = j.
Proof.
  assert (W : forall i j, (i <= j)%nat -> s < two64 -> N.of_nat j < two64 ->
              rng_iter i s = rng_iter j s -> i = j).
  { clear i j. intros i j Hle Hs Hj H.
    replace j with (i + (j - i))%nat in H by lia.
    rewrite rng_iter_add in H.
    apply rng_iter_inj_state in H; [|exact Hs|apply rng_iter_lt; exact Hs].
    symmetry in H. apply rng_iter_return in H; [|exact Hs].
    destruct H as [q Hq].
    assert (q = 0)%Z by nia. lia. }
  intros Hs Hi Hj H. destruct (Nat.le_ge_cases i j) as [L|L].
  - apply W; auto.
  - symmetry. apply W; auto.
Qed.

(** Pigeonhole: an injective map of [0,2^64) into itself is onto. *)
Lemma rng_iter_onto s t : s < two64 -> t < two64 ->
  exists n, N.of_nat n < two64 /\ rng_iter n s = t.
Proof.
  intros Hs Ht.
  pose (M := N.to_nat two64).
  pose (f := fun n => N.to_nat (rng_iter n s)).
  assert (HM : forall n, (n < M)%nat <-> N.of_nat n < two64) by (intros n; unfold M; lia).
  assert (B : bFun M f).
  { intros n _. unfold f. apply HM. rewrite N2Nat.id. apply rng_iter_lt. exact Hs. }
  assert (I : bInjective M f).
  { intros i j Hi Hj H. unfold f in H. apply N2Nat.inj in H.
    apply (rng_iter_distinct s); auto; apply HM; assumption. }
  assert (S : bSurjective M f) by (apply bInjective_bSurjective; assumption).
  destruct (S (N.to_nat t)) as [n [Hn Hf]]; [unfold M; lia|].
  exists n. split; [apply HM; exact Hn|]. unfold f in Hf. lia.
Qed.

(** * Bytes, words *)

Lemma byte_digit i n : byte i n = (n / 2 ^ (8 * i)) mod 256.
Proof. reflexivity. Qed.

Lemma breakup_divmod n : n < two64 -> breakup_u64 n = (n / two32, n mod two32).
Proof.
  intros Hn. unfold breakup_u64, from_be_bytes, byte, two32, two64 in *. cbn [fold_left].
  change (8 * 7) with 56; change (8 * 6) with 48; change (8 * 5) with 40; change (8 * 4) with 32;
  change (8 * 3) with 24; change (8 * 2) with 16; change (8 * 1) with 8; change (8 * 0) with 0.
  change (2 ^ 56) with (2 ^ 32 * (256 * (256 * 256))).
  change (2 ^ 48) with (2 ^ 32 * (256 * 256)).
  change (2 ^ 40) with (2 ^ 32 * 256).
  change (2 ^ 24) with (256 * (256 * 256)).
  change (2 ^ 16) with (256 * 256).
  change (2 ^ 8) with 256. change (2 ^ 0) with 1.
  rewrite N.div_1_r.
  rewrite <- !N.div_div by discriminate.
  change (2 ^ 32) with 4294967296.
  assert (Q : n / 4294967296 < 4294967296).
  { apply N.div_lt_upper_bound; [discriminate|]. exact Hn. }
  set (q := n / 4294967296) in *.
  f_equal.
  - pose proof (N.div_mod q 256). pose proof (N.div_mod (q/256) 256). pose proof (N.div_mod (q/256/256) 256).
    assert (q / 256 / 256 / 256 < 256).
    { rewrite !N.div_div by discriminate. apply N.div_lt_upper_bound; [discriminate|]. exact Q. }
    rewrite (N.mod_small (q/256/256/256)) by assumption. lia.
  - assert (E : n mod 4294967296 = n mod (256 * (256 * (256 * 256)))) by reflexivity.
    rewrite E. rewrite !N.mod_mul_r by discriminate.
    lia.
Qed.

Lemma byte_lt i n : byte i n < 256.
Proof. unfold byte. apply N.mod_lt. discriminate. Qed.

Lemma rebuild_word f b : f < two32 -> b < two32 -> rebuild_u64 f b = f * two32 + b.
Proof.
  intros Hf Hb. unfold rebuild_u64, from_be_bytes, byte, two32 in *. cbn [fold_left].
  change (8 * 3) with 24; change (8 * 2) with 16; change (8 * 1) with 8; change (8 * 0) with 0.
  change (2 ^ 24) with (256 * (256 * 256)).
  change (2 ^ 16) with (256 * 256).
  change (2 ^ 8) with 256. change (2 ^ 0) with 1.
  rewrite !N.div_1_r. rewrite <- !N.div_div by discriminate.
  assert (W : forall q, q < 4294967296 ->
     (((q / 256 / 256 / 256) mod 256 * 256 + (q / 256 / 256) mod 256) * 256 + (q / 256) mod 256) * 256 + q mod 256 = q).
  { intros q Q.
    pose proof (N.div_mod q 256). pose proof (N.div_mod (q/256) 256). pose proof (N.div_mod (q/256/256) 256).
    assert (q / 256 / 256 / 256 < 256).
    { rewrite !N.div_div by discriminate. apply N.div_lt_upper_bound; [discriminate|]. exact Q. }
    rewrite (N.mod_small (q/256/256/256)) by assumption. lia. }
  pose proof (W f Hf). pose proof (W b Hb). lia.
Qed.

Lemma breakup_rebuild n : n < two64 -> rebuild_u64 (fst (breakup_u64 n)) (snd (breakup_u64 n)) = n.
Proof.
  intros Hn. rewrite breakup_divmod by exact Hn. cbn [fst snd].
  rewrite rebuild_word.
  - pose proof (N.div_mod n two32). unfold two32 in *. lia.
  - apply N.div_lt_upper_bound; [discriminate|]. exact Hn.
  - apply N.mod_lt. discriminate.
Qed.

Lemma rebuild_breakup f b : f < two32 -> b < two32 ->
  rebuild_u64 f b < two64 /\ breakup_u64 (rebuild_u64 f b) = (f, b).
Proof.
  intros Hf Hb. rewrite rebuild_word by assumption.
  assert (L : f * two32 + b < two64) by (unfold two32, two64 in *; lia).
  split; [exact L|].
  rewrite breakup_divmod by exact L. f_equal.
  - rewrite N.div_add_l by discriminate. rewrite N.div_small by exact Hb. lia.
  - rewrite N.add_comm, N.mod_add by discriminate. apply N.mod_small. exact Hb.
Qed.

Lemma lxor_lt32 a b : a < two32 -> b < two32 -> N.lxor a b < two32.
Proof.
  intros Ha Hb. unfold two32 in *. change 4294967296 with (2 ^ 32) in *.
  destruct (N.eq_dec (N.lxor a b) 0) as [E|E]; [rewrite E; reflexivity|].
  apply N.log2_lt_pow2; [lia|].
  assert (G : forall x, x < 2 ^ 32 -> x <> 0 -> N.log2 x < 32) by (intros x Hx Hx0; apply N.log2_lt_pow2; lia).
  eapply N.le_lt_trans; [apply N.log2_lxor|].
  apply N.max_lub_lt.
  - destruct (N.eq_dec a 0) as [->|]; [reflexivity|auto].
  - destruct (N.eq_dec b 0) as [->|]; [reflexivity|auto].
Qed.

Lemma des_f_lt c1 c2 r : des_f c1 c2 r < two32.
Proof. unfold des_f, add32. apply N.mod_lt. discriminate. Qed.

Lemma des_round_lt c1 c2 w : fst w < two32 -> snd w < two32 ->
  fst (des_round c1 c2 w) < two32 /\ snd (des_round c1 c2 w) < two32.
Proof. intros H1 H2. split; cbn; [exact H2|]. apply lxor_lt32; [exact H1|apply des_f_lt]. Qed.

(** inverse of a Feistel round *)
Definition des_unround (c1 c2 : N) (w : N * N) : N * N :=
  (N.lxor (snd w) (des_f c1 c2 (fst w)), fst w).

Lemma des_unround_round c1 c2 w : des_unround c1 c2 (des_round c1 c2 w) = w.
Proof.
  destruct w as [l r]. unfold des_unround, des_round. cbn [fst snd].
  rewrite N.lxor_assoc, N.lxor_nilpotent, N.lxor_0_r. reflexivity.
Qed.

Lemma des_round_unround c1 c2 w : des_round c1 c2 (des_unround c1 c2 w) = w.
Proof.
  destruct w as [l r]. unfold des_unround, des_round. cbn [fst snd].
  rewrite N.lxor_assoc, N.lxor_nilpotent, N.lxor_0_r. reflexivity.
Qed.

Lemma pseudo_des_unfold w :
  pseudo_des w = des_round 0x1e17d32c 0xe874f0c3 (des_round 0xbaa96887 0x4b0f3b58 w).
Proof. reflexivity. Qed.

Lemma pseudo_des_lt w : fst w < two32 -> snd w < two32 ->
  fst (pseudo_des w) < two32 /\ snd (pseudo_des w) < two32.
Proof.
  intros H1 H2. rewrite pseudo_des_unfold.
  destruct (des_round_lt 0xbaa96887 0x4b0f3b58 w H1 H2). apply des_round_lt; assumption.
Qed.

Definition pseudo_des_inv (w : N * N) : N * N :=
  des_unround 0xbaa96887 0x4b0f3b58 (des_unround 0x1e17d32c 0xe874f0c3 w).

Lemma pseudo_des_left w : pseudo_des_inv (pseudo_des w) = w.
Proof. unfold pseudo_des_inv. rewrite pseudo_des_unfold, !des_unround_round. reflexivity. Qed.
Lemma pseudo_des_right w : pseudo_des (pseudo_des_inv w) = w.
Proof. unfold pseudo_des_inv. rewrite pseudo_des_unfold, !des_round_unround. reflexivity. Qed.

Lemma pseudo_des_inv_lt w : fst w < two32 -> snd w < two32 ->
  fst (pseudo_des_inv w) < two32 /\ snd (pseudo_des_inv w) < two32.
Proof.
  intros H1 H2. unfold pseudo_des_inv, des_unround. cbn [fst snd].
  split.
  - apply lxor_lt32; [exact H1|apply des_f_lt].
  - apply lxor_lt32; [exact H2|apply des_f_lt].
Qed.

Definition hash_state_inv (h : N) : N :=
  let w := pseudo_des_inv (breakup_u64 h) in rebuild_u64 (fst w) (snd w).

Lemma breakup_lt n : n < two64 -> fst (breakup_u64 n) < two32 /\ snd (breakup_u64 n) < two32.
Proof.
  intros Hn. rewrite breakup_divmod by exact Hn. cbn [fst snd]. split.
  - apply N.div_lt_upper_bound; [discriminate|]. exact Hn.
  - apply N.mod_lt. discriminate.
Qed.

Lemma hash_state_lt n : n < two64 -> hash_state n < two64.
Proof.
  intros Hn. destruct (breakup_lt n Hn) as [H1 H2].
  destruct (pseudo_des_lt _ H1 H2) as [H3 H4].
  apply (rebuild_breakup _ _ H3 H4).
Qed.

Lemma hash_state_inv_lt n : n < two64 -> hash_state_inv n < two64.
Proof.
  intros Hn. destruct (breakup_lt n Hn) as [H1 H2].
  destruct (pseudo_des_inv_lt _ H1 H2) as [H3 H4].
  apply (rebuild_breakup _ _ H3 H4).
Qed.

Lemma hash_state_left n : n < two64 -> hash_state_inv (hash_state n) = n.
Proof.
  intros Hn. destruct (breakup_lt n Hn) as [H1 H2].
  destruct (pseudo_des_lt _ H1 H2) as [H3 H4].
  unfold hash_state_inv, hash_state. cbv zeta.
  destruct (rebuild_breakup _ _ H3 H4) as [_ E]. rewrite E.
  rewrite <- surjective_pairing, pseudo_des_left. apply breakup_rebuild. exact Hn.
Qed.

Lemma hash_state_right n : n < two64 -> hash_state (hash_state_inv n) = n.
Proof.
  intros Hn. destruct (breakup_lt n Hn) as [H1 H2].
  destruct (pseudo_des_inv_lt _ H1 H2) as [H3 H4].
  unfold hash_state_inv, hash_state. cbv zeta.
  destruct (rebuild_breakup _ _ H3 H4) as [_ E]. rewrite E.
  rewrite <- surjective_pairing, pseudo_des_right. apply breakup_rebuild. exact Hn.
Qed.

Lemma hash_state_inj s t : s < two64 -> t < two64 -> hash_state s = hash_state t -> s = t.
Proof.
  intros Hs Ht H. rewrite <- (hash_state_left s Hs), <- (hash_state_left t Ht), H. reflexivity.
Qed.

(** * Rounding of a u64 to 53 bits *)

Lemma log2_bounds n : 9007199254740992 <= n -> n < two64 -> 53 <= N.log2 n <= 63.
Proof.
  intros H1 H2. split.
  - apply N.log2_le_pow2; [lia|]. exact H1.
  - apply N.lt_succ_r. apply N.log2_lt_pow2; [lia|]. exact H2.
Qed.

Lemma round53_spec_small n : n < 9007199254740992 -> round53 n = n.
Proof. intros H. unfold round53. apply N.ltb_lt in H. rewrite H. reflexivity. Qed.

(** [round53 n] is a neighbour of [n]: at most half a unit in the last place away. *)
Lemma round53_close n : 9007199254740992 <= n -> n < two64 ->
  let e := N.log2 n - 52 in
  1 <= e <= 11 /\
  (round53 n <= n + 2 ^ (e - 1)) /\ (n <= round53 n + 2 ^ (e - 1)) /\
  (exists q, round53 n = q * 2 ^ e /\ 4503599627370496 <= q <= 9007199254740992).
Proof.
  intros H1 H2 e. pose proof (log2_bounds n H1 H2) as B.
  assert (He : 1 <= e <= 11) by (unfold e; lia).
  split; [exact He|].
  unfold round53. apply N.ltb_ge in H1 as H1'. rewrite H1'. fold e. cbv zeta.
  assert (P : 2 ^ e = 2 * 2 ^ (e - 1)).
  { replace e with (N.succ (e - 1)) at 1 by lia. rewrite N.pow_succ_r'. reflexivity. }
  assert (P0 : 0 < 2 ^ (e - 1)) by (apply N.neq_0_lt_0, N.pow_nonzero; discriminate).
  pose proof (N.div_mod n (2 ^ e)) as DM.
  assert (ML : n mod 2 ^ e < 2 ^ e) by (apply N.mod_lt; lia).
  assert (NZ : 2 ^ e <> 0) by lia. specialize (DM NZ).
  assert (L1 : 2 ^ (52 + e) <= n).
  { replace (52 + e) with (N.log2 n) by (unfold e; lia). apply N.log2_spec. lia. }
  assert (L2 : n < 2 ^ (53 + e)).
  { replace (53 + e) with (N.succ (N.log2 n)) by (unfold e; lia). apply N.log2_spec. lia. }
  rewrite N.pow_add_r in L1, L2.
  change (2 ^ 52) with 4503599627370496 in L1. change (2 ^ 53) with 9007199254740992 in L2.
  assert (Q1 : 4503599627370496 <= n / 2 ^ e).
  { apply N.div_le_lower_bound; [exact NZ|]. lia. }
  assert (Q2 : n / 2 ^ e < 9007199254740992).
  { apply N.div_lt_upper_bound; [exact NZ|]. lia. }
  set (q := n / 2 ^ e) in *. set (r := n mod 2 ^ e) in *. set (h := 2 ^ (e - 1)) in *.
  destruct (((h <? r) || ((h =? r) && N.odd q))%bool) eqn:E.
  - assert (h <= r).
    { apply orb_true_iff in E. destruct E as [E|E]; [apply N.ltb_lt in E; lia|].
      apply andb_true_iff in E. destruct E as [E _]. apply N.eqb_eq in E. lia. }
    repeat split; [nia|nia|]. exists (q + 1). split; [reflexivity|lia].
  - assert (r <= h).
    { apply orb_false_iff in E. destruct E as [E _]. apply N.ltb_ge in E. exact E. }
    repeat split; [nia|nia|]. exists q. split; [reflexivity|lia].
Qed.

Lemma round53_le n : n < two64 -> round53 n <= two64.
Proof.
  intros H2. destruct (N.lt_ge_cases n 9007199254740992) as [H1|H1].
  - rewrite round53_spec_small by exact H1. unfold two64. lia.
  - destruct (round53_close n H1 H2) as [He [_ [_ [q [Eq Hq]]]]].
    rewrite Eq. set (e := N.log2 n - 52) in *.
    assert (2 ^ e <= 2 ^ 11) by (apply N.pow_le_mono_r; [discriminate|lia]).
    change (2 ^ 11) with 2048 in *. unfold two64. nia.
Qed.

Lemma round53_zero n : n < two64 -> (round53 n = 0 <-> n = 0).
Proof.
  intros H2. destruct (N.lt_ge_cases n 9007199254740992) as [H1|H1].
  - rewrite round53_spec_small by exact H1. reflexivity.
  - destruct (round53_close n H1 H2) as [He [_ [_ [q [Eq Hq]]]]].
    rewrite Eq. set (e := N.log2 n - 52) in *.
    assert (0 < 2 ^ e) by (apply N.neq_0_lt_0, N.pow_nonzero; discriminate).
    split; intros; nia.
Qed.


Lemma round53_top n : n < two64 -> (round53 n = two64 <-> two64 - 1024 <= n).
Proof.
  intros H2. destruct (N.lt_ge_cases n 9007199254740992) as [H1|H1].
  - rewrite round53_spec_small by exact H1. unfold two64. lia.
  - split; intros H.
    + destruct (round53_close n H1 H2) as [He [U1 [U2 [q [Eq Hq]]]]].
      set (e := N.log2 n - 52) in *.
      assert (e = 11) as E11.
      { destruct (N.eq_dec e 11) as [|Ne]; [assumption|exfalso].
        assert (2 ^ e <= 2 ^ 10) by (apply N.pow_le_mono_r; [discriminate|lia]).
        change (2 ^ 10) with 1024 in *. rewrite Eq in H. unfold two64 in H. nia. }
      rewrite E11 in U1. change (2 ^ (11 - 1)) with 1024 in U1. unfold two64 in *. lia.
    + assert (E63 : N.log2 n = 63).
      { apply N.log2_unique; [lia|]. unfold two64 in *.
        change (2 ^ 63) with 9223372036854775808. change (2 ^ N.succ 63) with 18446744073709551616. lia. }
      unfold round53. apply N.ltb_ge in H1. rewrite H1, E63. cbv zeta.
      change (63 - 52) with 11. change (2 ^ 11) with 2048. change (2 ^ (11 - 1)) with 1024.
      pose proof (N.div_mod n 2048) as DM.
      assert (NZ : 2048 <> 0) by discriminate. specialize (DM NZ).
      assert (ML : n mod 2048 < 2048) by (apply N.mod_lt; discriminate).
      unfold two64 in *.
      generalize dependent (n / 2048). generalize dependent (n mod 2048).
      intros r ML q DM.
      assert (Q : q = 9007199254740991) by lia.
      subst q.
      assert (R : 1024 <= r) by lia.
      assert (G : ((1024 <? r) || (1024 =? r) && N.odd 9007199254740991 = true)%bool).
      { change (N.odd 9007199254740991) with true. rewrite andb_true_r.
        destruct (N.eq_dec (r) 1024) as [E|E].
        - rewrite E. reflexivity.
        - apply orb_true_iff. left. apply N.ltb_lt. lia. }
      rewrite G. reflexivity.
Qed.
