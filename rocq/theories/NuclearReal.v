(** Energy boundaries (C18), normalisation (C20), choice of the partner (C21) and outcome of a collision
    (C22), in exact arithmetic. *)
From Coq Require Import NArith ZArith QArith Qreals List Bool Reals Lra Lia Sorted.
From Flocq Require Import Core.
From Verif Require Import Float RngModel RealOps ParticleModel NuclearModel MeshTypes Balance TrackModel CycleModel
  TrackAccount FloodLemmas CrossingLemmas PopSpec SourceCount SegmentFacts NuclearSpec NuclearFacts.
Import ListNotations.
Local Open Scope R_scope.

Local Notation id := (fun x : R => x).

(** ** Boundaries *)

Lemma increasing_steps (es : list R) : (forall i a b, nth_error es i = Some a -> nth_error es (S i) = Some b -> a < b) ->
  increasing id es.
Proof.
  intros H. unfold increasing. apply Sorted_StronglySorted; [intros x y z Hxy Hyz; lra|].
  induction es as [|a es IH]; constructor.
  - apply IH. intros i x y Hx Hy. apply (H (S i) x y Hx Hy).
  - destruct es as [|b es]; constructor. apply (H 0%nat a b eq_refl eq_refl).
Qed.

Section Boundaries.
Variables (n : N) (lo hi : R).
Hypothesis Hn : (1 <= n)%N.
Hypothesis Hlo : 0 < lo.
Hypothesis Hhi : lo < hi.
Let delta := ln (hi / lo) / (INR (N.to_nat n) + 1).
Let es : list R := nuclear_energies (K := Rops) n lo hi.

Lemma delta_pos : 0 < delta.
Proof.
  unfold delta. apply Rdiv_lt_0_compat.
  - rewrite <- ln_1. apply ln_increasing; [lra|]. apply (Rmult_lt_reg_r lo); [exact Hlo|].
    unfold Rdiv. rewrite Rmult_assoc, Rinv_l, Rmult_1_l, Rmult_1_r by lra. exact Hhi.
  - pose proof (pos_INR (N.to_nat n)). lra.
Qed.

Lemma ln_hi : ln hi = ln lo + delta * (INR (N.to_nat n) + 1).
Proof.
  unfold delta, Rdiv. rewrite Rmult_assoc, Rinv_l, Rmult_1_r.
  - rewrite ln_mult, ln_Rinv; [ring|lra|lra|apply Rinv_0_lt_compat; lra].
  - pose proof (pos_INR (N.to_nat n)). lra.
Qed.

Lemma es_is : es = lo :: map (fun ii => exp (ln lo + delta * IZR (Z.of_N ii))) (nrange 1 (N.to_nat n - 1)) ++ [hi].
Proof.
  unfold es, nuclear_energies. destruct n as [|p] eqn:E; [lia|]. rewrite <- E.
  replace (N.to_nat n - 1)%nat with (N.to_nat (n - 1)) by lia.
  cbn [fln fof_N fdiv fsub fmul fadd Float.fexp Rops]. f_equal. f_equal. apply map_ext. intros ii.
  f_equal. f_equal. f_equal. unfold delta, Rdiv. rewrite ln_mult, ln_Rinv; [|lra|lra|apply Rinv_0_lt_compat; lra].
  f_equal. f_equal. rewrite N2Z.inj_add, plus_IZR, INR_IZR_INZ, N_nat_Z, E. reflexivity.
Qed.

Lemma es_length : length es = S (N.to_nat n).
Proof. rewrite es_is. cbn [length]. rewrite app_length, map_length, nrange_length. cbn [length]. lia. Qed.
Lemma es_first : nth_error es 0 = Some lo.
Proof. rewrite es_is. reflexivity. Qed.
Lemma es_last : nth_error es (N.to_nat n) = Some hi.
Proof.
  rewrite es_is. destruct (N.to_nat n) as [|k] eqn:E; [lia|]. cbn [nth_error]. replace (S k - 1)%nat with k by lia.
  rewrite nth_error_app2; rewrite map_length, nrange_length; [|lia]. rewrite Nat.sub_diag. reflexivity.
Qed.
Lemma es_at i x : (i < N.to_nat n)%nat -> nth_error es i = Some x -> 0 < x /\ ln x = ln lo + delta * INR i.
Proof.
  intros Hi Hx. destruct i as [|i].
  - rewrite es_first in Hx. injection Hx as <-. cbn [INR]. split; [exact Hlo|ring].
  - rewrite es_is in Hx. cbn [nth_error] in Hx. rewrite nth_error_app1 in Hx by (rewrite map_length, nrange_length; lia).
    rewrite nth_error_map, nrange_nth in Hx by lia. cbn [option_map] in Hx.
    assert (Hx' : exp (ln lo + delta * IZR (Z.of_N (1 + N.of_nat i))) = x) by congruence. rewrite <- Hx'.
    split; [apply exp_pos|]. rewrite ln_exp. f_equal. f_equal. rewrite INR_IZR_INZ. f_equal. lia.
Qed.

Lemma es_widths i a b : nth_error es i = Some a -> nth_error es (S i) = Some b -> 0 < a /\ 0 < b /\
  ((S i < N.to_nat n)%nat -> ln b - ln a = delta) /\ (S i = N.to_nat n -> ln b - ln a = 2 * delta).
Proof.
  intros Ha Hb. assert (Hl : (S i < S (N.to_nat n))%nat) by (rewrite <- es_length; apply nth_error_Some; intros C; pose proof (eq_trans (eq_sym C) Hb); discriminate).
  destruct (es_at i a ltac:(lia) Ha) as [Pa La].
  destruct (Nat.eq_dec (S i) (N.to_nat n)) as [E|E].
  - rewrite E, es_last in Hb. assert (Eb : hi = b) by congruence. rewrite <- Eb. split; [exact Pa|]. split; [lra|].
    split; [intros; lia|]. intros _. rewrite La, ln_hi, <- E, S_INR. ring.
  - destruct (es_at (S i) b ltac:(lia) Hb) as [Pb Lb]. split; [exact Pa|]. split; [exact Pb|]. split; [|intros; lia].
    intros _. rewrite La, Lb, S_INR. ring.
Qed.

Lemma es_increasing : increasing id es.
Proof.
  apply increasing_steps. intros i a b Ha Hb. destruct (es_widths i a b Ha Hb) as (Pa & Pb & W1 & W2).
  pose proof delta_pos as D. apply ln_lt_inv; auto.
  assert (Hl : (S i < S (N.to_nat n))%nat) by (rewrite <- es_length; apply nth_error_Some; intros C; pose proof (eq_trans (eq_sym C) Hb); discriminate).
  destruct (Nat.eq_dec (S i) (N.to_nat n)) as [E|E]; [pose proof (W2 E)|pose proof (W1 ltac:(lia))]; lra.
Qed.

Lemma boundaries : length es = S (N.to_nat n) /\ nth_error es 0 = Some lo /\ nth_error es (N.to_nat n) = Some hi /\
  increasing id es /\
  forall i a b, nth_error es i = Some a -> nth_error es (S i) = Some b ->
    ((S i < N.to_nat n)%nat -> ln b - ln a = delta) /\ (S i = N.to_nat n -> ln b - ln a = 2 * delta).
Proof.
  split; [exact es_length|]. split; [exact es_first|]. split; [exact es_last|]. split; [exact es_increasing|].
  intros i a b Ha Hb. apply (es_widths i a b Ha Hb).
Qed.

End Boundaries.

(** ** Normalisation *)

Lemma pow10_pos x : 0 < fpow10 (f := Rops) x.
Proof. cbn. apply exp_pos. Qed.

Lemma values_kept p : forall (es : list (F Rops)) (n : F Rops), n <> 0 -> snd (reaction_values (K := Rops) p es n) = n.
Proof.
  induction es as [|e0 es IH]; intros n Hn; [reflexivity|]. destruct es as [|e1 es]; [reflexivity|].
  rewrite reaction_values_cons. cbv zeta.
  assert (E : feq (f := Rops) n f0 = false) by (apply Reqb_false; exact Hn). rewrite E, andb_false_r.
  specialize (IH n Hn). destruct (reaction_values (K := Rops) p (e1 :: es) n) as [l m]. exact IH.
Qed.

Lemma values_normal p : forall (es : list (F Rops)) g, first_from_one es g ->
  let (l, m) := reaction_values (K := Rops) p es f0 in nth_error l g = Some m /\ 0 < m.
Proof.
  induction es as [|e0 es IH]; intros g [(hi & Hhi & H1) Hb]; [destruct g; discriminate|].
  destruct es as [|e1 es]; [cbn [nth_error] in Hhi; destruct g; discriminate|].
  rewrite reaction_values_cons. cbv zeta.
  assert (E : feq (f := Rops) f0 f0 = true) by (apply Reqb_iff; reflexivity). rewrite E, andb_true_r.
  destruct g as [|g].
  - cbn [nth_error] in Hhi. assert (Ehi : e1 = hi) by (injection Hhi; auto). rewrite <- Ehi in H1.
    assert (L : fle (f := Rops) f1 e1 = true) by (apply Rleb_iff; exact H1). rewrite L.
    match goal with |- context [reaction_values p (e1 :: es) ?x] => set (v := x) end.
    pose proof (pow10_pos (poly_val p (flog10 (fdiv (fadd (f := Rops) e0 e1) ftwo)))) as P. fold v in P.
    pose proof (values_kept p (e1 :: es) v ltac:(lra)) as Hk.
    destruct (reaction_values (K := Rops) p (e1 :: es) v) as [l m]. cbn [snd] in Hk. subst m. split; [reflexivity|exact P].
  - assert (L : fle (f := Rops) f1 e1 = false).
    { apply Rleb_false. apply (Hb 0%nat e1); [lia|reflexivity]. }
    rewrite L. specialize (IH g).
    assert (Hf : first_from_one (e1 :: es) g).
    { split; [exists hi; split; [exact Hhi|exact H1]|]. intros j x Hj Hx. apply (Hb (S j) x); [lia|exact Hx]. }
    specialize (IH Hf). destruct (reaction_values (K := Rops) p (e1 :: es) f0) as [l m]. exact IH.
Qed.

Lemma reaction_normal t nu (es : list R) p x g : first_from_one es g ->
  nth_error (r_cross_section (reaction_new (K := Rops) t nu es p x)) g = Some x.
Proof.
  intros H. unfold reaction_new. pose proof (values_normal p es g H) as V.   destruct (reaction_values (K := Rops) p es f0) as [l m]. destruct V as [E P]. cbn [r_cross_section].
  rewrite nth_error_map, E. cbn [option_map]. f_equal. cbn [fmul fdiv Rops]. match goal with |- @eq _ ?a ?b => change (@eq R a b) end. field. apply Rgt_not_eq. exact P.
Qed.

(** Sum of a value that depends on the kind. *)
Lemma sum_kinds (s f a : R) : forall n,
  Rsum (map (fun ii : N => match (ii mod 3)%N with 0%N => s | 1%N => f | _ => a end) (nrange 0 n))
  = INR ((n + 2) / 3) * s + INR ((n + 1) / 3) * f + INR (n / 3) * a.
Proof.
  assert (App : forall l x, Rsum (l ++ [x]) = Rsum l + x).
  { induction l as [|y l IH]; intros x; cbn [app Rsum fold_right]; [lra|]. unfold Rsum in IH. rewrite IH. unfold Rsum. lra. }
  induction n as [|n IH]; [cbn; lra|].
  rewrite nrange_snoc, map_app. cbn [map]. rewrite App, IH, N.add_0_l.
  pose proof (mod3_kind (N.of_nat n)) as M. rewrite Nat2N.id in M.
  pose proof (Nat.div_mod n 3 ltac:(lia)) as D. pose proof (Nat.mod_upper_bound n 3 ltac:(lia)) as B.
  assert (Em : (N.of_nat n mod 3 = N.of_nat (n mod 3))%N) by lia. rewrite Em.
  set (q := (n / 3)%nat) in * . set (r := (n mod 3)%nat) in * . clearbody q r. clear M Em.
  assert (Q : forall a b k, (k < 3 -> a = 3 * b + k -> a / 3 = b)%nat).
  { intros x b k Hk ->. rewrite (Nat.mul_comm 3 b), Nat.div_add_l by lia. rewrite Nat.div_small by exact Hk. lia. }
  destruct r as [|[|[|r]]]; [| | |lia].
  - rewrite (Q (n + 2) q 2)%nat by lia. rewrite (Q (n + 1) q 1)%nat by lia. rewrite (Q (S n + 2) (S q) 0)%nat by lia.
    rewrite (Q (S n + 1) q 2)%nat by lia. rewrite (Q (S n) q 1)%nat by lia. cbn [N.of_nat]. rewrite S_INR. ring.
  - rewrite (Q (n + 2) (S q) 0)%nat by lia. rewrite (Q (n + 1) q 2)%nat by lia. rewrite (Q (S n + 2) (S q) 1)%nat by lia.
    rewrite (Q (S n + 1) (S q) 0)%nat by lia. rewrite (Q (S n) q 2)%nat by lia. change (N.of_nat 1) with 1%N. cbv iota. rewrite !S_INR. ring.
  - rewrite (Q (n + 2) (S q) 1)%nat by lia. rewrite (Q (n + 1) (S q) 0)%nat by lia. rewrite (Q (S n + 2) (S q) 2)%nat by lia.
    rewrite (Q (S n + 1) (S q) 1)%nat by lia. rewrite (Q (S n) (S q) 0)%nat by lia. change (N.of_nat 2) with 2%N. cbv iota. rewrite !S_INR. ring.
Qed.

Lemma isotope_total (nd nd' : nuclear_data Rops) xs mp nu gid g : add_isotope nd xs mp nu = Ok (nd', gid) ->
  first_from_one (nd_energies nd) (N.to_nat g) ->
  mp_scattering_ratio mp + mp_fission_ratio mp + mp_absorption_ratio mp <> 0 ->
  get_total_cross_section nd' gid g =
    Ok (mp_total_cross_section mp * present (mp_n_reactions mp) mp
        / (mp_scattering_ratio mp + mp_fission_ratio mp + mp_absorption_ratio mp)).
Proof.
  unfold add_isotope. intros H Hg Hw. rb H as ff E1. rb H as sf E2. rb H as af E3. injection H; intros <- <-. clear H.
  unfold get_total_cross_section. cbn [nd_isotopes].
  match goal with |- (do reactions <- vec_get (?l ++ [?iso]) _ ; _) = _ =>
    rewrite (proj2 (vec_get_nth (l ++ [iso]) (N.of_nat (length l)) iso));
      [|rewrite Nat2N.id, nth_error_app2, Nat.sub_diag by lia; reflexivity] end.
  cbn [rbind].
  set (n := mp_n_reactions mp) in * .
  set (W := mp_scattering_ratio mp + mp_fission_ratio mp + mp_absorption_ratio mp) in * .
  set (sh := fun (ratio : R) (k : N) => mp_total_cross_section mp * ratio / (IZR (Z.of_N k) * W)).
  set (val := fun ii : N => match (ii mod 3)%N with
     | 0%N => sh (mp_scattering_ratio mp) (n_scatter n) | 1%N => sh (mp_fission_ratio mp) (n_fission n)
     | _ => sh (mp_absorption_ratio mp) (n_absorption n) end).
  match goal with |- (do l <- rmap ?f (map ?mk ?l0) ; _) = _ =>
    assert (E : rmap f (map mk l0) = Ok (map val l0)) end.
  { generalize (nrange 0 (N.to_nat n)). induction l as [|ii l IH]; [reflexivity|]. cbn [map rmap]. rewrite IH.
    match goal with |- (do y <- vec_get (r_cross_section ?r) g ; _) = _ =>
      assert (V : vec_get (r_cross_section r) g = Ok (val ii)) end.
    { apply vec_get_nth. unfold val, sh, W.
      assert (SW : mp_fission_ratio mp + mp_scattering_ratio mp + mp_absorption_ratio mp =
                   mp_scattering_ratio mp + mp_fission_ratio mp + mp_absorption_ratio mp) by ring.
      cbn [fadd fmul fdiv fof_N Rops]. rewrite SW.
      destruct (ii mod 3)%N as [|[|[]|]]; apply reaction_normal; exact Hg. }
    rewrite V. reflexivity. }
  rewrite E. cbn [rbind]. f_equal. rewrite fsum_Rsum. unfold val. rewrite sum_kinds.
  assert (C1 : INR ((N.to_nat n + 2) / 3) = IZR (Z.of_N (n_scatter n)) /\ (INR ((N.to_nat n + 2) / 3) = 0 <-> (n = 0)%N)).
  { rewrite INR_IZR_INZ. unfold n_scatter. pose proof (N.div_mod n 3 ltac:(lia)) as D. pose proof (N.mod_upper_bound n 3 ltac:(lia)) as B.
    assert (Q : Z.of_nat ((N.to_nat n + 2) / 3) = Z.of_N (n / 3 + (if (n mod 3 =? 2)%N then 1 else if (n mod 3 =? 1)%N then 1 else 0))).
    { rewrite Nat2Z.inj_div, Nat2Z.inj_add, N_nat_Z. clear - D B. clearbody n.
      set (q := (n / 3)%N) in * . set (r := (n mod 3)%N) in * . clearbody q r.
      destruct (N.eqb_spec r 2); [|destruct (N.eqb_spec r 1)]; symmetry;
      [apply (Z.div_unique_pos _ _ _ 1)|apply (Z.div_unique_pos _ _ _ 0)|apply (Z.div_unique_pos _ _ _ 2)]; lia. }
    rewrite Q. split; [reflexivity|]. split; [intros C; apply eq_IZR in C|intros ->; reflexivity].
    clear - C D B. clearbody n. set (q := (n / 3)%N) in * . set (r := (n mod 3)%N) in * . clearbody q r.
    destruct (N.eqb_spec r 2); [lia|destruct (N.eqb_spec r 1); lia]. }
  assert (C2 : INR ((N.to_nat n + 1) / 3) = IZR (Z.of_N (n_fission n)) /\ (INR ((N.to_nat n + 1) / 3) = 0 <-> (n < 2)%N)).
  { rewrite INR_IZR_INZ. unfold n_fission. pose proof (N.div_mod n 3 ltac:(lia)) as D. pose proof (N.mod_upper_bound n 3 ltac:(lia)) as B.
    assert (Q : Z.of_nat ((N.to_nat n + 1) / 3) = Z.of_N (n / 3 + (if (n mod 3 =? 2)%N then 1 else 0))).
    { rewrite Nat2Z.inj_div, Nat2Z.inj_add, N_nat_Z. clear - D B. clearbody n.
      set (q := (n / 3)%N) in * . set (r := (n mod 3)%N) in * . clearbody q r.
      destruct (N.eqb_spec r 2); symmetry;
      [apply (Z.div_unique_pos _ _ _ 0)|apply (Z.div_unique_pos _ _ _ (Z.of_N r + 1))]; lia. }
    rewrite Q. split; [reflexivity|]. split; [intros C; apply eq_IZR in C|intros C].
    - clear - C D B. clearbody n. set (q := (n / 3)%N) in * . set (r := (n mod 3)%N) in * . clearbody q r.
      destruct (N.eqb_spec r 2); lia.
    - assert (n = 0 \/ n = 1)%N as [->| ->] by lia; reflexivity. }
  assert (C3 : INR (N.to_nat n / 3) = IZR (Z.of_N (n_absorption n)) /\ (INR (N.to_nat n / 3) = 0 <-> (n < 3)%N)).
  { rewrite INR_IZR_INZ. unfold n_absorption. rewrite Nat2Z.inj_div, N_nat_Z, N2Z.inj_div. split; [reflexivity|].
    split; [intros C; apply eq_IZR in C|intros C].
    - apply Z.div_small_iff in C; [|lia]. change (Z.of_nat 3) with 3%Z in C. lia.
    - change (Z.of_nat 3) with 3%Z. rewrite Z.div_small; [reflexivity|lia]. }
  destruct C1 as [C1 Z1], C2 as [C2 Z2], C3 as [C3 Z3].
  set (a := INR ((N.to_nat n + 2) / 3)) in * . set (b := INR ((N.to_nat n + 1) / 3)) in * . set (c := INR (N.to_nat n / 3)) in * .
  clearbody a b c. unfold sh, present. rewrite <- C1, <- C2, <- C3.
  assert (T : forall k r, (k * (mp_total_cross_section mp * r / (k * W)) = if Req_EM_T k 0 then 0 else mp_total_cross_section mp * r / W)).
  { intros k r. destruct (Req_EM_T k 0) as [->|Hk]; [ring|]. field. auto. }
  rewrite !T. destruct (Req_EM_T a 0) as [Za|Za], (Req_EM_T b 0) as [Zb|Zb], (Req_EM_T c 0) as [Zc|Zc];
   destruct (N.leb_spec 1 n), (N.leb_spec 2 n), (N.leb_spec 3 n); try lia;
   try (exfalso; (apply Z1 in Za || apply Z2 in Zb || apply Z3 in Zc); lia);
   try (exfalso; apply Za, Z1; lia); try (exfalso; apply Zb, Z2; lia); try (exfalso; apply Zc, Z3; lia);
   try (exfalso; apply Z1 in Za; lia); try (exfalso; apply Z2 in Zb; lia); try (exfalso; apply Z3 in Zc; lia);
   match goal with |- @eq _ ?a ?b => change (@eq R a b) end; field; exact Hw.
Qed.
