(** C21: the choice of the partner of a collision, in exact arithmetic. *)
From Coq Require Import NArith ZArith QArith Qreals List Bool Reals Lra Lia.
From Verif Require Import Float RngModel RealOps ParticleModel NuclearModel MeshTypes Balance TrackModel CycleModel
  TrackAccount CrossingLemmas PopSpec SourceCount SegmentFacts NuclearSpec NuclearFacts NuclearReal.
Import ListNotations.
Local Open Scope R_scope.

Lemma Rsum_app l1 l2 : Rsum (l1 ++ l2) = Rsum l1 + Rsum l2.
Proof. unfold Rsum. induction l1 as [|x l1 IH]; cbn [app fold_right]; [lra|]. rewrite IH. lra. Qed.
Lemma Rsum_cons x l : Rsum (x :: l) = x + Rsum l.
Proof. reflexivity. Qed.

(** ** Intervals *)

Section Intervals.
Variable ws : list R.
Hypothesis Hpos : Forall (fun w => 0 <= w) ws.

Lemma firstn_sum_le j k : (j <= k)%nat -> Rsum (firstn j ws) <= Rsum (firstn k ws).
Proof.
  intros H. assert (E : firstn k ws = firstn j ws ++ firstn (k - j) (skipn j ws)).
  { rewrite <- (firstn_skipn j ws) at 1. rewrite firstn_app, firstn_firstn. replace (Nat.min k j) with j by lia.
    f_equal. rewrite firstn_length. destruct (Nat.le_gt_cases j (length ws)) as [C|C].
    - replace (Nat.min j (length ws)) with j by lia. reflexivity.
    - rewrite skipn_all2 by lia. rewrite !firstn_nil. reflexivity. }
  rewrite E, Rsum_app. assert (P : 0 <= Rsum (firstn (k - j) (skipn j ws))); [|lra].
  apply Rsum_nonneg. apply Forall_forall. intros x Hx. apply (proj1 (Forall_forall _ _) Hpos).
  rewrite <- (firstn_skipn j ws). apply in_or_app. right. rewrite <- (firstn_skipn (k - j) (skipn j ws)). apply in_or_app. left. exact Hx.
Qed.
Lemma firstn_sum_all k : Rsum (firstn k ws) <= Rsum ws.
Proof.
  destruct (Nat.le_gt_cases k (length ws)) as [C|C].
  - rewrite <- (firstn_all ws) at 2. apply firstn_sum_le. exact C.
  - rewrite firstn_all2 by lia. lra.
Qed.
Lemma firstn_sum_nonneg k : 0 <= Rsum (firstn k ws).
Proof. pose proof (firstn_sum_le 0 k ltac:(lia)) as H. cbn [firstn Rsum fold_right] in H. exact H. Qed.

Lemma falls_in_once t k k' : falls_in ws t k -> falls_in ws t k' -> k = k'.
Proof.
  intros (a & A1 & A2) (b & B1 & B2).
  pose proof (firstn_sum_all (S k)) as P1. pose proof (firstn_sum_all (S k')) as P2.
  pose proof (firstn_sum_nonneg k) as P3. pose proof (firstn_sum_nonneg k') as P4.
  assert (S0 : 0 < Rsum ws) by lra.
  assert (D : forall a b, INR a * Rsum ws <= t -> t < INR b * Rsum ws + Rsum ws -> (a <= b)%nat).
  { intros x y Hx Hy. apply Nat.lt_succ_r. apply INR_lt. rewrite S_INR. apply (Rmult_lt_reg_r (Rsum ws)); [exact S0|]. lra. }
  assert (E : a = b) by (apply Nat.le_antisymm; apply D; lra). subst b.
  destruct (Nat.lt_trichotomy k k') as [L|[L|L]]; [|exact L|].
  - pose proof (firstn_sum_le (S k) k' ltac:(lia)). lra.
  - pose proof (firstn_sum_le (S k') k ltac:(lia)). lra.
Qed.
Lemma falls_in_weight t k w : falls_in ws t k -> nth_error ws k = Some w -> 0 < w.
Proof.
  intros (a & A1 & A2) Hw. assert (E : firstn (S k) ws = firstn k ws ++ [w]).
  { clear - Hw. revert k Hw. induction ws as [|x l IH]; intros k Hw; [destruct k; discriminate|].
    destruct k as [|k]; cbn [nth_error firstn app] in Hw |- * ; [congruence|]. f_equal. apply IH. exact Hw. }
  rewrite E, Rsum_app in A2. cbn [Rsum fold_right] in A2. lra.
Qed.
Lemma falls_in_range t k : falls_in ws t k -> (k < length ws)%nat.
Proof.
  intros (a & A1 & A2). apply Nat.lt_nge. intros C. rewrite !firstn_all2 in * by lia. lra.
Qed.
End Intervals.

(** ** The search *)

Section Pick.
Variables (td : track_data Rops) (density : R) (group : N).
Hypothesis Hd : density <> 0.
Let nd := td_nuclear td.

Local Notation sg := (sigma density group).

(** One pass over the pairs laid side by side. *)
Fixpoint pick_pair (l : list (isotope Rops * reaction Rops)) (t : R) : R + reaction Rops :=
  match l with
  | [] => inl t
  | pr :: l => let t' := t - sg pr in if Rltb t' 0 then inr (snd pr) else pick_pair l t'
  end.

Lemma pick_pair_app l1 l2 t : pick_pair (l1 ++ l2) t =
  match pick_pair l1 t with inl t' => pick_pair l2 t' | inr r => inr r end.
Proof. revert t. induction l1 as [|pr l1 IH]; intros t; cbn [app pick_pair]; [reflexivity|]. cbv zeta. destruct (Rltb _ 0); auto. Qed.

Lemma pick_reaction_pairs (iso : isotope Rops) : iso_atom_fraction iso <> 0 -> forall rs t,
  Forall (fun r => (N.to_nat group < length (r_cross_section r))%nat) rs ->
  pick_reaction rs (iso_atom_fraction iso) density group t = Ok (pick_pair (map (pair iso) rs) t).
Proof.
  intros Hf. induction rs as [|r rs IH]; intros t Hr; [reflexivity|]. cbn [pick_reaction map pick_pair].
  assert (E : (feq (f := Rops) (iso_atom_fraction iso) f0 || feq (f := Rops) density f0)%bool = false).
  { apply orb_false_iff. split; apply Reqb_false; assumption. }
  rewrite E. pose proof (Forall_inv Hr) as Hx. cbn beta in Hx.
  destruct (nth_error (r_cross_section r) (N.to_nat group)) as [x|] eqn:Ex; [|apply nth_error_None in Ex; lia].
  rewrite (proj2 (vec_get_nth _ _ _) Ex). cbn [rbind].
  assert (Es : fsub (f := Rops) t (fmul (fmul (iso_atom_fraction iso) density) x) = t - sg (iso, r)).
  { unfold sigma. cbn [fst snd]. rewrite (nth_error_nth _ _ _ Ex). reflexivity. }
  rewrite Es. change (flt (f := Rops) (t - sg (iso, r)) f0) with (Rltb (t - sg (iso, r)) 0). cbv zeta.
  destruct (Rltb (t - sg (iso, r)) 0); [reflexivity|]. apply IH. exact (Forall_inv_tail Hr).
Qed.

Lemma pick_isotope_pairs : forall isos t, material_data nd group isos ->
  pick_isotope nd isos density group t = Ok (pick_pair (partners nd isos) t).
Proof.
  induction isos as [|iso isos IH]; intros t Hm; [reflexivity|]. cbn [pick_isotope partners flat_map].
  destruct (Forall_inv Hm) as (Hf & rs & Er & Hr).
  rewrite (proj2 (vec_get_nth _ _ _) Er). cbn [rbind]. rewrite Er.
  rewrite (pick_reaction_pairs iso Hf rs t Hr). cbn [rbind]. rewrite pick_pair_app.
  destruct (pick_pair (map (pair iso) rs) t) as [t'|r]; [|reflexivity]. apply IH. exact (Forall_inv_tail Hm).
Qed.

Lemma pick_pair_spec : forall l t, Forall (fun pr => 0 <= sg pr) l -> 0 <= t ->
  (Rsum (map sg l) <= t /\ pick_pair l t = inl (t - Rsum (map sg l))) \/
  (exists k pr, nth_error l k = Some pr /\ pick_pair l t = inr (snd pr) /\
    Rsum (firstn k (map sg l)) <= t < Rsum (firstn (S k) (map sg l))).
Proof.
  induction l as [|pr l IH]; intros t Hp Ht.
  - left. cbn. split; [exact Ht|]. f_equal. lra.
  - cbn [pick_pair map]. cbv zeta. pose proof (Forall_inv Hp) as H0. cbn beta in H0. rewrite Rsum_cons.
    destruct (Rltb (t - sg pr) 0) eqn:E.
    + apply Rltb_iff in E. right. exists 0%nat, pr. split; [reflexivity|]. split; [reflexivity|].
      cbn [firstn Rsum fold_right]. lra.
    + apply Rltb_false in E. destruct (IH (t - sg pr) (Forall_inv_tail Hp) ltac:(lra)) as [(A & B)|(k & q & A & B & C)].
      * left. split; [lra|]. rewrite B. f_equal. ring.
      * right. exists (S k), q. split; [exact A|]. split; [exact B|].
        rewrite !firstn_cons, !Rsum_cons. lra.
Qed.

Lemma pick_loop_spec mat mat_gid : vec_get (td_mats td) mat_gid = Ok mat -> material_data nd group (mat_iso mat) ->
  Forall (fun pr => 0 <= sg pr) (partners nd (mat_iso mat)) -> 0 < Rsum (map sg (partners nd (mat_iso mat))) ->
  forall fuel t, 0 <= t < INR fuel * Rsum (map sg (partners nd (mat_iso mat))) ->
  exists k iso r, pick_loop fuel td mat_gid density group t = Ok r /\
    nth_error (partners nd (mat_iso mat)) k = Some (iso, r) /\ falls_in (map sg (partners nd (mat_iso mat))) t k.
Proof.
  intros Em Hm Hp Hs. set (l := partners nd (mat_iso mat)) in * . set (S := Rsum (map sg l)) in * .
  induction fuel as [|fuel IH]; intros t [H0 H1]; [cbn [INR] in H1; lra|]. cbn [pick_loop].
  assert (E : fle (f := Rops) f0 t = true) by (apply Rleb_iff; exact H0). rewrite E, Em. cbn [rbind].
  fold nd. rewrite (pick_isotope_pairs (mat_iso mat) t Hm). cbn [rbind]. fold l.
  destruct (pick_pair_spec l t Hp H0) as [(A & B)|(k & [iso r] & A & B & C)].
  - rewrite B. fold S in A |- * . destruct (IH (t - S)) as (k & iso & r & R1 & R2 & n & R3).
    + rewrite S_INR in H1. lra.
    + exists k, iso, r. split; [exact R1|]. split; [exact R2|]. exists (Datatypes.S n). fold S in R3 |- * . rewrite S_INR. lra.
  - rewrite B. exists k, iso, r. split; [reflexivity|]. split; [exact A|]. exists 0%nat. cbn [INR]. lra.
Qed.

(** When all the cross-sections are zero the search goes on for ever. *)
Lemma pick_loop_zero mat mat_gid : vec_get (td_mats td) mat_gid = Ok mat -> material_data nd group (mat_iso mat) ->
  Forall (fun pr => sg pr = 0) (partners nd (mat_iso mat)) ->
  forall fuel t, 0 <= t -> pick_loop fuel td mat_gid density group t = NoFuel.
Proof.
  intros Em Hm Hp. induction fuel as [|fuel IH]; intros t H0; cbn [pick_loop];
    assert (E : fle (f := Rops) f0 t = true) by (apply Rleb_iff; exact H0); rewrite E; [reflexivity|].
  rewrite Em. cbn [rbind]. fold nd. rewrite (pick_isotope_pairs (mat_iso mat) t Hm). cbn [rbind].
  assert (P : forall l, Forall (fun pr => sg pr = 0) l -> pick_pair l t = inl t).
  { induction l as [|pr l IHl]; intros Hl; [reflexivity|]. cbn [pick_pair]. cbv zeta. rewrite (Forall_inv Hl).
    rewrite Rminus_0_r. assert (L : Rltb t 0 = false) by (apply Rltb_false; exact H0). rewrite L. apply IHl. exact (Forall_inv_tail Hl). }
  rewrite (P _ Hp). apply IH. exact H0.
Qed.

(** The cross-section of the cell is the sum over the pairs. *)
Lemma total_is_sum mat mat_gid : vec_get (td_mats td) mat_gid = Ok mat -> material_data nd group (mat_iso mat) ->
  weighted_macroscopic_cross_section td mat_gid density group = Ok (Rsum (map sg (partners nd (mat_iso mat)))).
Proof.
  intros Em Hm. unfold weighted_macroscopic_cross_section. rewrite Em. cbn [rbind].
  assert (E : forall isos, material_data nd group isos -> exists l,
     rmap (fun iso => macroscopic_total_cross_section td iso density group) isos = Ok l /\ Rsum l = Rsum (map sg (partners nd isos))).
  { induction isos as [|iso isos IH]; intros H; [exists []; split; reflexivity|].
    destruct (IH (Forall_inv_tail H)) as (l & El & Hl). destruct (Forall_inv H) as (Hf & rs & Er & Hr).
    cbn [rmap]. unfold macroscopic_total_cross_section at 1.
    assert (Z : (feq (f := Rops) (iso_atom_fraction iso) f0 || feq (f := Rops) density f0)%bool = false).
    { apply orb_false_iff. split; apply Reqb_false; assumption. }
    rewrite Z. unfold get_total_cross_section. fold nd. rewrite (proj2 (vec_get_nth _ _ _) Er). cbn [rbind].
    assert (Q : rmap (fun r => vec_get (r_cross_section r) group) rs = Ok (map (fun r : reaction Rops => nth (N.to_nat group) (r_cross_section r) 0) rs)).
    { clear - Hr. induction rs as [|r rs IHr]; [reflexivity|]. cbn [rmap map].
      pose proof (Forall_inv Hr) as Hx. cbn beta in Hx.
      destruct (nth_error (r_cross_section r) (N.to_nat group)) as [x|] eqn:Ex; [|apply nth_error_None in Ex; lia].
      rewrite (proj2 (vec_get_nth _ _ _) Ex). cbn [rbind]. rewrite (IHr (Forall_inv_tail Hr)). cbn [rbind].
      rewrite (nth_error_nth _ _ _ Ex). reflexivity. }
    rewrite Q. cbn [rbind]. rewrite El. cbn [rbind]. eexists. split; [reflexivity|]. rewrite Rsum_cons, Hl.
    cbn [partners flat_map]. rewrite Er, map_app, Rsum_app. f_equal. rewrite fsum_Rsum. cbn [fmul Rops].
    rewrite map_map. match goal with |- @eq _ ?a ?b => change (@eq R a b) end.
    clear. induction rs as [|r rs IHr]; cbn [map]; [cbn [Rsum fold_right]; apply Rmult_0_r|].
    rewrite !Rsum_cons, <- IHr. unfold sigma. cbn [fst snd]. apply Rmult_plus_distr_l. }
  destruct (E (mat_iso mat) Hm) as (l & -> & Hl). cbn [rbind]. f_equal. rewrite fsum_Rsum. exact Hl.
Qed.

End Pick.

(** ** Shares *)

(** Which of the partners is hit by a draw in [0, 1). *)
Lemma partner_share (ws : list R) k r : Forall (fun w => 0 <= w) ws -> 0 < Rsum ws -> 0 <= r < 1 ->
  (falls_in ws (Rsum ws * r) k <-> Rsum (firstn k ws) / Rsum ws <= r < Rsum (firstn (S k) ws) / Rsum ws).
Proof.
  intros Hp Hs [H0 H1]. set (t := Rsum ws). assert (Ht : 0 < t) by exact Hs.
  assert (Dl : forall a, a / t <= r <-> a <= t * r).
  { intros a. split; intros H; [|apply (Rmult_le_reg_l t); [exact Ht|]; unfold Rdiv; rewrite <- Rmult_assoc, Rinv_r_simpl_m by lra; exact H].
    apply (Rmult_le_compat_l t) in H; [|lra]. unfold Rdiv in H. rewrite <- Rmult_assoc, Rinv_r_simpl_m in H by lra. exact H. }
  assert (Dr : forall a, r < a / t <-> t * r < a).
  { intros a. split; intros H; [|apply (Rmult_lt_reg_l t); [exact Ht|]; unfold Rdiv; rewrite <- Rmult_assoc, Rinv_r_simpl_m by lra; exact H].
    apply (Rmult_lt_compat_l t) in H; [|lra]. unfold Rdiv in H. rewrite <- Rmult_assoc, Rinv_r_simpl_m in H by lra. exact H. }
  rewrite Dl, Dr. split.
  - intros (a & A1 & A2). fold t in A1, A2. pose proof (firstn_sum_nonneg ws Hp k) as P.
    destruct a as [|a]; [cbn [INR] in A1, A2; lra|]. exfalso. rewrite S_INR in A1. pose proof (pos_INR a). nra.
  - intros [A1 A2]. exists 0%nat. cbn [INR]. fold t. lra.
Qed.

(** ** The total of a material *)

Lemma total_kept (nd nd' : nuclear_data Rops) more gid g v : nd_isotopes nd' = nd_isotopes nd ++ more ->
  get_total_cross_section nd gid g = Ok v -> get_total_cross_section nd' gid g = Ok v.
Proof.
  unfold get_total_cross_section. intros E H. rb H as rs Er. apply vec_get_nth in Er.
  rewrite E, (proj2 (vec_get_nth (nd_isotopes nd ++ more) gid rs)); [exact H|]. rewrite nth_error_app1; [exact Er|].
  apply nth_error_Some. congruence.
Qed.


Lemma isotopes_totals xs mp nu g : weight_sum mp <> 0 -> forall n (nd nd' : nuclear_data Rops) l, add_isotopes n nd xs mp nu = Ok (nd', l) ->
  first_from_one (nd_energies nd) (N.to_nat g) ->
  Forall (fun iso : isotope Rops => get_total_cross_section nd' (iso_gid iso) g = Ok (normal_total mp)) l.
Proof.
  intros Hw. induction n as [|n IH]; intros nd nd' l H Hg; cbn [add_isotopes] in H; [injection H; intros; subst; constructor|].
  rb H as [nd1 gid] E1. rb H as [nd2 l2] E2. injection H; intros; subst; clear H.
  pose proof (add_isotope_mix _ _ _ _ _ _ E1) as (A1 & A2 & A3 & rs & A4 & A5).
  pose proof (add_isotopes_mix _ _ _ _ _ _ _ E2) as (B1 & B2 & B3 & B4 & more & B5 & B6).
  constructor.
  - cbn [iso_gid]. apply (total_kept nd1 nd' more gid g _ B5). apply (isotope_total nd nd1 xs mp nu gid g E1 Hg Hw).
  - apply (IH nd1 nd' l2 E2). rewrite A2. exact Hg.
Qed.

Lemma materials_totals xs nus g : forall mps (nd nd' : nuclear_data Rops) mats, init_materials mps nd xs nus = Ok (nd', mats) ->
  first_from_one (nd_energies nd) (N.to_nat g) -> Forall (fun mp => weight_sum mp <> 0) mps ->
  Forall2 (fun mp (mat : material Rops) => Forall (fun iso : isotope Rops => get_total_cross_section nd' (iso_gid iso) g = Ok (normal_total mp)) (mat_iso mat)) mps mats.
Proof.
  induction mps as [|mp mps IH]; intros nd nd' mats H Hg Hw; cbn [init_materials] in H; [injection H; intros; subst; constructor|].
  rb H as [nd1 iso] E1. rb H as [nd2 mats2] E2. injection H; intros; subst; clear H.
  pose proof (init_materials_mix _ _ _ _ _ _ E2) as (B1 & B2 & (more & B3) & B4).
  assert (G1 : nd_energies nd1 = nd_energies nd /\
    Forall (fun iso : isotope Rops => get_total_cross_section nd1 (iso_gid iso) g = Ok (normal_total mp)) iso).
  { destruct (N.to_nat (mp_n_isotopes mp)) as [|k]; [injection E1; intros; subst; split; [reflexivity|constructor]|].
    rb E1 as nu En. split; [apply (add_isotopes_mix _ _ _ _ _ _ _ E1)|].
    exact (isotopes_totals xs mp nu g (Forall_inv Hw) _ _ _ _ E1 Hg). }
  destruct G1 as [G1 G2]. constructor.
  - cbn [mat_iso]. eapply Forall_impl; [|exact G2]. intros i Hi. exact (total_kept nd1 nd' more _ g _ B3 Hi).
  - apply (IH nd1 nd' mats2 E2); [rewrite G1; exact Hg|exact (Forall_inv_tail Hw)].
Qed.

(** At the group of the normalisation energy, the macroscopic cross-section of a material in a cell
    of the given density. *)
Lemma material_total xs nus g mps (nd nd' : nuclear_data Rops) mats i mp (density dt : R) :
  init_materials mps nd xs nus = Ok (nd', mats) -> first_from_one (nd_energies nd) (N.to_nat g) ->
  Forall (fun mp => weight_sum mp <> 0) mps -> nth_error mps (N.to_nat i) = Some mp -> (1 <= mp_n_isotopes mp)%N -> density <> 0 ->
  weighted_macroscopic_cross_section (mkTrackData (K := Rops) dt nd' mats) i density g = Ok (density * normal_total mp).
Proof.
  intros H Hg Hw Hi Hn Hd. pose proof (materials_totals xs nus g mps nd nd' mats H Hg Hw) as T.
  pose proof (init_materials_mix _ _ _ _ _ _ H) as (_ & _ & _ & M & _).
  assert (X : exists mat, nth_error mats (N.to_nat i) = Some mat /\ material_for nd' nus mp mat /\
     Forall (fun iso : isotope Rops => get_total_cross_section nd' (iso_gid iso) g = Ok (normal_total mp)) (mat_iso mat)).
  { clear - T M Hi. revert Hi M T. generalize (N.to_nat i) as k. intros k. revert mps mats. induction k as [|k IH]; intros mps mats Hi M T.
    - destruct mps; [discriminate|]. injection Hi as ->. inversion M; subst. inversion T; subst. eexists. repeat split; eauto; apply H1.
    - destruct mps; [discriminate|]. inversion M; subst. inversion T; subst. apply (IH mps _ Hi); assumption. }
  destruct X as (mat & Em & (_ & _ & Hl & Hf) & Ht). unfold weighted_macroscopic_cross_section. cbn [td_mats].
  rewrite (proj2 (vec_get_nth mats i mat) Em). cbn [rbind].
  set (n := mp_n_isotopes mp) in * . set (td := mkTrackData (K := Rops) dt nd' mats).
  assert (N0 : INR (N.to_nat n) <> 0) by (apply not_0_INR; lia).
  assert (C : forall l, Forall (fun iso : isotope Rops => iso_atom_fraction iso = 1 / INR (N.to_nat n)) l ->
      Forall (fun iso : isotope Rops => get_total_cross_section nd' (iso_gid iso) g = Ok (normal_total mp)) l ->
      rmap (fun iso => macroscopic_total_cross_section td iso density g) l = Ok (repeat (1 / INR (N.to_nat n) * density * normal_total mp) (length l))).
  { induction l as [|iso l IH]; intros F1 F2; [reflexivity|]. cbn [rmap length repeat].
    unfold macroscopic_total_cross_section at 1. rewrite (Forall_inv F1).
    assert (Z : (feq (f := Rops) (1 / INR (N.to_nat n)) f0 || feq (f := Rops) density f0)%bool = false).
    { apply orb_false_iff. split; apply Reqb_false; [|exact Hd]. unfold Rdiv. rewrite Rmult_1_l. apply Rinv_neq_0_compat. exact N0. }
    rewrite Z. cbn [td_nuclear td]. rewrite (Forall_inv F2). cbn [rbind]. rewrite (IH (Forall_inv_tail F1) (Forall_inv_tail F2)). reflexivity. }
  rewrite C; [|eapply Forall_impl; [|exact Hf]; intros iso [Hx _]; rewrite Hx; cbn [fdiv f1 fof_N Rops]; rewrite INR_IZR_INZ, N_nat_Z; reflexivity|exact Ht].
  cbn [rbind]. f_equal. rewrite fsum_Rsum, Hl.
  assert (S : forall k x, Rsum (repeat x k) = INR k * x).
  { induction k as [|k IH]; intros x; [cbn [repeat INR]; unfold Rsum; cbn; lra|]. cbn [repeat]. rewrite Rsum_cons, IH, S_INR. lra. }
  rewrite S. match goal with |- @eq _ ?a ?b => change (@eq R a b) end. field. exact N0.
Qed.

Lemma three_reactions (mp : material_params Rops) : (3 <= mp_n_reactions mp)%N -> weight_sum mp <> 0 ->
  normal_total mp = mp_total_cross_section mp.
Proof.
  intros Hn Hw. unfold normal_total, present. rewrite !(proj2 (N.leb_le _ _)) by lia. fold (weight_sum mp).
  match goal with |- @eq _ ?a ?b => change (@eq R a b) end. field. exact Hw.
Qed.
