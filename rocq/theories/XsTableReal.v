(** Proofs about the table of cross-sections in exact arithmetic. *)
From Coq Require Import Arith NArith QArith Qreals List Bool Reals String Lia Lra Permutation.
From Verif Require Import Float RealOps ParticleModel NuclearModel MeshTypes TrackModel CycleModel ParamModel ParamLemmas SegmentFacts NuclearIeee
  CrossingLemmas PopSpec NuclearSpec NuclearFacts NuclearReal PartnerLemmas TrackAccount XsTableModel XsTableSpec XsTableFacts.
Import ListNotations.
Local Open Scope R_scope.

Definition share (g : nat) (n : R) (r : reaction Rops) : R := nth g (r_cross_section r) 0 / n.

Lemma entry_kinds g (n : F Rops) : forall (rs : list (reaction Rops)) (d : xs_data Rops),
  xs_abs (entry_after g n rs d) = xs_abs d + Rsum (map (share g n) (filter (is_kind Absorption) rs)) /\
  xs_fis (entry_after g n rs d) = xs_fis d + Rsum (map (share g n) (filter (is_kind Fission) rs)) /\
  xs_sca (entry_after g n rs d) = xs_sca d + Rsum (map (share g n) (filter (is_kind Scatter) rs)).
Proof.
  induction rs as [|r rs IH]; intros d.
  - unfold entry_after. cbn [fold_left filter map]. unfold Rsum. cbn [fold_right]. repeat split; symmetry; apply Rplus_0_r.
  - change (entry_after g n (r :: rs) d) with (entry_after (K := Rops) g n rs (xs_add (r_type r) (fdiv (f := Rops) (nth g (r_cross_section r) f0) n) d)).
    set (d1 := xs_add (r_type r) (fdiv (f := Rops) (nth g (r_cross_section r) f0) n) d). destruct (IH d1) as (A & B & C). rewrite A, B, C. clear A B C IH.
    assert (E : xs_abs d1 = xs_abs d + (if is_kind Absorption r then share g n r else 0) /\ xs_fis d1 = xs_fis d + (if is_kind Fission r then share g n r else 0) /\
      xs_sca d1 = xs_sca d + (if is_kind Scatter r then share g n r else 0)).
    { unfold d1, is_kind, share. destruct (r_type r); cbn [xs_add xs_abs xs_fis xs_sca]; repeat split; try (symmetry; apply Rplus_0_r); reflexivity. }
    destruct E as (-> & -> & ->). cbn [filter].
    assert (Q : forall (b : bool) (x : R) (l : list (reaction Rops)), x + (if b then share g n r else 0) + Rsum (map (share g n) l) = x + Rsum (map (share g n) (if b then r :: l else l))).
    { intros [|] x l; cbn [map]; rewrite ?Rsum_cons; ring. }
    repeat split; apply Q.
Qed.

Lemma part_is_share (nd : nuclear_data Rops) g k (n : R) : forall isos : list (isotope Rops), Forall (fun iso : isotope Rops => iso_atom_fraction iso = 1 / n) isos ->
  Rsum (map (sigma 1 g) (filter (fun pr => is_kind k (snd pr)) (partners nd isos))) = Rsum (map (share (N.to_nat g) n) (filter (is_kind k) (reactions_of nd isos))).
Proof.
  induction isos as [|iso isos IH]; intros H; [reflexivity|]. unfold partners, reactions_of in * . cbn [flat_map].
  rewrite !filter_app, !map_app, !Rsum_app. rewrite (IH (Forall_inv_tail H)). f_equal. pose proof (Forall_inv H) as Hf. cbn beta in Hf.
  destruct (nth_error (nd_isotopes nd) (N.to_nat (iso_gid iso))) as [rs|]; [|reflexivity].
  induction rs as [|r rs IHr]; [reflexivity|]. cbn [map filter snd]. destruct (is_kind k r); [|exact IHr]. cbn [map]. rewrite !Rsum_cons, IHr. f_equal.
  unfold sigma, share. cbn [fst snd]. rewrite Hf. unfold Rdiv. ring.
Qed.

Lemma of_N_R x : fof_N (f := Rops) x = IZR (Z.of_N x). Proof. reflexivity. Qed.

Lemma rsum_kinds (f : isotope Rops * reaction Rops -> R) : forall l, Rsum (map f l) =
  Rsum (map f (filter (fun pr => is_kind Absorption (snd pr)) l)) + Rsum (map f (filter (fun pr => is_kind Fission (snd pr)) l)) +
  Rsum (map f (filter (fun pr => is_kind Scatter (snd pr)) l)).
Proof.
  induction l as [|pr l IH]; [unfold Rsum; cbn; lra|]. cbn [map filter]. rewrite Rsum_cons, IH.
  assert (E : f pr = (if is_kind Absorption (snd pr) then f pr else 0) + (if is_kind Fission (snd pr) then f pr else 0) + (if is_kind Scatter (snd pr) then f pr else 0)).
  { unfold is_kind. destruct (r_type (snd pr)); lra. }
  assert (Q : forall (b : bool) l0, Rsum (map f (if b then pr :: l0 else l0)) = (if b then f pr else 0) + Rsum (map f l0)).
  { intros [|] l0; cbn [map]; rewrite ?Rsum_cons; ring. }
  rewrite !Q. lra.
Qed.

Lemma sigma_density (density : R) g l : Rsum (map (sigma density g) l) = density * Rsum (map (sigma 1 g) l).
Proof.
  induction l as [|pr l IH]; [unfold Rsum; cbn; ring|]. cbn [map]. rewrite !Rsum_cons, IH. unfold sigma. ring.
Qed.

Section Built.
Variables (xs : list (string * polynomial Rops)) (nus : list (string * F Rops)) (mps : list (material_params Rops)) (nd nd' : nuclear_data Rops)
  (mats : list (material Rops)) (n : N).
Hypothesis built : init_materials mps nd xs nus = Ok (nd', mats).
Hypothesis groups : List.length (nd_energies nd) = S (N.to_nat n).

Lemma mats_names : map mat_name mats = map mp_name mps.
Proof.
  destruct (init_materials_mix _ _ _ _ _ _ built) as (_ & _ & _ & F2 & _). clear built groups.
  induction F2 as [|mp mat mps0 mats0 (A & _) F2 IH]; [reflexivity|]. cbn [map]. rewrite A, IH. reflexivity.
Qed.

Lemma mat_known mat : In mat mats -> known_isotopes nd' (N.to_nat n) (mat_iso mat) /\
  exists k : N, N.of_nat (List.length (mat_iso mat)) = k /\ Forall (fun iso : isotope Rops => iso_atom_fraction iso = 1 / IZR (Z.of_N k)) (mat_iso mat).
Proof.
  intros Hin. split.
  - pose proof (built_known _ _ _ _ _ _ built) as H. rewrite groups in H. replace (S (N.to_nat n) - 1)%nat with (N.to_nat n) in H by lia.
    rewrite Forall_forall in H. apply H. exact Hin.
  - destruct (init_materials_mix _ _ _ _ _ _ built) as (_ & _ & _ & F2 & _).
    assert (E : exists mp, material_for nd' nus mp mat).
    { clear - F2 Hin. induction F2 as [|mp m mps0 mats0 A F2 IH]; [destruct Hin|]. destruct Hin as [<-|Hin]; [exists mp; exact A|apply IH; exact Hin]. }
    destruct E as (mp & _ & _ & L & Hf). exists (mp_n_isotopes mp). split; [rewrite L; apply N2Nat.id|]. revert Hf. apply Forall_impl. intros iso (E & _). exact E.
Qed.

(** The entries of the table. *)
Theorem table_values mat : NoDup (map mp_name mps) -> In mat mats -> exists table vec, xs_table nd' n mats = Ok table /\
  map_get table (mat_name mat) = Some vec /\ List.length vec = N.to_nat n /\
  forall g d, nth_error vec (N.to_nat g) = Some d ->
    xs_abs d = kind_part nd' g Absorption mat /\ xs_fis d = kind_part nd' g Fission mat /\ xs_sca d = kind_part nd' g Scatter mat.
Proof.
  intros D Hin. destruct (mat_known mat Hin) as (Hk & k & Ek & Hf).
  destruct (xs_table_from nd' n mats []) as (t & Et & _ & G).
  { apply Forall_forall. intros m Hm. apply (mat_known m Hm). }
  { constructor. }
  destruct (xs_vec_spec nd' n mat Hk) as (vec & Ev & Lv & Hv). rewrite <- mats_names in D. exists t, vec. split; [exact Et|].
  split; [apply (proj2 (G D (mat_name mat)) mat vec Hin eq_refl Ev)|]. split; [exact Lv|].
  intros g d Hd. assert (Hg : (N.to_nat g < N.to_nat n)%nat) by (rewrite <- Lv; apply nth_error_Some; rewrite Hd; discriminate).
  rewrite (Hv _ Hg) in Hd. injection Hd as <-. rewrite Ek.
  destruct (entry_kinds (N.to_nat g) (fof_N (f := Rops) k) (reactions_of nd' (mat_iso mat)) xs_zero) as (A & B & C).
  unfold kind_part. rewrite !(part_is_share nd' g _ (IZR (Z.of_N k)) (mat_iso mat) Hf). cbn [xs_zero xs_abs xs_fis xs_sca] in A, B, C.
  change (f0 (f := Rops)) with 0 in A, B, C. rewrite of_N_R in A, B, C. rewrite Rplus_0_l in A, B, C. repeat split; assumption.
Qed.

(** Their sum is the cross-section that the tracking uses. *)
Theorem table_total (dt density : R) i mat g : nth_error mats (N.to_nat i) = Some mat -> (g < n)%N -> density <> 0 ->
  weighted_macroscopic_cross_section (mkTrackData (K := Rops) dt nd' mats) i density g =
    Ok (density * (kind_part nd' g Absorption mat + kind_part nd' g Fission mat + kind_part nd' g Scatter mat)).
Proof.
  intros Ei Hg Hd. destruct (mat_known mat (nth_error_In _ _ Ei)) as (Hk & k & Ek & Hf).
  rewrite (total_is_sum (mkTrackData (K := Rops) dt nd' mats) density g Hd mat i).
  - cbn [td_nuclear]. rewrite sigma_density, (rsum_kinds (sigma 1 g)). reflexivity.
  - apply vec_get_nth. exact Ei.
  - cbn [td_nuclear]. apply Forall_forall. intros iso Hin. unfold known_isotopes in Hk. rewrite Forall_forall in Hk, Hf. split.
    + rewrite (Hf iso Hin). assert (Hp : (0 < Z.of_N k)%Z). { destruct (mat_iso mat) as [|a l]; [destruct Hin|]. cbn [List.length] in Ek. lia. }
      apply IZR_lt in Hp. unfold Rdiv. rewrite Rmult_1_l. apply Rinv_neq_0_compat. lra.
    + destruct (Hk iso Hin) as (rs & Er & Hr). exists rs. split; [exact Er|]. revert Hr. apply Forall_impl. intros r Hr. lia.
Qed.

Lemma clip_spec (v : R) : 0 <= v -> 0 <= v - xs_clip (K := Rops) v < ftiny (f := Rops).
Proof.
  intros H. unfold xs_clip. assert (T : 0 < ftiny (f := Rops)) by (cbn [ftiny Rops]; unfold Q2R; cbn; lra).
  destruct (flt (f := Rops) v ftiny) eqn:E.
  - apply Rltb_iff in E. change (f0 (f := Rops)) with 0. change (0 <= v - 0 < ftiny (f := Rops)). lra.
  - change (0 <= v - v < ftiny (f := Rops)). lra.
Qed.
End Built.

(** *** Parameters that are not negative give cross-sections that are not negative *)
Lemma div_nonneg a b : 0 <= a -> 0 <= b -> 0 <= a / b.
Proof. intros Ha [Hb| <- ]; [apply Rmult_le_pos; [exact Ha|left; apply Rinv_0_lt_compat; exact Hb]|]. unfold Rdiv. rewrite Rinv_0. lra. Qed.

Lemma values_nonneg p : forall (es : list (F Rops)) (n : F Rops), 0 <= n -> Forall (fun x : F Rops => 0 <= x) (fst (reaction_values (K := Rops) p es n)) /\
  0 <= snd (reaction_values (K := Rops) p es n).
Proof.
  induction es as [|e0 es IH]; intros n Hn; [split; [constructor|exact Hn]|]. destruct es as [|e1 es]; [split; [constructor|exact Hn]|].
  rewrite reaction_values_cons. cbv zeta. pose proof (pow10_pos (poly_val p (flog10 (fdiv (fadd (f := Rops) e0 e1) ftwo)))) as P.
  set (x := fpow10 (f := Rops) (poly_val p (flog10 (fdiv (fadd (f := Rops) e0 e1) ftwo)))) in * .
  destruct (IH (if (fle (f := Rops) f1 e1 && feq (f := Rops) n f0)%bool then x else n)) as (A & B); [destruct (fle (f := Rops) f1 e1 && feq (f := Rops) n f0)%bool; [left; exact P|exact Hn]|].
  destruct (reaction_values (K := Rops) p (e1 :: es) _) as [l m]. cbn [fst snd] in * . split; [constructor; [left; exact P|exact A]|exact B].
Qed.

Definition nonneg_reaction (r : reaction Rops) : Prop := Forall (fun x : F Rops => 0 <= x) (r_cross_section r).
Lemma reaction_nonneg t (nu : F Rops) (es : list (F Rops)) p (x : F Rops) : 0 <= x -> nonneg_reaction (reaction_new t nu es p x).
Proof.
  intros Hx. unfold nonneg_reaction, reaction_new. destruct (values_nonneg p es 0 (Rle_refl 0)) as (A & B). change (f0 (f := Rops)) with 0.
  destruct (reaction_values (K := Rops) p es 0) as [l m]. cbn [fst snd] in * . cbn [r_cross_section]. rewrite Forall_map. revert A. apply Forall_impl. intros y Hy.
  change (0 <= y * (x / m)). apply Rmult_le_pos; [exact Hy|]. apply div_nonneg; assumption.
Qed.

Lemma add_isotope_nonneg (nd nd' : nuclear_data Rops) xs mp nu gid : add_isotope nd xs mp nu = Ok (nd', gid) -> nonneg_params mp ->
  Forall (Forall nonneg_reaction) (nd_isotopes nd) -> Forall (Forall nonneg_reaction) (nd_isotopes nd').
Proof.
  unfold add_isotope. intros H (P1 & P2 & P3 & P4 & _) Hn. rb H as ff E1. rb H as sf E2. rb H as af E3. injection H; intros; subst; clear H. cbn [nd_isotopes].
  apply Forall_app. split; [exact Hn|]. constructor; [|constructor]. rewrite Forall_map. apply Forall_forall. intros i _.
  assert (S' : forall (ratio : F Rops) k, 0 <= ratio -> 0 <= fdiv (f := Rops) (fmul (mp_total_cross_section mp) ratio)
    (fmul (fof_N k) (fadd (fadd (mp_fission_ratio mp) (mp_scattering_ratio mp)) (mp_absorption_ratio mp)))).
  { intros ratio k Hr. change (0 <= (mp_total_cross_section mp * ratio) / (IZR (Z.of_N k) * (mp_fission_ratio mp + mp_scattering_ratio mp + mp_absorption_ratio mp))).
    apply div_nonneg; [apply Rmult_le_pos; assumption|]. apply Rmult_le_pos; [apply (IZR_le 0); lia|]. apply Rplus_le_le_0_compat; [apply Rplus_le_le_0_compat|]; assumption. }
  destruct (i mod 3)%N as [|[q|q|]]; apply reaction_nonneg; apply S'; assumption.
Qed.
Lemma add_isotopes_nonneg xs mp nu : nonneg_params mp -> forall n (nd nd' : nuclear_data Rops) l, add_isotopes n nd xs mp nu = Ok (nd', l) ->
  Forall (Forall nonneg_reaction) (nd_isotopes nd) -> Forall (Forall nonneg_reaction) (nd_isotopes nd').
Proof.
  intros Hp. induction n as [|n IH]; intros nd nd' l H Hn; cbn [add_isotopes] in H.
  - injection H; intros; subst. exact Hn.
  - rb H as [nd1 gid] E1. rb H as [nd2 l2] E2. injection H; intros; subst; clear H. apply (IH _ _ _ E2). apply (add_isotope_nonneg _ _ _ _ _ _ E1 Hp Hn).
Qed.
Lemma materials_nonneg xs nus : forall mps (nd nd' : nuclear_data Rops) mats, init_materials mps nd xs nus = Ok (nd', mats) -> Forall nonneg_params mps ->
  Forall (Forall nonneg_reaction) (nd_isotopes nd) -> Forall (Forall nonneg_reaction) (nd_isotopes nd').
Proof.
  induction mps as [|mp mps IH]; intros nd nd' mats H Hp Hn; cbn [init_materials] in H.
  - injection H; intros; subst. exact Hn.
  - rb H as [nd1 iso] E1. rb H as [nd2 mats2] E2. injection H; intros; subst; clear H. apply (IH _ _ _ E2 (Forall_inv_tail Hp)).
    destruct (N.to_nat (mp_n_isotopes mp)) as [|k].
    + injection E1; intros; subst. exact Hn.
    + rb E1 as nu En. apply (add_isotopes_nonneg xs mp nu (Forall_inv Hp) _ _ _ _ E1 Hn).
Qed.

Lemma parts_nonneg (nd : nuclear_data Rops) g k mat : Forall (Forall nonneg_reaction) (nd_isotopes nd) ->
  Forall (fun iso : isotope Rops => 0 <= iso_atom_fraction iso) (mat_iso mat) -> 0 <= kind_part nd g k mat.
Proof.
  intros Hn Hi. unfold kind_part.
  assert (P : Forall (fun pr => 0 <= sigma 1 g pr) (partners nd (mat_iso mat))).
  { unfold partners. induction Hi as [|iso l Ha Hi IH]; [constructor|]. cbn [flat_map]. apply Forall_app. split; [|exact IH].
    destruct (nth_error (nd_isotopes nd) (N.to_nat (iso_gid iso))) as [rs|] eqn:E; [|constructor]. apply nth_error_In in E. rewrite Forall_forall in Hn. specialize (Hn _ E).
    rewrite Forall_map. revert Hn. apply Forall_impl. intros r Hr. unfold sigma. cbn [fst snd]. apply Rmult_le_pos; [lra|].
    destruct (nth_in_or_default (N.to_nat g) (r_cross_section r) (0 : F Rops)) as [Hin|E0].
    - unfold nonneg_reaction in Hr. rewrite Forall_forall in Hr. apply (Hr _ Hin).
    - change (0 <= nth (N.to_nat g) (r_cross_section r) (0 : F Rops)). rewrite E0. apply Rle_refl. }
  induction P as [|pr l H P IH]; [unfold Rsum; cbn; lra|]. cbn [filter]. destruct (is_kind k (snd pr)); [|exact IH]. cbn [map]. rewrite Rsum_cons. lra.
Qed.

(** What is printed. *)
Theorem table_printed xs nus mps (nd nd' : nuclear_data Rops) mats n (dt density : R) i mat g :
  init_materials mps nd xs nus = Ok (nd', mats) -> nd_isotopes nd = [] -> List.length (nd_energies nd) = S (N.to_nat n) -> (exists g1, first_from_one (nd_energies nd) g1) ->
  NoDup (map mp_name mps) -> Forall nonneg_params mps -> nth_error mats (N.to_nat i) = Some mat -> (g < n)%N -> 0 < density ->
  exists table vec d total, xs_table nd' n mats = Ok table /\ map_get table (mat_name mat) = Some vec /\ nth_error vec (N.to_nat g) = Some d /\
    weighted_macroscopic_cross_section (mkTrackData (K := Rops) dt nd' mats) i density g = Ok total /\
    0 <= total - density * (xs_clip (xs_abs d) + xs_clip (xs_fis d) + xs_clip (xs_sca d)) < 3 * density * ftiny (f := Rops).
Proof.
  intros B Z L _ D Np Ei Hg Hd.
  assert (Hp : forall k, 0 <= kind_part nd' g k mat).
  { intros k. apply parts_nonneg.
    - apply (materials_nonneg _ _ _ _ _ _ B Np). rewrite Z. constructor.
    - destruct (mat_known xs nus mps nd nd' mats n B L mat (nth_error_In _ _ Ei)) as (_ & c & _ & Hf). revert Hf. apply Forall_impl. intros iso ->.
      apply div_nonneg; [lra|apply (IZR_le 0); lia]. }
  destruct (table_values xs nus mps nd nd' mats n B L mat D (nth_error_In _ _ Ei)) as (t & vec & Et & Ev & Lv & Hv).
  destruct (nth_error vec (N.to_nat g)) as [d|] eqn:Ed; [|apply nth_error_None in Ed; lia]. destruct (Hv g d Ed) as (A & F' & S').
  exists t, vec, d. eexists. split; [exact Et|]. split; [exact Ev|]. split; [exact Ed|]. split.
  - apply (table_total xs nus mps nd nd' mats n B L dt density i mat g Ei Hg). lra.
  - pose proof (clip_spec (xs_abs d)) as C1. pose proof (clip_spec (xs_fis d)) as C2. pose proof (clip_spec (xs_sca d)) as C3.
    rewrite A in C1. rewrite F' in C2. rewrite S' in C3. rewrite A, F', S'. specialize (C1 (Hp _)). specialize (C2 (Hp _)). specialize (C3 (Hp _)).
    set (a := kind_part nd' g Absorption mat) in * . set (f := kind_part nd' g Fission mat) in * . set (s := kind_part nd' g Scatter mat) in * .
    set (ca := xs_clip (K := Rops) a) in * . set (cf := xs_clip (K := Rops) f) in * . set (cs := xs_clip (K := Rops) s) in * .
    replace (density * (a + f + s) - density * (ca + cf + cs)) with (density * ((a - ca) + (f - cf) + (s - cs))) by ring.
    set (tn := ftiny (f := Rops)) in * . change (F Rops) with R in * . split; [apply Rmult_le_pos; lra|]. replace (3 * density * tn) with (density * (3 * tn)) by ring.
    apply Rmult_lt_compat_l; lra.
Qed.

(** The energy of a line belongs to its group. *)
Theorem energy_of_line (n : N) (lo hi : R) (nd : nuclear_data Rops) : (1 <= n)%N -> 0 < lo -> lo < hi ->
  nd_energies nd = nd_energies (nuclear_new (K := Rops) n lo hi) ->
  exists es, xs_energies nd n = Ok es /\ List.length es = N.to_nat n /\
    forall g e, nth_error es (N.to_nat g) = Some e -> get_energy_groups nd e = Ok g.
Proof.
  intros Hn Hl Hh En. change (nd_energies nd = nuclear_energies (K := Rops) n lo hi) in En. destruct (boundaries n lo hi Hn Hl Hh) as (Len & First & Last & Inc & _).
  cbv zeta in Len, First, Last, Inc. change (list R) with (list (F Rops)) in * . rewrite <- En in Len, First, Last, Inc.
  change (increasing (fun x : R => x) (nd_energies nd)) in Inc. assert (Len' : @List.length (F Rops) (nd_energies nd) = S (N.to_nat n)) by exact Len. clear Len. rename Len' into Len.
  destruct (xs_energies_spec nd n) as (es & Ees & F2); [left; rewrite Len; lia|]. exists es. split; [exact Ees|].
  split; [rewrite (pairs_length _ _ _ F2), range_length; reflexivity|]. intros g e He.
  assert (P : exists a b, nth_error (nd_energies nd) (N.to_nat g) = Some a /\ nth_error (nd_energies nd) (S (N.to_nat g)) = Some b /\ e = (a + b) / 2).
  { assert (X : forall k lo es', Forall2 (fun ii e => exists a b, nth_error (nd_energies nd) (N.to_nat ii) = Some a /\
       nth_error (nd_energies nd) (S (N.to_nat ii)) = Some b /\ e = fdiv (f := Rops) (fadd a b) (fadd f1 f1)) (nrange lo k) es' ->
       forall j x, nth_error es' j = Some x -> exists a b, nth_error (nd_energies nd) (N.to_nat lo + j) = Some a /\
       nth_error (nd_energies nd) (S (N.to_nat lo + j)) = Some b /\ x = (a + b) / 2).
    { clear. induction k as [|k IH]; intros lo es' F2 j x Hx; inversion F2; subst; [destruct j; discriminate Hx|]. destruct j as [|j].
      - injection Hx as <-. destruct H1 as (a & b & A & B & ->). exists a, b. rewrite Nat.add_0_r. split; [exact A|]. split; [exact B|].
        change ((a + b) / (1 + 1) = (a + b) / 2). f_equal. 
      - destruct (IH _ _ H3 j x Hx) as (a & b & A & B & C). exists a, b. replace (N.to_nat lo + S j)%nat with (N.to_nat (N.succ lo) + j)%nat by lia. repeat split; assumption. }
    destruct (X _ _ _ F2 _ _ He) as (a & b & A & B & C). exists a, b. cbn [N.to_nat Nat.add] in A, B. repeat split; assumption. }
  destruct P as (a & b & Ea & Eb & ->).
  assert (Lab : a < b) by (apply (increasing_nth (K := Rops) (fun x : R => x) _ Inc (N.to_nat g) (S (N.to_nat g))); [lia|exact Ea|exact Eb]).
  assert (La : lo <= a) by (apply (increasing_nth_le (K := Rops) (fun x : R => x) _ Inc 0 (N.to_nat g)); [lia|exact First|exact Ea]).
  assert (Lb : b <= hi).
  { apply (increasing_nth_le (K := Rops) (fun x : R => x) _ Inc (S (N.to_nat g)) (N.to_nat n)); [|exact Eb|exact Last].
    assert (S (N.to_nat g) < List.length (nd_energies nd))%nat by (apply nth_error_Some; rewrite Eb; discriminate). lia. }
  destruct (lookupR nd ((a + b) / 2) lo hi) as (_ & H).
  - lia.
  - exact Inc.
  - exact First.
  - rewrite Len. cbn [Nat.sub]. rewrite Nat.sub_0_r. exact Last.
  - destruct H as (g' & Eg & _ & U); [lra|]. rewrite Eg. f_equal. symmetry. apply U. exists a, b. split; [exact Ea|]. split; [exact Eb|]. split; [lra|]. left. lra.
Qed.
