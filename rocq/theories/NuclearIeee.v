(** Energy groups in binary64 arithmetic (C16), and cross-sections for energies that all lie below the
    normalisation energy (C20). *)
From Coq Require Import NArith ZArith QArith Reals List Bool Lra Lia.
From Flocq Require Import Core IEEE754.BinarySingleNaN.
From Verif Require Import Float RngModel RngIeee Ieee RealOps ParticleModel NuclearModel TrackAccount NuclearSpec NuclearFacts.
Import ListNotations.
Local Open Scope R_scope.

Lemma ltb_iff64 (x y : f64) : is_finite x = true -> is_finite y = true -> (Bltb x y = true <-> B2R x < B2R y).
Proof. intros Hx Hy. rewrite Bltb_correct by assumption. split; intros H; [destruct (Raux.Rlt_bool_spec (B2R x) (B2R y)); [assumption|discriminate]|apply Raux.Rlt_bool_true; exact H]. Qed.
Lemma leb_iff64 (x y : f64) : is_finite x = true -> is_finite y = true -> (Bleb x y = true <-> B2R x <= B2R y).
Proof. intros Hx Hy. rewrite Bleb_correct by assumption. split; intros H; [destruct (Raux.Rle_bool_spec (B2R x) (B2R y)); [assumption|discriminate]|apply Raux.Rle_bool_true; exact H]. Qed.

Definition value64 lm (x : F (f64ops lm)) : R := B2R (x : f64).
Definition finite64 lm (x : F (f64ops lm)) : Prop := is_finite (x : f64) = true.

Lemma lookup64 lm (nd : nuclear_data (f64ops lm)) (e first last : F (f64ops lm)) :
  Forall (finite64 lm) (nd_energies nd) -> finite64 lm e -> (2 <= length (nd_energies nd))%nat ->
  increasing (value64 lm) (nd_energies nd) -> nth_error (nd_energies nd) 0 = Some first ->
  nth_error (nd_energies nd) (length (nd_energies nd) - 1) = Some last ->
  (value64 lm e <= value64 lm first -> get_energy_groups nd e = Ok 0%N) /\
  (value64 lm first <= value64 lm e <= value64 lm last -> exists g, get_energy_groups nd e = Ok g /\
    in_group (value64 lm) (nd_energies nd) e g /\ forall g', in_group (value64 lm) (nd_energies nd) e g' -> g' = g).
Proof.
  apply (lookup_correct (K := f64ops lm) (value64 lm) (finite64 lm)); intros a b Ha Hb.
  - apply ltb_iff64; assumption.
  - apply leb_iff64; assumption.
Qed.

Lemma lookupR (nd : nuclear_data Rops) (e first last : R) :
  (2 <= length (nd_energies nd))%nat -> increasing (fun x : R => x) (nd_energies nd) ->
  nth_error (nd_energies nd) 0 = Some first -> nth_error (nd_energies nd) (length (nd_energies nd) - 1) = Some last ->
  (e <= first -> get_energy_groups nd e = Ok 0%N) /\
  (first <= e <= last -> exists g, get_energy_groups nd e = Ok g /\
    in_group (fun x : R => x) (nd_energies nd) e g /\ forall g', in_group (fun x : R => x) (nd_energies nd) e g' -> g' = g).
Proof.
  intros H1 H2 H3 H4.
  apply (lookup_correct (K := Rops) (fun x : R => x) (fun _ => True)); auto.
  - intros a b _ _. apply Rltb_iff.
  - intros a b _ _. apply Rleb_iff.
  - apply Forall_forall. auto.
Qed.

(** ** All upper boundaries below one *)

Lemma div_zero64 (x : f64) : is_finite (fdiv64 x (B754_zero false)) = false.
Proof. destruct x as [[|]|[|]| |[|] m e H]; reflexivity. Qed.
Lemma mul_infinite64 (x y : f64) : is_finite y = false -> is_finite (fmul64 x y) = false.
Proof. destruct x as [[|]|[|]| |[|] m e H]; destruct y as [[|]|[|]| |[|] m' e' H']; intros E; try discriminate E; reflexivity. Qed.

Section BelowOne.
Variable lm : libm.
Let K := f64ops lm.

Lemma values_zero p : forall (es : list (F K)) n, Forall (fun e : F K => fle f1 e = false) (tl es) -> snd (reaction_values p es n) = n.
Proof.
  induction es as [|e0 es IH]; intros n H; [reflexivity|]. destruct es as [|e1 es]; [reflexivity|].
  rewrite reaction_values_cons. cbn [tl] in H. rewrite (Forall_inv H). cbn [andb].
  specialize (IH n). cbn [tl] in IH. specialize (IH (Forall_inv_tail H)). cbv zeta.
  destruct (reaction_values p (e1 :: es) n) as [l m]. exact IH.
Qed.

Lemma never_finite k nu (es : list (F K)) p (xs : F K) : Forall (fun e : F K => fle f1 e = false) (tl es) ->
  Forall (fun x : F K => is_finite (x : f64) = false) (r_cross_section (reaction_new k nu es p xs)).
Proof.
  intros H. unfold reaction_new. pose proof (values_zero p es f0 H) as E.
  destruct (reaction_values p es f0) as [l m]. cbn [snd] in E. subst m. cbn [r_cross_section].
  apply Forall_forall. intros y Hy. apply in_map_iff in Hy. destruct Hy as (x & <- & _).
  apply (mul_infinite64 x). apply div_zero64.
Qed.

(** No cross-section of the isotope is a number that can be used. *)
Lemma isotope_never_finite (nd nd' : nuclear_data K) xs mp nu gid : add_isotope nd xs mp nu = Ok (nd', gid) ->
  Forall (fun e : F K => fle f1 e = false) (tl (nd_energies nd)) ->
  exists rs, nth_error (nd_isotopes nd') (N.to_nat gid) = Some rs /\ length rs = N.to_nat (mp_n_reactions mp) /\
    Forall (fun r : reaction K => length (r_cross_section r) = (length (nd_energies nd) - 1)%nat /\
       Forall (fun x : F K => is_finite (x : f64) = false) (r_cross_section r)) rs.
Proof.
  intros H He. pose proof (add_isotope_mix _ _ _ _ _ _ H) as (A1 & A2 & A3 & rs & A4 & A5).
  exists rs. split; [rewrite A4, A3, Nat2N.id, nth_error_app2, Nat.sub_diag by lia; reflexivity|].
  destruct A5 as (B1 & B2 & _). split; [exact B1|].
  assert (S : Forall (fun r : reaction K => Forall (fun x : F K => is_finite (x : f64) = false) (r_cross_section r)) rs).
  { unfold add_isotope in H. rb H as ff E1. rb H as sf E2. rb H as af E3. injection H; intros _ Hn. subst nd'. cbn [nd_isotopes] in A4.
    apply app_inv_head in A4. injection A4; intros Er. clear - He Er. subst rs. apply Forall_forall. intros r Hr.
    apply in_map_iff in Hr. destruct Hr as (i & <- & _). destruct (i mod 3)%N as [|[?|?|]]; apply never_finite; exact He. }
  apply Forall_forall. intros r Hr. split; [|exact (proj1 (Forall_forall _ _) S r Hr)].
  apply In_nth_error in Hr. destruct Hr as [i Hi]. apply (B2 i r Hi).
Qed.
End BelowOne.
