(** The parameters decide what is excluded (C66), and the arithmetics in which zero takes nothing away. *)
From Coq Require Import NArith ZArith QArith Qreals String List Bool Reals Lra Lia.
From Flocq Require Import Core IEEE754.BinarySingleNaN.
From Verif Require Import Float RealOps RngIeee Ieee ParticleModel NuclearModel MeshTypes TrackModel CycleModel GridModel MeshModel GridSpec MeshSpec MeshTheorems
  TrackAccount NuclearSpec NuclearFacts SegmentFacts CrossingLemmas GeomSpec SourcePoint WellBuilt ParamModel ParamSpec SetUpSpec SafeSpec SafeBuilt SafeReal ExcludeSpec.
Import ListNotations.

(** ** Arithmetics *)
Lemma zero_real : zero_takes_nothing Rops /\ (forall x : F Rops, fle f0 x = true -> flt x f0 = false).
Proof.
  split.
  - intros c x y Hy Hx. cbn [feq flt fsub fmul f0 Rops] in * . apply Reqb_iff in Hy. subst y. apply Rltb_false. apply Rltb_false in Hx. change (F Rops) with R in * . lra.
  - intros x Hx. cbn [fle flt f0 Rops] in * . apply Rleb_iff in Hx. apply Rltb_false. exact Hx.
Qed.

Lemma zero_ieee (lm : libm) : zero_takes_nothing (f64ops lm) /\ (forall x : F (f64ops lm), fle f0 x = true -> flt x f0 = false).
Proof.
  split.
  - intros c x y Hy Hx. cbn [feq flt fsub fmul f0 f64ops F] in * . change (F (f64ops lm)) with f64 in * .
    assert (Zy : exists s, y = B754_zero s) by (destruct y as [s|s| |s m e H]; [eauto|destruct s; discriminate Hy|discriminate Hy|destruct s; discriminate Hy]).
    destruct Zy as (s & ->). unfold fmul64, fsub64.
    assert (Zc : (exists s', Bmult mode_NE c (B754_zero s : f64) = B754_zero s') \/ Bmult mode_NE c (B754_zero s : f64) = B754_nan) by (destruct c; cbn; eauto).
    destruct Zc as [(s' & ->)| ->].
    + destruct x as [sx|sx| |sx m e H]; [destruct sx, s'; reflexivity|exact Hx|reflexivity|exact Hx].
    + destruct x; reflexivity.
  - intros x Hx. cbn [fle flt f0 f64ops F] in * . destruct x as [s|s| |s m e H]; try reflexivity; destruct s; try reflexivity; discriminate Hx.
Qed.

(** ** What the parameters ask for *)
Section Asked.
Context {K : FloatOps}.

Definition number_of (k : reaction_type) (n : N) : N := match k with Scatter => n_scatter n | Absorption => n_absorption n | Fission => n_fission n end.
Definition asked (mp : material_params K) (k : reaction_type) : F K :=
  fdiv (fmul (mp_total_cross_section mp) (ratio_of k mp)) (fmul (fof_N (number_of k (mp_n_reactions mp))) (fadd (fadd (mp_fission_ratio mp) (mp_scattering_ratio mp)) (mp_absorption_ratio mp))).

Variable P : reaction K -> Prop.

Lemma isotope_asked (nd nd' : nuclear_data K) xs mp nu gid : add_isotope nd xs mp nu = Ok (nd', gid) ->
  (forall t q, P (reaction_new t nu (nd_energies nd) q (asked mp t))) ->
  Forall (Forall P) (nd_isotopes nd) -> Forall (Forall P) (nd_isotopes nd') /\ nd_energies nd' = nd_energies nd.
Proof.
  unfold add_isotope. intros H HP HF. rb H as ff E1. rb H as sf E2. rb H as af E3. apply Ok_inj in H. injection H as <- _.
  cbn [nd_isotopes nd_energies]. split; [|reflexivity]. apply Forall_app. split; [exact HF|]. constructor; [|constructor].
  apply Forall_map, Forall_forall. intros i _. destruct (i mod 3)%N as [|[p|p|]]; [apply (HP Scatter)|apply (HP Absorption)|apply (HP Absorption)|apply (HP Fission)].
Qed.
Lemma isotopes_asked xs mp nu : forall n (nd nd' : nuclear_data K) l, add_isotopes n nd xs mp nu = Ok (nd', l) ->
  (forall t q, P (reaction_new t nu (nd_energies nd) q (asked mp t))) ->
  Forall (Forall P) (nd_isotopes nd) -> Forall (Forall P) (nd_isotopes nd') /\ nd_energies nd' = nd_energies nd.
Proof.
  induction n as [|n IH]; intros nd nd' l H HP HF; cbn [add_isotopes] in H.
  - apply Ok_inj in H. injection H as <- _. auto.
  - rb H as [nd1 gid] E1. rb H as [nd2 l2] E2. apply Ok_inj in H. injection H as <- _.
    destruct (isotope_asked _ _ _ _ _ _ E1 HP HF) as (F1 & Ee). destruct (IH _ _ _ E2) as (F2 & Ee2); [rewrite Ee; exact HP|exact F1|].
    split; [exact F2|congruence].
Qed.
Lemma reactions_asked xs nus : forall mps (nd nd' : nuclear_data K) mats, init_materials mps nd xs nus = Ok (nd', mats) ->
  (forall mp nu t q, In mp mps -> P (reaction_new t nu (nd_energies nd) q (asked mp t))) ->
  Forall (Forall P) (nd_isotopes nd) -> Forall (Forall P) (nd_isotopes nd').
Proof.
  induction mps as [|mp mps IH]; intros nd nd' mats H HP HF; cbn [init_materials] in H.
  - apply Ok_inj in H. injection H as <- _. exact HF.
  - rb H as [nd1 iso] E1. rb H as [nd2 mats2] E2. apply Ok_inj in H. injection H as <- _.
    assert (G : Forall (Forall P) (nd_isotopes nd1) /\ nd_energies nd1 = nd_energies nd).
    { destruct (N.to_nat (mp_n_isotopes mp)) as [|k]; [apply Ok_inj in E1; injection E1 as <- _; auto|].
      rb E1 as nu En. apply (isotopes_asked _ _ _ _ _ _ _ E1); [|exact HF]. intros t q. apply HP. left. reflexivity. }
    destruct G as (F1 & Ee). eapply IH; [exact E2| |exact F1]. intros. rewrite Ee. apply HP. right. assumption.
Qed.
End Asked.
Local Open Scope R_scope.

(** A reaction of which nothing is asked has no cross-section. *)
Lemma nothing_asked t (nu : R) es q : Forall (fun x : R => feq (f := Rops) x 0 = true) (r_cross_section (reaction_new (K := Rops) t nu es q (0 : R))).
Proof.
  unfold reaction_new. destruct (reaction_values (K := Rops) q es f0) as [l n]. cbn [r_cross_section]. apply Forall_map, Forall_forall. intros x _.
  cbn [feq fmul fdiv Rops]. apply Reqb_iff. change (F Rops) with R in * . unfold Rdiv. ring.
Qed.

(** ** The problem that is set up *)
Lemma parameters_exclude (p : params Rops) md threads g bc pt geoms dom k : init_mcdata p = Ok md -> physical p ->
  built_domain g bc pt geoms (td_mats (mc_track md)) dom -> sized g ->
  Forall (fun e : string * material_params Rops => ratio_of k (snd e) = (0 : R)) (pa_mats p) ->
  excluded (mc_track (set_threads threads md)) dom k.
Proof.
  intros Hi Hp D Hs Hr. destruct (threads_same threads md) as (_ & -> & _). destruct (initialised _ _ Hi) as (nd & _ & _ & En & _ & Em).
  pose proof (init_materials_mix _ _ _ _ _ _ Em) as (_ & _ & _ & HM & _).
  pose proof (reactions_asked (fun r : reaction Rops => r_type r = k -> Forall (fun x : R => feq (f := Rops) x 0 = true) (r_cross_section r)) _ _ _ _ _ _ Em) as HA.
  assert (HA' : Forall (Forall (fun r : reaction Rops => r_type r = k -> Forall (fun x : R => feq (f := Rops) x 0 = true) (r_cross_section r))) (nd_isotopes nd)).
  { apply HA; [|constructor]. intros mp nu t q Hin Ht. destruct (reaction_new_shape t nu (nd_energies (nuclear_new (si_n_groups (pa_sim p)) (si_e_min (pa_sim p)) (si_e_max (pa_sim p)))) q (asked mp t)) as (Et & _).
    rewrite Et in Ht. subst t. apply in_map_iff in Hin. destruct Hin as (e & <- & He). rewrite Forall_forall in Hr. specialize (Hr e He).
    assert (E0 : asked (snd e) k = (0 : R)) by (unfold asked; rewrite Hr; cbn [fdiv fmul Rops]; unfold Rdiv; change (F Rops) with R in * ; ring).
    rewrite E0. apply nothing_asked. }
  unfold excluded. apply Forall_forall. intros cs Hcs. apply In_nth_error in Hcs. destruct Hcs as (i & Ei).
  destruct (cell_facts _ _ _ _ _ _ D Hs i cs Ei) as (c & _ & _ & _ & _ & _ & Nd). split.
  - intros iso (mat & Emat & Hiso). rewrite Nd. split; [|cbn [feq f0 Rops]; apply Reqb_false; lra].
    assert (Hm : exists mp, material_for nd (map (fun e => (fst e, xp_nu_bar (snd e))) (pa_xs p)) mp mat).
    { apply nth_error_In in Emat. clear - HM Emat. induction HM as [|mp m l l' H _ IH]; [destruct Emat|]. destruct Emat as [->|Hin]; eauto. }
    destruct Hm as (mp & _ & _ & Hl & HF). rewrite Forall_forall in HF. destruct (HF _ Hiso) as (-> & _).
    cbn [feq fdiv f1 f0 fof_N Rops]. apply Reqb_false.
    assert (N0 : (0 < mp_n_isotopes mp)%N) by (destruct (mat_iso mat); [destruct Hiso|cbn [List.length] in Hl; lia]).
 intros E. unfold Rdiv in E. apply Rmult_integral in E.
    destruct E as [E|E]; [lra|]. revert E. apply Rinv_neq_0_compat. apply not_0_IZR. lia.
  - intros r (iso & rs & _ & Ers & Hr0) Ht. rewrite En in Ers. apply nth_error_In in Ers. rewrite Forall_forall in HA'. specialize (HA' _ Ers). rewrite Forall_forall in HA'. exact (HA' r Hr0 Ht).
Qed.

(** A mesh with reflecting boundaries is closed. *)
Lemma reflecting_closed {K : FloatOps} (g : grid K) pt geoms mats dom : built_domain g "reflect" pt geoms mats dom -> closed (d_mesh dom).
Proof.
  intros D conn fa Hc Hf. destruct (built_domain_parts _ _ _ _ _ _ D) as (B & _). apply In_nth_error in Hc. destruct Hc as (i & Ei). apply In_nth_error in Hf. destruct Hf as (j & Ej).
  destruct (facets_exist _ _ _ _ B) as (_ & Hl & _). destruct (Hl i) as (c & Li); [apply nth_error_Some; congruence|].
  assert (Fa : facet_at (d_mesh dom) i j fa) by (exists conn; auto). pose proof (boundary_events _ _ _ _ _ _ _ _ B Li Fa) as Ev.
  destruct (on_boundary _ _ _); [|rewrite Ev; discriminate]. unfold requested in Ev. cbn in Ev. injection Ev as <-. discriminate.
Qed.
