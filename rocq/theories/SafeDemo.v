(** A problem in binary64 arithmetic that meets the conditions of the theorems about panics. *)
From Coq Require Import String NArith ZArith QArith Reals Lia Lra List Bool.
From Flocq Require Import Core IEEE754.BinarySingleNaN.
From Verif Require Import Float RngModel RngIeee Ieee ParticleModel NuclearModel MeshTypes Balance TrackModel CycleModel GridModel AssignModel MeshModel SeqRun
  ScheduleSpec RangeSpec IeeeEnergy PopSpec SegmentSpec TrackAccount SegmentFacts SourceCount SafeSpec SafeIeee.
Import ListNotations.
Local Open Scope N_scope.

(** The computable library of Ieee.v, with the logarithm cut at 0 for the arguments below 1. *)
Definition signed_libm : libm := {|
  lm_cbrt := lm_cbrt approx_libm; lm_sin := lm_sin approx_libm; lm_cos := lm_cos approx_libm;
  lm_ln := fun x => if Bleb x (f64_of_Z 1) && Bltb zero64 (approx_ln x) then zero64 else approx_ln x;
  lm_exp := lm_exp approx_libm; lm_log10 := lm_log10 approx_libm; lm_pow10 := lm_pow10 approx_libm
|}.
Lemma signed_ln : ln_sign signed_libm.
Proof.
  intros x (Fx & Rx). cbn [lm_ln signed_libm]. destruct one64 as (F1 & V1).
  assert (E : Bleb x (f64_of_Z 1) = true) by (rewrite Bleb_correct by assumption; apply Rle_bool_true; lra). rewrite E. cbn [andb].
  destruct (Bltb zero64 (approx_ln x)) eqn:G; [reflexivity|exact G].
Qed.
Notation K1 := (f64ops signed_libm).

Definition small_material : material_params K1 :=
  mkMatParams "fuel" (flit (12 # 1)) (flit (2 # 10)) 1 3 (flit (10000000000 # 1)) "flat" "flat" "flat" f1 f1 f1.
Definition small_nuclear : result (nuclear_data K1 * list (material K1)) :=
  init_materials [small_material] (nuclear_new 3 (flit (1 # 1000)) (flit (20 # 1))) [("flat"%string, mkPoly f0 f0 f0 f0 f1)] [("flat"%string, flit (24 # 10))].
Definition small_data (policy : exec_policy) : result (mcdata K1) :=
  do (nd, mats) <- small_nuclear ;
  Ok (mkMcData (mkSimParams 10 3 2 (flit (1 # 1000)) (flit (20 # 1)) (flit (1 # 1000)) true true false) (mkExecInfo policy 2 0 1)
               (mkTrackData (flit (1 # 100000000)) nd mats) [("fuel"%string, small_material)]).
Definition small_domain : result (domain K1) :=
  do (nd, mats) <- small_nuclear ;
  init_mcunits (fun l => l) (mkDims 2 1 1) (flit (10 # 1)) (flit (10 # 1)) (flit (10 # 1)) 1029384756 "octant"
    [mkGeomParams "fuel" Brick f0 f0 f0 f0 f0 f0 f0 (flit (100 # 1)) (flit (100 # 1)) (flit (100 # 1))] mats.

(** ** Conditions as computations *)
Definition positive64 (x : f64) : bool := is_finite x && Bleb zero64 x.
Lemma positive64_ok x : positive64 x = true -> good64 x.
Proof. unfold positive64. intros H. apply andb_true_iff in H as (H1 & H2). split; [exact H1|]. exact (leb64 zero64 x eq_refl H1 H2). Qed.

Definition is_fission (t : reaction_type) : bool := match t with Fission => true | _ => false end.
Definition opt {A} (o : option A) (f : A -> bool) : bool := match o with Some a => f a | None => false end.
Definition ok_with {A} (r : result A) (f : A -> bool) : bool := match r with Ok a => f a | _ => false end.

Definition crossable_check (dom : domain K1) (fa : facet_adj) : bool :=
  match fa_event fa with
  | BoundaryEscape | BoundaryReflection => true
  | TransitOnProcessor => match fa_adjacent fa with mkLocation (Some _) (Some c) (Some _) => c <? n_cells dom | _ => false end
  | _ => false
  end.
Definition mesh_check (m : mesh K1) : bool :=
  forallb (fun cc => (List.length (cc_facet cc) =? 24)%nat && forallb (fun i => i <? N.of_nat (List.length (me_node m))) (cc_point cc)
    && forallb (fun fa => let '(a, b, c) := fa_point fa in forallb (fun i => i <? N.of_nat (List.length (me_node m))) [a; b; c]) (cc_facet cc)) (me_conn m)
  && (List.length (me_geom m) =? List.length (me_conn m))%nat && forallb (fun planes => (List.length planes =? 24)%nat) (me_geom m).
Definition indexed_check (md : mcdata K1) (dom : domain K1) : bool :=
  mesh_check (d_mesh dom) && (List.length (d_cells dom) =? List.length (me_conn (d_mesh dom)))%nat
  && forallb (fun cs => cs_material cs <? N.of_nat (List.length (td_mats (mc_track md)))) (d_cells dom)
  && forallb (fun mat => forallb (fun iso => iso_gid iso <? N.of_nat (List.length (nd_isotopes (td_nuclear (mc_track md))))) (mat_iso mat)) (td_mats (mc_track md))
  && forallb (forallb (fun r => N.of_nat (List.length (r_cross_section r)) =? sp_n_groups (mc_params md))) (nd_isotopes (td_nuclear (mc_track md)))
  && forallb (fun conn => forallb (crossable_check dom) (cc_facet conn)) (me_conn (d_mesh dom))
  && forallb (fun mat => ok_with (map_index (mc_material_params md) (mat_name mat)) (fun _ => true)) (td_mats (mc_track md)).

Ltac ands H := repeat match type of H with (_ && _)%bool = true => let H' := fresh "C" in apply andb_true_iff in H as (H & H') end.

Lemma forallb_Forall {A} (f : A -> bool) l : forallb f l = true -> forall x, In x l -> f x = true.
Proof. intros H. apply forallb_forall. exact H. Qed.

Lemma mesh_check_ok m : mesh_check m = true -> complete_geometry m.
Proof.
  unfold mesh_check. intros H. apply andb_true_iff in H as (H & C2). apply andb_true_iff in H as (H & C1). split; [|split].
  - apply Forall_forall. intros cc Hcc. pose proof (forallb_Forall _ _ H cc Hcc) as X. cbv beta in X. apply andb_true_iff in X as (X & X3). apply andb_true_iff in X as (X1 & X2).
    split; [apply Nat.eqb_eq; exact X1|]. split; [apply Forall_forall; intros i Hi; apply N.ltb_lt; exact (forallb_Forall _ _ X2 i Hi)|].
    apply Forall_forall. intros fa Hfa. pose proof (forallb_Forall _ _ X3 fa Hfa) as Y. cbv beta in Y. destruct (fa_point fa) as [[a b] c].
    apply Forall_forall. intros i Hi. apply N.ltb_lt. exact (forallb_Forall _ _ Y i Hi).
  - apply Nat.eqb_eq. exact C1.
  - apply Forall_forall. intros pl Hpl. apply Nat.eqb_eq. exact (forallb_Forall _ _ C2 pl Hpl).
Qed.
Lemma indexed_check_ok md dom : indexed_check md dom = true -> indexed md dom.
Proof.
  unfold indexed_check. intros H. apply andb_true_iff in H as (H & C6). apply andb_true_iff in H as (H & C5). apply andb_true_iff in H as (H & C4).
  apply andb_true_iff in H as (H & C3). apply andb_true_iff in H as (H & C2). apply andb_true_iff in H as (H & C1). constructor.
  - apply mesh_check_ok. exact H.
  - apply Nat.eqb_eq. exact C1.
  - intros cs Hcs. apply N.ltb_lt. exact (forallb_Forall _ _ C2 cs Hcs).
  - intros mat iso Hm Hi. apply N.ltb_lt. exact (forallb_Forall _ _ (forallb_Forall _ _ C3 mat Hm) iso Hi).
  - intros rs r Hrs Hr. apply N.eqb_eq. exact (forallb_Forall _ _ (forallb_Forall _ _ C4 rs Hrs) r Hr).
  - intros conn fa Hc Hf. pose proof (forallb_Forall _ _ (forallb_Forall _ _ C5 conn Hc) fa Hf) as X. unfold crossable_check in X. unfold crossable.
    destruct (fa_event fa); try discriminate; auto. destruct (fa_adjacent fa) as [[d|] [c|] [f|]]; try discriminate. exists d, c, f. split; [reflexivity|]. apply N.ltb_lt. exact X.
  - apply Forall_forall. intros mat Hm. pose proof (forallb_Forall _ _ C6 mat Hm) as X. cbv beta in X. destruct (map_index _ _) as [mp| |]; try discriminate. eauto.
Qed.

Definition numbers_check (md : mcdata K1) (dom : domain K1) : bool :=
  let td := mc_track md in
  negb (flt (td_dt td) (f0 : F K1))
  && forallb (fun c => forallb (fun g => ok_with (cell_cross_section td dom c g) (fun x => positive64 x)) (nrange 0 (N.to_nat (sp_n_groups (mc_params md))))) (nrange 0 (N.to_nat (n_cells dom)))
  && forallb (fun cs : cell_state K1 => opt (nth_error (td_mats td) (N.to_nat (cs_material cs))) (fun mat => forallb (fun iso : isotope K1 =>
       opt (nth_error (nd_isotopes (td_nuclear td)) (N.to_nat (iso_gid iso))) (forallb (fun r : reaction K1 =>
         forallb (fun x : F K1 => positive64 (fmul (fmul (iso_atom_fraction iso) (cs_number_density cs)) x)) (r_cross_section r)))) (mat_iso mat))) (d_cells dom)
  && forallb (forallb (fun r : reaction K1 => if is_fission (r_type r) then positive64 (r_nu_bar r) && is_finite (fadd (r_nu_bar r) (f1 : F K1) : f64)
       && flt (fadd (r_nu_bar r) f1) (flit (5 # 1) : F K1) else true)) (nd_isotopes (td_nuclear td))
  && (10 <=? sp_n_particles (mc_params md)) && (sp_n_particles (mc_params md) <=? 2 ^ 63) && (ei_n_units (mc_exec md) =? 1)
  && ok_with (unit_weight md dom) (fun w => forallb (fun cs =>
       opt (nth_error (td_mats td) (N.to_nat (cs_material cs))) (fun mat => ok_with (map_index (mc_material_params md) (mat_name mat)) (fun mp =>
         opt (fto_usize (ffloor (fdiv (fmul (fmul (cs_volume cs) (mp_source_rate mp)) (td_dt td)) (fdiv (fadd f0 w) (fmul src_fraction (fof_N (sp_n_particles (mc_params md)))))))) (fun _ => true)))) (d_cells dom)).

Lemma nrange_all n : forall lo i, lo <= i < lo + N.of_nat n -> In i (nrange lo n).
Proof. induction n as [|n IH]; intros lo i H; [lia|]. cbn [nrange In]. destruct (N.eq_dec lo i); [left; assumption|right; apply IH; lia]. Qed.

Lemma numbers_check_ok md dom : numbers_check md dom = true -> fine_numbers signed_libm md dom.
Proof.
  unfold numbers_check. cbv zeta. intros H. apply andb_true_iff in H as (H & C7). apply andb_true_iff in H as (H & C6). apply andb_true_iff in H as (H & C5). apply andb_true_iff in H as (H & C4).
  apply andb_true_iff in H as (H & C3). apply andb_true_iff in H as (H & C2). apply andb_true_iff in H as (H & C1). constructor.
  - apply negb_true_iff. exact H.
  - intros c g xs (Hc & Hg) E.
    assert (Ic : In c (nrange 0 (N.to_nat (n_cells dom)))) by (apply nrange_all; rewrite N2Nat.id; lia).
    assert (Ig : In g (nrange 0 (N.to_nat (sp_n_groups (mc_params md))))) by (apply nrange_all; rewrite N2Nat.id; lia).
    pose proof (forallb_Forall _ _ (forallb_Forall _ _ C1 c Ic) g Ig) as X. cbv beta in X.
    rewrite E in X. apply positive64_ok. exact X.
  - intros cs mat iso rs r g x Hcs Em Hi Er Hr Ex. pose proof (forallb_Forall _ _ C2 cs Hcs) as X. cbv beta in X. rewrite Em in X. cbn [opt] in X.
    pose proof (forallb_Forall _ _ X iso Hi) as Y. cbv beta in Y. rewrite Er in Y. cbn [opt] in Y. apply positive64_ok.
    exact (forallb_Forall _ _ (forallb_Forall _ _ Y r Hr) x (nth_error_In _ _ Ex)).
  - intros rs r Hrs Hr Hf. pose proof (forallb_Forall _ _ (forallb_Forall _ _ C3 rs Hrs) r Hr) as X. cbv beta in X. rewrite Hf in X. cbn [is_fission] in X.
    apply andb_true_iff in X as (X & X3). apply andb_true_iff in X as (X1 & X2). split; [apply positive64_ok; exact X1|]. split; assumption.
  - split; apply N.leb_le; assumption.
  - apply N.eqb_eq. exact C6.
  - intros w cs x Ew Hcs (mat & mp & Em & Emp & ->). rewrite Ew in C7. cbn [ok_with] in C7. pose proof (forallb_Forall _ _ C7 cs Hcs) as X. cbv beta in X.
    rewrite Em in X. cbn [opt] in X. rewrite Emp in X. cbn [ok_with] in X. destruct (fto_usize _) as [n|]; [|discriminate]. eauto.
Qed.

Definition energy_check (md : mcdata K1) : bool :=
  let em := sp_e_max (mc_params md) in
  let en := sp_e_min (mc_params md) in
  let w := fadd (fsub em en) en in
  (is_finite (em : f64) && is_finite (en : f64) && fle f0 en && fle en em && fle (flit (20 # 1)) em
   && is_finite (w : f64) && fle w em
   && forallb (fun mat : material K1 => is_finite (mat_mass mat : f64) && fle f1 (mat_mass mat)) (td_mats (mc_track md))
   && match last_energy md with Some el => is_finite (el : f64) && fle em el | None => true end)%bool.
Lemma energy_check_ok md : energy_check md = true -> bounded_params signed_libm md.
Proof.
  unfold energy_check. rewrite !andb_true_iff. intros ((((((((H1 & H2) & H3) & H4) & H5) & H6) & H7) & H8) & H9).
  assert (HL : forall el, last_energy (K := K1) md = Some el -> is_finite (el : f64) = true /\ fle (sp_e_max (mc_params md)) el = true).
  { intros el E. rewrite E in H9. apply andb_true_iff in H9. exact H9. }
  constructor; auto.
  apply Forall_forall. intros mat Hm. rewrite forallb_forall in H8. specialize (H8 _ Hm). apply andb_true_iff in H8. exact H8.
Qed.
Definition sound_check (md : mcdata K1) : bool := (0 <? sp_n_groups (mc_params md)) && (N.of_nat (List.length (energies md)) =? sp_n_groups (mc_params md) + 1).
Lemma sound_check_ok md dom : sound_check md = true -> indexed md dom -> sound_problem md dom.
Proof.
  unfold sound_check. intros H Hx. apply andb_true_iff in H as (H1 & H2). constructor; [apply N.ltb_lt; exact H1|apply N.eqb_eq; exact H2|].
  intros conn fa c Hc Hf He Hl. pose proof (ix_facets _ _ Hx conn fa Hc Hf) as X. unfold crossable in X. rewrite He in X. destruct X as (d0 & c0 & f & E & L). rewrite E in Hl. cbn [loc_cell] in Hl. congruence.
Qed.

Definition small_check : bool :=
  ok_with (small_data Rayon) (fun md => ok_with small_domain (fun dom => indexed_check md dom && numbers_check md dom && energy_check md && sound_check md)).
Lemma small_checked : small_check = true.
Proof. vm_compute. reflexivity. Qed.

Lemma small_problem : exists md dom, small_data Rayon = Ok md /\ small_domain = Ok dom /\ sound_problem md dom /\ indexed md dom /\
  bounded_params signed_libm md /\ fine_numbers signed_libm md dom /\ implemented md /\ threads_ok md /\ (0 < List.length (d_cells dom))%nat.
Proof.
  pose proof small_checked as H. unfold small_check in H. destruct (small_data Rayon) as [md| |] eqn:Ed; [|discriminate H|discriminate H]. cbn [ok_with] in H.
  destruct small_domain as [dom| |] eqn:Em; [|discriminate H|discriminate H]. cbn [ok_with] in H.
  apply andb_true_iff in H as (H & H4). apply andb_true_iff in H as (H & H3). apply andb_true_iff in H as (H1 & H2).
  apply indexed_check_ok in H1. apply numbers_check_ok in H2. apply energy_check_ok in H3. pose proof (sound_check_ok md dom H4 H1) as H5.
  assert (Hp : mc_exec md = mkExecInfo Rayon 2 0 1).
  { unfold small_data in Ed. destruct small_nuclear as [[nd mats]| |]; [|discriminate Ed|discriminate Ed]. cbn [rbind] in Ed. apply Ok_inj in Ed. subst md. reflexivity. }
  exists md, dom. split; [reflexivity|]. split; [reflexivity|]. split; [exact H5|]. split; [exact H1|]. split; [exact H3|]. split; [exact H2|].
  unfold implemented, threads_ok. rewrite Hp. cbn. split; [right; reflexivity|]. split; [intros _ _; discriminate|].
  assert (Hn : ok_with small_domain (fun d => negb (List.length (d_cells d) =? 0)%nat) = true) by (vm_compute; reflexivity).
  rewrite Em in Hn. cbn [ok_with] in Hn. apply negb_true_iff, Nat.eqb_neq in Hn. lia.
Qed.
