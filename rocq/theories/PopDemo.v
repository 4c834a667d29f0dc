(** Concrete cases for the claims about the population. *)
From Coq Require Import NArith ZArith QArith Qreals List Bool Lia PeanoNat Reals Lra String.
From Flocq Require Import Core.
From Verif Require Import Float RealOps RngModel RngSpec ParticleModel NuclearModel MeshTypes Balance TrackModel CycleModel
  ProgLemmas TrackSpec CycleSpec TrackAccount CycleAccount Ieee GridModel AssignModel MeshModel SeqRun Demo DemoRun DemoSound
  PopSpec SortLemmas SourceLemmas PopLemmas SourceCount.
Import ListNotations.
Local Open Scope N_scope.

Lemma Forall2_in_l {A B} (R : A -> B -> Prop) l l' a : Forall2 R l l' -> In a l -> exists b, R a b.
Proof. induction 1 as [|x y l l' Hxy H IH]; intros Hin; [destruct Hin|]. destruct Hin as [<-|Hin]; eauto. Qed.

(** ** Phases that do not panic, in real arithmetic *)

Lemma unit_weight_defined (md : mcdata Rops) d (xs : list R) : materials_known md -> Forall2 (emits md) (d_cells d) xs ->
  exists w, unit_weight md d = Ok w.
Proof.
  intros Hk Hx. destruct (rates_defined md Hk) as (rates & Er). unfold unit_weight. rewrite Er. cbn [rbind].
  match goal with |- context [rmap ?g ?l] => destruct (rmap_all g l) as (ws & ->) end; [|eexists; reflexivity].
  intros cs Hin. assert (Hv : exists r, vec_get rates (cs_material cs) = Ok r).
  { destruct (Forall2_in_l _ _ _ _ Hx Hin) as (x & mat & mp & M1 & _). apply vec_get_lt. unfold source_rates in Er.
    destruct (rmap_ok _ _ _ Er) as (L & _). rewrite L.
    assert (Hne : nth_error (td_mats (mc_track md)) (N.to_nat (cs_material cs)) <> None) by congruence. apply nth_error_Some in Hne. lia. }
  destruct Hv as (r & ->). eexists. reflexivity.
Qed.

Lemma prepare_defined (md : mcdata Rops) (s : sim Rops) (xs : list R) : materials_known md ->
  Forall2 (emits md) (d_cells (u_domain (s_unit s))) xs -> (sp_n_particles (mc_params md) < 2 ^ 64) ->
  exists s1, prepare_cycle md s = Ok s1 /\ s_cont s1 = swap_processing_processed (s_cont s) /\ u_balance (s_unit s1) =
    bset (u_balance (s_unit s)) EStart (N.of_nat (List.length (processing (swap_processing_processed (s_cont s))))).
Proof.
  intros Hk Hx Hn. destruct (unit_weight_defined md (u_domain (s_unit s)) xs Hk Hx) as (w & Ew). unfold prepare_cycle. rewrite Ew. cbn [rbind].
  assert (B : exists n, fto_usize (fmul (src_fraction (K := Rops)) (fof_N (sp_n_particles (mc_params md)))) = Some n).
  { rewrite tenth. cbn [fto_usize Rops]. unfold Rto_usize.
    assert (P : (0 <= IZR (Z.of_N (sp_n_particles (mc_params md))))%R) by (apply IZR_le; lia).
    assert (Q : (IZR (Z.of_N (sp_n_particles (mc_params md))) < IZR (2 ^ 64))%R) by (apply IZR_lt; lia).
    replace (Rltb _ _) with true; [|symmetry; apply Rltb_iff; lra].
    replace (Rltb _ (IZR (2 ^ 64))) with true; [|symmetry; apply Rltb_iff; lra]. eexists. reflexivity. }
  destruct B as (n & ->). cbn [unwrap rbind]. eexists. split; [reflexivity|]. split; reflexivity.
Qed.

Lemma split_all_defined f (l : list (particle Rops)) : (1 <= f < IZR (2 ^ 64))%R -> exists r, split_all (K := Rops) f l = Ok r.
Proof.
  intros Hf. induction l as [|p l IH]; cbn [split_all]; [eexists; reflexivity|].
  destruct (split_exists p f Hf) as (q & c & ->). cbn [rbind]. destruct IH as ((ps & rest) & ->). eexists. reflexivity.
Qed.

Lemma population_defined (md : mcdata Rops) (s : sim Rops) u0 c0 :
  ei_n_units (mc_exec md) = 1 -> sp_n_particles (mc_params md) < 2 ^ 64 ->
  source_now md (s_source_weight s) (s_unit s) (s_cont s) = Ok (u0, c0) -> 0 < current_number md s c0 ->
  exists u c, population_phase md s = Ok (u, c).
Proof.
  intros Hu Hn Hs Hc. unfold population_phase. rewrite Hs. cbn [rbind].
  assert (E : exists f, compute_split_factor (K := Rops) (sp_n_particles (mc_params md)) (s_global_n s) (N.of_nat (List.length (processing c0)))
     (ei_n_units (mc_exec md)) (sp_load_balance (mc_params md)) = Ok f).
  { unfold compute_split_factor. destruct (sp_load_balance _); [|eexists; reflexivity].
    destruct (negb _); [|eexists; reflexivity]. rewrite Hu. cbn [fto_usize fceil fdiv fof_N Rops]. change (IZR (Z.of_N 1)) with 1%R.
    unfold Rdiv. rewrite Rinv_1, Rmult_1_r, Zceil_IZR, Rto_usize_Z by lia. cbn [unwrap rbind]. eexists. reflexivity. }
  destruct E as (f & Ef). pose proof (split_factor_is md s c0 f Hu Hn Hc Ef) as Hf. rewrite Ef. cbn [rbind].
  destruct (flt f f1); [destruct (regulate_population _ _ _ _ _); eexists; eexists; reflexivity|].
  destruct (flt f1 f) eqn:Eg; [|eexists; eexists; reflexivity].
  assert (Hb : (1 <= f < IZR (2 ^ 64))%R).
  { cbn [flt f1 Rops] in Eg. apply Rltb_iff in Eg. split; [lra|]. rewrite Hf. cbn [fdiv fof_N Rops].
    assert (P : (1 <= IZR (Z.of_N (current_number md s c0)))%R) by (apply IZR_le; lia).
    assert (Q : (IZR (Z.of_N (sp_n_particles (mc_params md))) < IZR (2 ^ 64))%R) by (apply IZR_lt; lia).
    assert (Q0 : (0 <= IZR (Z.of_N (sp_n_particles (mc_params md))))%R) by (apply IZR_le; lia).
    apply Rle_lt_trans with (2 := Q). apply Rmult_le_reg_r with (IZR (Z.of_N (current_number md s c0))); [lra|].
    unfold Rdiv. rewrite Rmult_assoc, Rinv_l, Rmult_1_r by lra. rewrite <- (Rmult_1_r (IZR (Z.of_N (sp_n_particles _)))) at 1.
    apply Rmult_le_compat_l; assumption. }
  destruct (split_all_defined f (processing c0) Hb) as ((ps & copies) & Es). unfold split_population. rewrite Es. cbn [rbind].
  eexists. eexists. reflexivity.
Qed.

(** ** A small problem in real arithmetic: one cell, as many particles as wanted *)

Definition tiny_mat : material_params Rops :=
  mkMatParams (K := Rops) "fuel" (12 : R)%R (1 : R)%R 0 3 (1 : R)%R "flat" "flat" "flat" (1 : R)%R (1 : R)%R (1 : R)%R.
Definition tiny_md (n : N) : mcdata Rops :=
  mkMcData (K := Rops) (mkSimParams (K := Rops) n 3 1 (1 : R)%R (20 : R)%R (/ 2 : R)%R true false true) (mkExecInfo Sequential 1 0 1)
    (mkTrackData (K := Rops) (1 : R)%R (mkNuclear (K := Rops) 3 [] []) [mkMaterial (K := Rops) "fuel" (12 : R)%R []]) [("fuel"%string, tiny_mat)].
Definition tiny_facet : facet_adj :=
  mkFacetAdj BoundaryReflection (mkLocation None None None) (mkLocation None None None) None None None (0, 0, 0).
Definition tiny_dom : domain Rops :=
  mkDomain (K := Rops) 0 [mkCellState (K := Rops) 0 (1 : R)%R (1 : R)%R 0 0]
    (mkMesh (K := Rops) 0 [vzero] [mkCellConn (repeat tiny_facet 24) (repeat 0 14)] []).

Lemma tiny_emits n : Forall2 (emits (tiny_md n)) (d_cells tiny_dom) [(1 * 1 * 1)%R].
Proof. constructor; [|constructor]. eexists. eexists. split; [reflexivity|]. split; reflexivity. Qed.
Lemma tiny_known n : materials_known (tiny_md n).
Proof. constructor; [|constructor]. eexists. reflexivity. Qed.
Lemma tiny_complete : complete_mesh (d_mesh tiny_dom).
Proof.
  constructor; [|constructor]. split; [reflexivity|]. split; apply Forall_forall; intros x Hx; apply repeat_spec in Hx; subst; [reflexivity|].
  cbn [fa_point tiny_facet]. repeat constructor.
Qed.

Lemma tiny_source n : 0 < n < 2 ^ 64 ->
  exists s1 u c, prepare_cycle (tiny_md n) (initial_sim (tiny_md n) tiny_dom) = Ok s1 /\
    source_now (tiny_md n) (s_source_weight s1) (s_unit s1) (s_cont s1) = Ok (u, c) /\ N.of_nat (List.length (processing c)) = n / 10.
Proof.
  intros Hn. destruct (prepare_defined (tiny_md n) (initial_sim (tiny_md n) tiny_dom) _ (tiny_known n) (tiny_emits n)) as (s1 & Hp & Ec & Eb).
  { cbn [mc_params tiny_md sp_n_particles]. lia. }
  assert (P1 : Forall (fun x => (0 <= x)%R) [(1 * 1 * 1)%R]) by (constructor; [lra|constructor]).
  assert (P2 : (0 < Rsum [1 * 1 * 1])%R) by (cbn [Rsum fold_right]; lra).
  destruct (source_defined _ _ _ _ Hp (tiny_emits n) P1 P2 Hn (tiny_known n) tiny_complete eq_refl) as (u & c & Hs).
  exists s1, u, c. split; [exact Hp|]. split; [exact Hs|].
  destruct (source_count _ _ _ _ _ _ Hp Hs (tiny_emits n) P1 P2 Hn) as (ns & new & _ & _ & _ & E1 & E2 & _ & E3 & E4).
  rewrite E1, Ec. cbn [swap_processing_processed initial_sim s_cont processing processed app]. rewrite E2.
  cbn [List.length INR mc_params tiny_md sp_n_particles] in E3, E4.
  set (t := fold_right N.add 0 ns) in * . apply N.le_antisymm.
  - apply N.div_le_lower_bound; [discriminate|]. apply N2Z.inj_le, le_IZR. rewrite N2Z.inj_mul, mult_IZR. change (IZR (Z.of_N 10)) with 10%R. lra.
  - apply N.lt_succ_r, N.div_lt_upper_bound; [discriminate|]. apply N2Z.inj_lt, lt_IZR.
    rewrite N2Z.inj_mul, mult_IZR, N2Z.inj_succ. unfold Z.succ. rewrite plus_IZR. change (IZR (Z.of_N 10)) with 10%R. lra.
Qed.

(** ** The second demonstration run *)

(** Checks that the cells have different ranges and starts at zero, and counts the first source. *)
Definition cell_check (cs : cell_state K64) : bool :=
  (cs_id cs mod 2 ^ 32 =? 0) && (cs_id cs / 2 ^ 32 <? 2 ^ 32) && (cs_source_tally cs =? 0).
Definition source_view (r1 : result (mcdata K64)) (r2 : result (domain K64)) : option (bool * list N * list N * nat) :=
  match r1, r2 with
  | Ok md, Ok dom =>
      match cycle_sync md 0 (initial_sim md dom) with
      | Ok s1 => match source_now md (s_source_weight s1) (s_unit s1) (s_cont s1) with
                 | Ok (u, c) => Some (forallb cell_check (d_cells dom), map cs_id (d_cells dom),
                                      map cs_source_tally (d_cells (u_domain u)), List.length (processing c))
                 | _ => None end
      | _ => None
      end
  | _, _ => None
  end.
Lemma demo_source : source_view (demo_data Sequential 21 1) (demo_domain (mkDims 2 1 1) "octant")
  = Some (true, [4294967296; 0], [1; 1], 2%nat).
Proof. vm_compute. reflexivity. Qed.

Lemma cell_check_ok cells : forallb cell_check cells = true -> NoDup (map cs_id cells) ->
  ids_apart cells /\ Forall (fun cs => cs_source_tally cs = 0) cells.
Proof.
  intros H Hn. rewrite forallb_forall in H. split; [split; [|exact Hn]|]; apply Forall_forall; intros cs Hin;
    specialize (H _ Hin); unfold cell_check in H; apply andb_true_iff in H as (H & H3); apply andb_true_iff in H as (H1 & H2);
    apply N.eqb_eq in H1, H3; apply N.ltb_lt in H2.
  - exists (cs_id cs / 2 ^ 32). split; [exact H2|]. rewrite (N.div_mod' (cs_id cs) (2 ^ 32)) at 1. lia.
  - exact H3.
Qed.

Lemma demo_sourced : exists (md : mcdata K64) d s ps, run_sourced 200 20 md d 1 s ps /\
  ids_apart (d_cells d) /\ Forall (fun cs => cs_source_tally cs = 0) (d_cells d) /\
  Forall (fun cs => cs_source_tally cs <= 2 ^ 32) (d_cells (u_domain (s_unit s))) /\ List.length ps = 2%nat.
Proof.
  destruct demo_exists2 as (md & dom & s & Hd & Hm & Hr & Hv).
  destruct (demo_data_same Sequential 21 1 md Hd) as (_ & _ & _ & _ & _ & _ & _ & Hn).
  pose proof demo_source as HP. rewrite Hd, Hm in HP. unfold source_view in HP. clear Hd Hm Hv.
  destruct (core_loop_first _ _ _ _ _ Hr) as (s1 & s2 & Hs & Hp); [rewrite Hn; discriminate|].
  rewrite Hs in HP. destruct (process_domain _ _ _ _ _ Hp) as (u0 & c0 & Hso & Ed). rewrite Hso in HP.
  injection HP as H1 H2 H3 H4.
  assert (Hnew : exists new, processing c0 = (processing (s_cont s1) ++ new)%list).
  { unfold source_now in Hso. rb Hso as rates Er. rb Hso as [[cells k] new] Ec. injection Hso; intros; subst. exists new. reflexivity. }
  destruct Hnew as (new & Hnew).
  assert (Es : processing (s_cont s1) = []).
  { unfold cycle_sync in Hs. rewrite N.eqb_refl in Hs. unfold prepare_cycle in Hs. rb Hs as w Ew. rb Hs as n En. injection Hs; intros; subst. reflexivity. }
  rewrite Es in Hnew. cbn [app] in Hnew.
  exists md, dom, s2, ([] ++ new)%list. split; [|split; [|split; [|split]]].
  - change 1 with (N.succ 0). eapply so_cycle; [constructor|exact Hs|exact Hso|rewrite Es; exact Hnew|exact Hp].
  - apply cell_check_ok; [exact H1|]. rewrite H2. repeat constructor; cbn; intuition discriminate.
  - apply cell_check_ok; [exact H1|]. rewrite H2. repeat constructor; cbn; intuition discriminate.
  - rewrite Ed. apply Forall_forall. intros cs Hin. apply (in_map cs_source_tally) in Hin. rewrite H3 in Hin.
    destruct Hin as [<-|[<-|[]]]; lia.
  - cbn [app]. rewrite <- Hnew. exact H4.
Qed.

(** ** A source that emits nothing *)

Definition silent_mat : material_params K64 :=
  mkMatParams "fuel" f1 f1 0 3 f0 "flat" "flat" "flat" f1 f1 f1.
Definition silent_md : mcdata K64 :=
  mkMcData (mkSimParams 100 3 1 f0 f1 f1 true false true) (mkExecInfo Sequential 1 0 1)
    (mkTrackData f1 (mkNuclear 3 [] []) [mkMaterial "fuel" f1 []]) [("fuel"%string, silent_mat)].
Definition silent_dom : domain K64 := mkDomain 0 [mkCellState 0 f1 f1 0 0] (mkMesh 0 [] [] []).
Definition silent_check : bool :=
  match prepare_cycle silent_md (initial_sim silent_md silent_dom) with
  | Ok s1 => match source_now silent_md (s_source_weight s1) (s_unit s1) (s_cont s1) with Panic => true | _ => false end
  | _ => false
  end.
Lemma silent_panics : silent_check = true.
Proof. vm_compute. reflexivity. Qed.

Lemma silent_refuted : exists (md : mcdata K64) (s s1 : sim K64),
  prepare_cycle md s = Ok s1 /\ List.length (d_cells (u_domain (s_unit s1))) = 1%nat /\
  source_now md (s_source_weight s1) (s_unit s1) (s_cont s1) = Panic.
Proof.
  pose proof silent_panics as H. unfold silent_check in H.
  destruct (prepare_cycle silent_md (initial_sim silent_md silent_dom)) as [s1| |] eqn:E; try discriminate.
  exists silent_md, (initial_sim silent_md silent_dom), s1. split; [exact E|].
  assert (Ed : u_domain (s_unit s1) = silent_dom).
  { clear H. unfold prepare_cycle in E. rb E as w Ew. rb E as n En. clear Ew En. injection E; intros; subst. reflexivity. }
  split; [rewrite Ed; reflexivity|]. clear E Ed.
  destruct (source_now _ _ _ _) as [x| |]; [discriminate H|reflexivity|discriminate H].
Qed.

(** ** In real arithmetic *)

Lemma split_real (p : particle Rops) (f : R) : (1 <= f < IZR (2 ^ 64))%R ->
  exists q l, under_populated_split p f = Ok (q, l) /\ is_split (K := Rops) f p q l /\
    Z.of_nat (List.length (q :: l)) = (if Rlt_dec (f - IZR (Zfloor f)) (next_draw p) then Zfloor f else Zfloor f + 1)%Z.
Proof.
  intros Hf. destruct (split_exists p f Hf) as (q & l & E). pose proof (split_outcome _ _ _ _ E) as S.
  exists q, l. split; [exact E|]. split; [exact S|]. exact (split_number p q f l Hf S).
Qed.

Lemma foreseen (md : mcdata Rops) (s s1 : sim Rops) : prepare_cycle md s = Ok s1 ->
  s_global_n s1 = N.of_nat (List.length (processing (s_cont s)) + List.length (processed (s_cont s))) +
    sp_n_particles (mc_params md) / 10.
Proof.
  unfold prepare_cycle. intros H. rb H as w Ew. rb H as n En. injection H; intros; subst. cbn [s_global_n swap_processing_processed processing].
  rewrite app_length. f_equal. rewrite tenth in En. cbn [fto_usize Rops] in En. unfold Rto_usize in En.
  destruct (_ && _)%bool; [|discriminate]. cbn [unwrap] in En.
  assert (E : Z.to_N (Ztrunc (IZR (Z.of_N (sp_n_particles (mc_params md))) / 10)) = n) by congruence. rewrite <- E.
  rewrite Ztrunc_floor by (apply Rle_mult_inv_pos; [apply IZR_le; lia|lra]).
  change 10%R with (IZR 10). rewrite Zfloor_div by discriminate. rewrite <- (N2Z.inj_div _ 10). apply N2Z.id.
Qed.

Lemma tiny_population : exists s1 u0 c0 u c, prepare_cycle (tiny_md 100) (initial_sim (tiny_md 100) tiny_dom) = Ok s1 /\
  source_now (tiny_md 100) (s_source_weight s1) (s_unit s1) (s_cont s1) = Ok (u0, c0) /\
  population_phase (tiny_md 100) s1 = Ok (u, c) /\ current_number (tiny_md 100) s1 c0 = 10.
Proof.
  destruct (tiny_source 100) as (s1 & u0 & c0 & H1 & H2 & H3); [lia|].
  assert (Ec : current_number (tiny_md 100) s1 c0 = 10) by exact H3.
  destruct (population_defined (tiny_md 100) s1 u0 c0 eq_refl) as (u & c & H4); [cbn [mc_params tiny_md sp_n_particles]; lia|exact H2|lia|].
  exists s1, u0, c0, u, c. auto.
Qed.
