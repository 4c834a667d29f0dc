(** The number of particles created by the source, in real arithmetic. *)
From Coq Require Import NArith ZArith QArith Qreals List Bool Lia PeanoNat Reals Lra.
From Flocq Require Import Core.
From Verif Require Import Float RealOps RngModel RngSpec ParticleModel NuclearModel MeshTypes Balance TrackModel CycleModel
  ProgLemmas TrackSpec CycleSpec TrackAccount CycleAccount PopSpec SourceLemmas PopLemmas.
Import ListNotations.
Local Open Scope N_scope.

Section Any.
Context {K : FloatOps}.

Inductive counted (md : mcdata K) (w : F K) : list (cell_state K) -> list (cell_state K) -> list N -> Prop :=
| counted_nil : counted md w [] [] []
| counted_cons : forall cs cs' n x cells cells' ns, emits md cs x -> fto_usize (ffloor (fdiv x w)) = Some n -> has_emitted n cs cs' ->
    counted md w cells cells' ns -> counted md w (cs :: cells) (cs' :: cells') (n :: ns).

Lemma rates_nth (md : mcdata K) rates i r : source_rates md = Ok rates -> vec_get rates i = Ok r ->
  exists mat mp, nth_error (td_mats (mc_track md)) (N.to_nat i) = Some mat /\
    map_index (mc_material_params md) (mat_name mat) = Ok mp /\ r = mp_source_rate mp.
Proof.
  unfold source_rates, vec_get. intros H. apply rmap_Forall2 in H. revert H. generalize (td_mats (mc_track md)) (N.to_nat i). clear.
  intros l k H. revert k. induction H as [|mat r0 l l' Hm H IH]; intros [|k] E; cbn [nth_error] in * ; try discriminate.
  - cbn [unwrap] in E. injection E; intros ->. rb Hm as mp Ep. injection Hm; intros <-. exists mat, mp. split; [reflexivity|]. split; [exact Ep|reflexivity].
  - apply IH. exact E.
Qed.

Lemma source_cells_counted (md : mcdata K) w rates dom : source_rates md = Ok rates -> forall cells i cells' n ps,
  source_cells md w rates dom i cells = Ok (cells', n, ps) ->
  exists ns, counted md w cells cells' ns /\ n = fold_right N.add 0 ns /\ N.of_nat (length ps) = n.
Proof.
  intros Hr. induction cells as [|cs cells IH]; intros i cells' n ps H; cbn [source_cells] in H.
  - injection H; intros; subst. exists []. split; [constructor|]. split; reflexivity.
  - rb H as k Ek. rb H as ps1 E1. rb H as [[cells1 n1] ps2] E2. injection H; intros; subst. clear H.
    destruct (IH _ _ _ _ E2) as (ns & C & -> & L). exists (k :: ns). split; [|split; [reflexivity|]].
    + unfold cell_n_particles in Ek. rb Ek as r Er. destruct (rates_nth _ _ _ _ Hr Er) as (mat & mp & M1 & M2 & ->).
      econstructor; [exists mat, mp; split; [exact M1|]; split; [exact M2|reflexivity]| |reflexivity|exact C].
      destruct (fto_usize _); [|discriminate]. cbn [unwrap] in Ek. congruence.
    + rewrite app_length, Nat2N.inj_add, L. f_equal. destruct (rmap_ok _ _ _ E1) as (L1 & _).
      unfold source_seeds in L1. rewrite map_length, nrange_length in L1. lia.
Qed.

Lemma emits_fun (md : mcdata K) cs x y : emits md cs x -> emits md cs y -> x = y.
Proof. intros (m1 & p1 & A1 & A2 & ->) (m2 & p2 & B1 & B2 & ->). congruence. Qed.

Lemma unit_weight_is (md : mcdata K) d w xs : unit_weight md d = Ok w -> Forall2 (emits md) (d_cells d) xs -> w = fsum xs.
Proof.
  unfold unit_weight. intros H Hx. rb H as rates Er. rb H as ws Ew. injection H; intros <-. f_equal. clear H.
  apply rmap_Forall2 in Ew. revert ws Ew. induction Hx as [|cs x cells xs Hc Hx IH]; intros ws Ew; inversion Ew; subst; [reflexivity|].
  f_equal; [|apply IH; assumption]. rb H1 as r E. injection H1; intros <-.
  destruct (rates_nth _ _ _ _ Er E) as (mat & mp & M1 & M2 & ->). eapply emits_fun; [|exact Hc]. exists mat, mp. auto.
Qed.

(** ** The source does not panic *)

Lemma vec_get_lt {A} (l : list A) i : i < N.of_nat (length l) -> exists x, vec_get l i = Ok x.
Proof.
  intros H. unfold vec_get. destruct (nth_error l (N.to_nat i)) as [x|] eqn:E; [exists x; reflexivity|]. apply nth_error_None in E. lia.
Qed.
Lemma vec_get_in {A} (l : list A) i x : vec_get l i = Ok x -> In x l.
Proof. unfold vec_get. destruct (nth_error l (N.to_nat i)) eqn:E; [|discriminate]. cbn [unwrap]. intros H. injection H; intros <-. eapply nth_error_In; eauto. Qed.

Lemma facet_coords_ok (m : mesh K) c i : complete_mesh m -> c < N.of_nat (length (me_conn m)) -> i < 24 ->
  exists pts, get_facet_coords m c i = Ok pts.
Proof.
  intros Hm Hc Hi. unfold get_facet_coords. destruct (vec_get_lt _ _ Hc) as (conn & E). rewrite E. cbn [rbind].
  unfold complete_mesh in Hm. rewrite Forall_forall in Hm. destruct (Hm _ (vec_get_in _ _ _ E)) as (L & _ & Hf).
  destruct (vec_get_lt (cc_facet conn) i) as (fa & Ef); [lia|]. rewrite Ef. cbn [rbind].
  rewrite Forall_forall in Hf. pose proof (Hf _ (vec_get_in _ _ _ Ef)) as Hp. destruct (fa_point fa) as [[a b] d].
  inversion Hp as [|? ? Ha Hp1]; subst. inversion Hp1 as [|? ? Hb Hp2]; subst. inversion Hp2 as [|? ? Hd _]; subst.
  destruct (vec_get_lt _ _ Ha) as (x & ->), (vec_get_lt _ _ Hb) as (y & ->), (vec_get_lt _ _ Hd) as (z & ->).
  exists (x, y, z). reflexivity.
Qed.

Lemma pick_facet_ok (m : mesh K) c center which : complete_mesh m -> c < N.of_nat (length (me_conn m)) ->
  forall n i current pts, i + N.of_nat n <= 24 -> exists r, pick_facet n m c i center which current pts = Ok r.
Proof.
  intros Hm Hc. induction n as [|n IH]; intros i current pts Hi; cbn [pick_facet]; [exists pts; reflexivity|].
  destruct (facet_coords_ok m c i Hm Hc) as (q & ->); [lia|]. cbn [rbind].
  destruct (fle which _); [exists q; reflexivity|]. apply IH. lia.
Qed.

Lemma rmap_all {A B} (f : A -> result B) l : (forall x, In x l -> exists y, f x = Ok y) -> exists ys, rmap f l = Ok ys.
Proof.
  induction l as [|x l IH]; intros H; cbn [rmap]; [exists []; reflexivity|].
  destruct (H x (or_introl eq_refl)) as (y & ->). destruct IH as (ys & ->); [intros z Hz; apply H; right; exact Hz|]. exists (y :: ys). reflexivity.
Qed.

Lemma cell_position_ok (m : mesh K) c : complete_mesh m -> c < N.of_nat (length (me_conn m)) ->
  feq (fof_N N_POINTS_INTERSEC : F K) f0 = false -> exists x, cell_position_3dg m c = Ok x.
Proof.
  intros Hm Hc Hz. unfold cell_position_3dg. destruct (vec_get_lt _ _ Hc) as (conn & E). rewrite E. cbn [rbind].
  unfold complete_mesh in Hm. rewrite Forall_forall in Hm. destruct (Hm _ (vec_get_in _ _ _ E)) as (_ & Hp & _).
  destruct (rmap_all (fun i => vec_get (me_node m) i) (cc_point conn)) as (pts & ->).
  - intros i Hi. rewrite Forall_forall in Hp. apply vec_get_lt, Hp, Hi.
  - cbn [rbind]. unfold vdiv. rewrite Hz. cbn [negb rassert rbind]. eexists. reflexivity.
Qed.

Lemma coordinate_ok p (m : mesh K) c v : complete_mesh m -> c < N.of_nat (length (me_conn m)) ->
  feq (fof_N N_POINTS_INTERSEC : F K) f0 = false -> exists r, generate_coordinate_3dg p m c v = Ok r.
Proof.
  intros Hm Hc Hz. unfold generate_coordinate_3dg. destruct (cell_position_ok m c Hm Hc Hz) as (x & ->). cbn [rbind draw].
  match goal with |- context [pick_facet 24 ?a ?b ?e ?f ?g ?h ?i] => destruct (pick_facet_ok a b f g Hm Hc 24 e h i) as (q & Eq); [lia|]; rewrite Eq end.
  cbn [rbind]. destruct (fold_barycentric _ _ _) as [[[r1 r2] r3] r4]. destruct q as [[q0 q1] q2]. eexists. reflexivity.
Qed.

Lemma source_particle_ok (md : mcdata K) w dom c v x : complete_mesh (d_mesh dom) -> c < N.of_nat (length (me_conn (d_mesh dom))) ->
  feq (fof_N N_POINTS_INTERSEC : F K) f0 = false -> exists p, source_particle md w dom c v x = Ok p.
Proof.
  intros Hm Hc Hz. unfold source_particle. destruct (spawn_rn_seed x) as [s y].
  match goal with |- context [generate_coordinate_3dg ?a ?b ?e ?f] => destruct (coordinate_ok a b e f Hm Hc Hz) as ([z q] & ->) end.
  cbn [rbind draw]. eexists. reflexivity.
Qed.

Lemma source_cells_defined (md : mcdata K) w rates dom : source_rates md = Ok rates -> complete_mesh (d_mesh dom) ->
  feq (fof_N N_POINTS_INTERSEC : F K) f0 = false ->
  forall cells i xs, Forall2 (emits md) cells xs -> Forall (fun x => fto_usize (ffloor (fdiv x w)) <> None) xs ->
    i + N.of_nat (length cells) <= N.of_nat (length (me_conn (d_mesh dom))) ->
    exists r, source_cells md w rates dom i cells = Ok r.
Proof.
  intros Hr Hm Hz. induction cells as [|cs cells IH]; intros i xs Hx Hn Hi; cbn [source_cells]; [eexists; reflexivity|].
  inversion Hx as [|? x ? xs' Hx1 Hx2]; subst. inversion Hn as [|? ? Hn1 Hn2]; subst. cbn [length] in Hi.
  assert (Er : exists r, vec_get rates (cs_material cs) = Ok r).
  { destruct Hx1 as (mat & mp & M1 & _). apply vec_get_lt. unfold source_rates in Hr. destruct (rmap_ok _ _ _ Hr) as (L & _). rewrite L.
    assert (nth_error (td_mats (mc_track md)) (N.to_nat (cs_material cs)) <> None) as Hne by congruence. apply nth_error_Some in Hne. lia. }
  destruct Er as (r & Er). destruct (rates_nth _ _ _ _ Hr Er) as (mat & mp & M1 & M2 & Em).
  assert (Ex : x = fmul (fmul (cs_volume cs) r) (td_dt (mc_track md))).
  { subst r. eapply emits_fun; [exact Hx1|]. exists mat, mp. auto. }
  unfold cell_n_particles. rewrite Er. cbn [rbind]. cbv zeta. rewrite <- Ex. destruct (fto_usize _) as [n|]; [|contradiction]. cbn [unwrap rbind].
  match goal with |- context [rmap ?g ?l] => destruct (rmap_all g l) as (ps & ->) end.
  { intros y _. apply source_particle_ok; auto. lia. }
  cbn [rbind]. destruct (IH (N.succ i) xs' Hx2 Hn2) as (((cells1 & n1) & ps1) & ->); [lia|]. eexists. reflexivity.
Qed.

Lemma rates_defined (md : mcdata K) : materials_known md -> exists rates, source_rates md = Ok rates.
Proof.
  intros H. unfold source_rates. apply rmap_all. intros mat Hm. unfold materials_known in H. rewrite Forall_forall in H.
  destruct (H _ Hm) as (mp & ->). eexists. reflexivity.
Qed.

End Any.

Local Open Scope R_scope.

Lemma fsum_Rsum (l : list R) : fsum (K := Rops) l = Rsum l.
Proof.
  unfold fsum, Rsum. cbn [fadd f0 Rops]. rewrite fold_symmetric; [reflexivity| |].
  - exact (fun a b c => eq_sym (Rplus_assoc a b c)).
  - intros y. apply Rplus_comm.
Qed.

Lemma Rsum_nonneg l : Forall (fun x => 0 <= x) l -> 0 <= Rsum l.
Proof. induction 1; cbn [Rsum fold_right]; [lra|]. unfold Rsum in IHForall. lra. Qed.
Lemma Rsum_ge l x : Forall (fun x => 0 <= x) l -> In x l -> x <= Rsum l.
Proof.
  induction 1 as [|y l Hy H IH]; intros Hin; [destruct Hin|]. cbn [Rsum fold_right]. pose proof (Rsum_nonneg l H) as P. unfold Rsum in * .
  destruct Hin as [->|Hin]; [lra|]. specialize (IH Hin). lra.
Qed.

Lemma total_cons n ns : fold_right N.add 0%N (n :: ns) = (n + fold_right N.add 0 ns)%N. Proof. reflexivity. Qed.

(** Rounded down shares add up to at most the whole, and miss less than one per cell. *)
Lemma floors_sum w : 0 < w -> forall xs ns, Forall2 (fun x n => Z.of_N n = Zfloor (x / w)) xs ns ->
  IZR (Z.of_N (fold_right N.add 0%N ns)) <= Rsum xs / w /\
  (xs <> [] -> Rsum xs / w < IZR (Z.of_N (fold_right N.add 0%N ns)) + INR (length xs)).
Proof.
  intros Hw xs ns H. induction H as [|x n xs ns E H IH].
  - cbn [fold_right Rsum length]. split; [unfold Rdiv; rewrite Rmult_0_l; apply Rle_refl|]. intros C. contradiction.
  - destruct IH as (I1 & I2). pose proof (Zfloor_bounds (x / w)) as B. rewrite <- E in B.
    change (Rsum (x :: xs)) with (x + Rsum xs). rewrite total_cons, N2Z.inj_add, plus_IZR.
    replace ((x + Rsum xs) / w) with (x / w + Rsum xs / w) by (field; lra).
    split; [lra|]. intros _. change (length (x :: xs)) with (S (length xs)). rewrite S_INR.
    destruct xs as [|y xs]; [|specialize (I2 ltac:(discriminate)); lra].
    inversion H; subst. cbn [Rsum fold_right length INR]. change (IZR (Z.of_N 0)) with 0. unfold Rdiv in * . lra.
Qed.

Lemma tenth n : fmul (src_fraction (K := Rops)) (fof_N n) = (IZR (Z.of_N n) / 10 : R).
Proof. unfold src_fraction. cbn [fmul flit fof_N Rops]. unfold Q2R. cbn [Qnum Qden]. lra. Qed.

Lemma prepared (md : mcdata Rops) (s s1 : sim Rops) xs : prepare_cycle md s = Ok s1 ->
  Forall2 (emits md) (d_cells (u_domain (s_unit s))) xs ->
  u_domain (s_unit s1) = u_domain (s_unit s) /\
  s_source_weight s1 = (Rsum xs / (IZR (Z.of_N (sp_n_particles (mc_params md))) / 10) : R).
Proof.
  unfold prepare_cycle. intros H Hx. rb H as w Ew. rb H as n En.
  match type of H with Ok ?x = _ => assert (E : s1 = x) by congruence end. rewrite E. split; [reflexivity|].
  unfold s_source_weight at 1. rewrite (unit_weight_is _ _ _ _ Ew Hx), tenth, fsum_Rsum. cbn [fadd fdiv f0 Rops]. rewrite Rplus_0_l. reflexivity.
Qed.

Lemma source_count (md : mcdata Rops) (s s1 : sim Rops) (xs : list R) u c :
  prepare_cycle md s = Ok s1 -> source_now md (s_source_weight s1) (s_unit s1) (s_cont s1) = Ok (u, c) ->
  Forall2 (emits md) (d_cells (u_domain (s_unit s))) xs -> Forall (fun x => 0 <= x) xs -> 0 < Rsum xs ->
  (0 < sp_n_particles (mc_params md) < 2 ^ 64)%N ->
  exists ns new, let total := fold_right N.add 0%N ns in
    Forall2 (fun x n => Z.of_N n = share (Rsum xs) (sp_n_particles (mc_params md)) x) xs ns /\
    Forall2 (fun n cs => has_emitted n (fst cs) (snd cs)) ns (combine (d_cells (u_domain (s_unit s))) (d_cells (u_domain u))) /\
    length (d_cells (u_domain u)) = length (d_cells (u_domain (s_unit s))) /\
    processing c = processing (s_cont s1) ++ new /\ N.of_nat (length new) = total /\
    bget (u_balance u) ESource = (bget (u_balance (s_unit s1)) ESource + total)%N /\
    IZR (Z.of_N total) <= IZR (Z.of_N (sp_n_particles (mc_params md))) / 10 < IZR (Z.of_N total) + INR (length xs).
Proof.
  intros Hp Hs Hx Hn Hpos Hnp. destruct (prepared _ _ _ _ Hp Hx) as (Ed & Ew).
  unfold source_now in Hs. rb Hs as rates Er. rb Hs as [[cells k] new] Ec. injection Hs; intros; subst u c. clear Hs.
  destruct (source_cells_counted _ _ _ _ Er _ _ _ _ _ Ec) as (ns & C & -> & L).
  assert (N0 : 0 < IZR (Z.of_N (sp_n_particles (mc_params md)))) by (apply IZR_lt; lia).
  set (np := IZR (Z.of_N (sp_n_particles (mc_params md)))) in * .
  set (w := s_source_weight s1) in * . rewrite Ed in C.
  assert (Hw : 0 < (w : R)) by (rewrite Ew; apply Rdiv_lt_0_compat; lra).
  assert (G : forall cells cells' ns xs, counted md w cells cells' ns -> Forall2 (emits md) cells xs -> Forall (fun x => 0 <= x) xs ->
     Forall2 (fun x n => Z.of_N n = Zfloor (x / w)) xs ns).
  { clear - Hw. intros cells cells' ns xs C. revert xs. induction C as [|cs cs' n x cells cells' ns Hx Hn He C IH]; intros xs Hxs Hp.
    - inversion Hxs; subst. constructor.
    - inversion Hxs as [|? y ? ys Hy Hys]; subst. inversion Hp as [|? ? Hp1 Hp2]; subst. constructor; [|apply IH; assumption].
      rewrite <- (emits_fun _ _ _ _ Hx Hy) in * .
      assert (F0 : (0 <= Zfloor (x / w))%Z) by (apply Zfloor_lub; apply Rle_mult_inv_pos; assumption).
      cbn [fto_usize ffloor fdiv Rops] in Hn. unfold Rto_usize in Hn. destruct (_ && _)%bool; [|discriminate].
      rewrite Ztrunc_IZR in Hn. assert (E : Z.to_N (Zfloor (x / w)) = n) by congruence. rewrite <- E. apply Z2N.id, F0. }
  pose proof (G _ _ _ _ C Hx Hn) as Hf.
  assert (Eq : forall x, x / w = x * np / (10 * Rsum xs)) by (intros x; rewrite Ew; field; lra).
  assert (Eall : Rsum xs / w = np / 10) by (rewrite Eq; field; lra).
  exists ns, new. cbv zeta. cbn [u_domain set_cells d_cells processing u_balance].
  split; [|split; [|split; [|split; [reflexivity|split; [exact L|split]]]]].
  - clear - Hf Eq. set (t := Rsum xs) in * . clearbody t. induction Hf as [|x n xs ns E _ IH]; constructor; [|exact IH].
    unfold share. fold np. rewrite <- Eq. exact E.
  - clear - C. induction C; cbn [combine]; constructor; auto.
  - clear - C. induction C; cbn [length]; congruence.
  - rewrite bget_binc_same. reflexivity.
  - destruct (floors_sum w Hw _ _ Hf) as (F1 & F2). rewrite Eall in * . split; [exact F1|]. apply F2. intros ->. cbn [Rsum fold_right] in Hpos. lra.
Qed.

Lemma source_defined (md : mcdata Rops) (s s1 : sim Rops) (xs : list R) :
  prepare_cycle md s = Ok s1 -> Forall2 (emits md) (d_cells (u_domain (s_unit s))) xs -> Forall (fun x => 0 <= x) xs -> 0 < Rsum xs ->
  (0 < sp_n_particles (mc_params md) < 2 ^ 64)%N -> materials_known md -> complete_mesh (d_mesh (u_domain (s_unit s))) ->
  length (me_conn (d_mesh (u_domain (s_unit s)))) = length (d_cells (u_domain (s_unit s))) ->
  exists u c, source_now md (s_source_weight s1) (s_unit s1) (s_cont s1) = Ok (u, c).
Proof.
  intros Hp Hx Hn Hpos Hnp Hk Hm Hl. destruct (prepared _ _ _ _ Hp Hx) as (Ed & Ew).
  assert (N0 : 0 < IZR (Z.of_N (sp_n_particles (mc_params md)))) by (apply IZR_lt; lia).
  assert (N1 : IZR (Z.of_N (sp_n_particles (mc_params md))) < IZR (2 ^ 64)) by (apply IZR_lt; lia).
  destruct (rates_defined md Hk) as (rates & Er). unfold source_now. rewrite Er, Ed. cbn [rbind].
  destruct (source_cells_defined md (s_source_weight s1) rates (u_domain (s_unit s)) Er Hm) with (cells := d_cells (u_domain (s_unit s))) (i := 0%N) (xs := xs)
    as ([[a b] d] & E).
  - cbn [feq Rops fof_N f0]. apply Reqb_false. unfold N_POINTS_INTERSEC. apply Rgt_not_eq. apply IZR_lt. lia.
  - exact Hx.
  - apply Forall_forall. intros x Hin. rewrite Ew. cbn [fto_usize ffloor fdiv Rops].
    set (np := IZR (Z.of_N (sp_n_particles (mc_params md)))) in * .
    rewrite Forall_forall in Hn. pose proof (Hn _ Hin) as Hx0. rewrite <- Forall_forall in Hn. pose proof (Rsum_ge _ _ Hn Hin) as Hx1.
    assert (B : 0 <= x / (Rsum xs / (np / 10)) < IZR (2 ^ 64)).
    { replace (x / (Rsum xs / (np / 10))) with (x / Rsum xs * (np / 10)) by (field; lra).
      assert (0 <= x / Rsum xs <= 1) as (B1 & B2).
      { split; [apply Rle_mult_inv_pos; lra|]. apply Rmult_le_reg_r with (Rsum xs); [exact Hpos|].
        unfold Rdiv. rewrite Rmult_assoc, Rinv_l, Rmult_1_r, Rmult_1_l by lra. exact Hx1. }
      split; [apply Rmult_le_pos; lra|]. apply Rle_lt_trans with (1 * (np / 10)); [apply Rmult_le_compat_r; lra|lra]. }
    rewrite Rto_usize_Z; [discriminate|]. split; [apply Zfloor_lub, B|]. apply lt_IZR. eapply Rle_lt_trans; [apply Zfloor_lb|apply B].
  - lia.
  - rewrite E. cbn [rbind]. eexists. eexists. reflexivity.
Qed.
