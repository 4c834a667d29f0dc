(** The flood fill that assigns cells to the domain of one center. *)
From Coq Require Import NArith ZArith List Bool Lia Permutation.
From Verif Require Import Float ParticleModel NuclearModel CycleModel GridModel AssignModel MeshModel
  GridSpec GridLemmas AssignLemmas TrackAccount.
Import ListNotations.
Local Open Scope N_scope.

Lemma nrange_length lo n : length (nrange lo n) = n.
Proof. revert lo. induction n; intros; cbn; auto. Qed.
Lemma nrange_in x lo n : In x (nrange lo n) <-> lo <= x /\ x < lo + N.of_nat n.
Proof.
  revert lo. induction n as [|n IH]; intros lo; cbn [nrange In]; [lia|]. rewrite IH. lia.
Qed.
Lemma nrange_nodup lo n : NoDup (nrange lo n).
Proof.
  revert lo. induction n as [|n IH]; intros lo; cbn; constructor; auto. rewrite nrange_in. lia.
Qed.
Lemma nrange_nth lo n i : (i < n)%nat -> nth_error (nrange lo n) i = Some (lo + N.of_nat i).
Proof.
  revert lo i. induction n as [|n IH]; intros lo [|i] H; cbn; try lia; [f_equal; lia|]. rewrite IH by lia. f_equal. lia.
Qed.
Lemma nrange_snoc lo n : nrange lo (S n) = nrange lo n ++ [lo + N.of_nat n].
Proof.
  revert lo. induction n as [|n IH]; intros lo; [cbn; f_equal; lia|].
  change (nrange lo (S (S n))) with (lo :: nrange (N.succ lo) (S n)). rewrite IH. cbn [nrange app].
  do 3 f_equal. lia.
Qed.

Lemma mem_N_in x l : mem_N x l = true <-> In x l.
Proof.
  unfold mem_N. rewrite existsb_exists. split.
  - intros (y & H & E). apply N.eqb_eq in E. subst. exact H.
  - intros H. exists x. split; [exact H|apply N.eqb_refl].
Qed.

Lemma assoc_none {A} (m : list (N * A)) k : assoc m k = None <-> ~ In k (map fst m).
Proof.
  induction m as [|[k' v] m IH]; cbn; [tauto|].
  destruct (N.eqb_spec k' k); split; intros; try discriminate; tauto.
Qed.
Lemma assoc_in {A} (m : list (N * A)) k v : NoDup (map fst m) -> In (k, v) m -> assoc m k = Some v.
Proof.
  induction m as [|[k' v'] m IH]; cbn; intros D H; [contradiction|]. inversion D; subst.
  destruct H as [[= -> ->]|H]; [rewrite N.eqb_refl; reflexivity|].
  destruct (N.eqb_spec k' k) as [->|_]; [|auto]. exfalso. apply H2. apply (in_map fst) in H. exact H.
Qed.
Lemma assoc_some {A} (m : list (N * A)) k v : assoc m k = Some v -> In (k, v) m.
Proof.
  induction m as [|[k' v'] m IH]; cbn; [discriminate|].
  destruct (N.eqb_spec k' k) as [->|_]; [intros [= ->]; auto|auto].
Qed.

(** ** Pushing neighbours *)
Lemma flood_push_spec nbrs queue wet queue' wet' :
  fold_left flood_push nbrs (queue, wet) = (queue', wet') ->
  exists new, queue' = queue ++ new /\ Permutation wet' (new ++ wet) /\ incl new nbrs /\ incl nbrs wet' /\
    (NoDup wet -> NoDup wet').
Proof.
  revert queue wet. induction nbrs as [|n nbrs IH]; intros queue wet; cbn [fold_left].
  - intros [= <- <-]. exists []. rewrite app_nil_r. cbn. repeat split; auto; intros ? [].
  - cbn [flood_push]. destruct (mem_N n wet) eqn:E.
    + intros H. apply IH in H. destruct H as (new & Hq & Hw & Hi & Hn & Hd). exists new.
      split; [exact Hq|]. split; [exact Hw|]. split; [intros x Hx; right; auto|]. split; [|exact Hd].
      intros x [->|Hx]; auto. apply mem_N_in in E. eapply Permutation_in; [symmetry; exact Hw|].
      apply in_or_app. auto.
    + intros H. apply IH in H. destruct H as (new & Hq & Hw & Hi & Hn & Hd). exists (n :: new).
      split; [rewrite Hq, <- app_assoc; reflexivity|].
      split; [rewrite Hw; symmetry; apply Permutation_middle|].
      split; [intros x [->|Hx]; [left|right]; auto|]. split.
      * intros x [->|Hx]; auto. eapply Permutation_in; [symmetry; exact Hw|]. apply in_or_app. right. left. reflexivity.
      * intros D. apply Hd. constructor; auto. rewrite <- mem_N_in, E. discriminate.
Qed.

(** The neighbours pushed from a cell of the grid. *)
Definition all_nbrs (d : dims) (c : N) : list N :=
  map (fun o => cell_tuple_to_idx d (clamp_tuple d (cell_idx_to_tuple d c) o)) NBR_COORDS.

Lemma nbr_unit o : In o NBR_COORDS -> unit_offset o.
Proof. intros H. cbn in H. repeat (destruct H as [<-|H]; [cbn; lia|]). contradiction. Qed.

Lemma add_nbrs_ok d c st : positive d -> small d -> c < total_cells d ->
  add_nbrs_to_flood d c st = Ok (fold_left flood_push (all_nbrs d c) st).
Proof.
  intros P S H. unfold add_nbrs_to_flood.
  rewrite (rmap_ok_map _ (fun o => cell_tuple_to_idx d (clamp_tuple d (cell_idx_to_tuple d c) o))); [reflexivity|].
  intros o Ho. apply offset_cell_ok; auto using cell_idx_in, nbr_unit.
Qed.

Lemma all_nbrs_in d c x : positive d -> In x (all_nbrs d c) -> x < total_cells d.
Proof.
  intros P H. apply in_map_iff in H. destruct H as (o & <- & _). apply cell_tuple_in, clamp_tuple_in. exact P.
Qed.

Lemma face_nbr_in d c f : positive d -> c < total_cells d -> (f < 6)%nat ->
  In (cell_tuple_to_idx d (face_cell d (cell_idx_to_tuple d c) f)) (all_nbrs d c).
Proof.
  intros P H Hf. rewrite <- clamp_face by (auto using cell_idx_in). apply in_map_iff.
  eexists. split; [reflexivity|].
  do 6 (destruct f as [|f]; [cbn; repeat (try (left; reflexivity); right)|]). lia.
Qed.

(** ** Connectivity: a set of cells closed under face neighbours is everything. *)
Lemma closed_everything d (W : N -> Prop) c0 : positive d ->
  c0 < total_cells d -> W c0 ->
  (forall c f, c < total_cells d -> (f < 6)%nat -> W c -> W (cell_tuple_to_idx d (face_cell d (cell_idx_to_tuple d c) f))) ->
  forall c, c < total_cells d -> W c.
Proof.
  intros P H0 W0 Cl.
  set (V := fun t => W (cell_tuple_to_idx d t)).
  assert (Step : forall t f, cell_in d t -> (f < 6)%nat -> V t -> V (face_cell d t f)).
  { intros t f I Hf Ht. unfold V in * . specialize (Cl _ f (cell_tuple_in d t I) Hf Ht).
    rewrite cell_idx_tuple in Cl by auto. exact Cl. }
  assert (Up : forall (a : axis) f g, (f < 6)%nat -> (g < 6)%nat -> face_axis f = a -> face_axis g = a -> face_up f = true -> face_up g = false ->
     forall t v, cell_in d t -> v < size a d -> V t -> V (set_coord a t v)).
  { intros a f g Hf Hg Ef Eg Uf Ug t v I Hv Ht.
    assert (In' : forall w, w < size a d -> cell_in d (set_coord a t w)).
    { destruct t as [[x y] z]. destruct I as (Ix & Iy & Iz). intros w Hw.
      destruct a; cbn in Hw |- * ; auto. }
    assert (Self : V (set_coord a t (coord a t))).
    { destruct t as [[x y] z]. destruct a; exact Ht. }
    assert (Hc : coord a t < size a d).
    { destruct t as [[x y] z]. destruct I as (Ix & Iy & Iz). destruct a; auto. }
    assert (CC : forall w, coord a (set_coord a t w) = w).
    { destruct t as [[x y] z]. destruct a; reflexivity. }
    assert (SS : forall w u, set_coord a (set_coord a t w) u = set_coord a t u).
    { destruct t as [[x y] z]. destruct a; reflexivity. }
    assert (Inc : forall n, coord a t + N.of_nat n < size a d -> V (set_coord a t (coord a t + N.of_nat n))).
    { induction n as [|n IH]; intros Hn; [rewrite N.add_0_r; exact Self|].
      specialize (IH ltac:(lia)). apply (Step _ f) in IH; [|apply In'; lia|exact Hf].
      unfold face_cell, on_boundary, one_step in IH. rewrite Ef, Uf, CC, SS in IH.
      destruct (N.eqb_spec (coord a t + N.of_nat n + 1) (size a d)); [lia|].
      replace (coord a t + N.of_nat (S n)) with (coord a t + N.of_nat n + 1) by lia. exact IH. }
    assert (Dec : forall n, N.of_nat n <= coord a t -> V (set_coord a t (coord a t - N.of_nat n))).
    { induction n as [|n IH]; intros Hn; [rewrite N.sub_0_r; exact Self|].
      specialize (IH ltac:(lia)). apply (Step _ g) in IH; [|apply In'; lia|exact Hg].
      unfold face_cell, on_boundary, one_step in IH. rewrite Eg, Ug, CC, SS in IH.
      destruct (N.eqb_spec (coord a t - N.of_nat n) 0); [lia|].
      replace (coord a t - N.of_nat (S n)) with (coord a t - N.of_nat n - 1) by lia. exact IH. }
    destruct (N.le_gt_cases (coord a t) v).
    - specialize (Inc (N.to_nat (v - coord a t)) ltac:(lia)).
      replace (coord a t + N.of_nat (N.to_nat (v - coord a t))) with v in Inc by lia. exact Inc.
    - specialize (Dec (N.to_nat (coord a t - v)) ltac:(lia)).
      replace (coord a t - N.of_nat (N.to_nat (coord a t - v))) with v in Dec by lia. exact Dec. }
  intros c Hc. pose proof (cell_idx_in _ _ P H0) as I0. pose proof (cell_idx_in _ _ P Hc) as Ic.
  rewrite <- (cell_tuple_idx d c P). change (V (cell_idx_to_tuple d c)).
  assert (V0 : V (cell_idx_to_tuple d c0)) by (unfold V; rewrite cell_tuple_idx by auto; exact W0).
  destruct (cell_idx_to_tuple d c0) as [[x0 y0] z0], (cell_idx_to_tuple d c) as [[x y] z].
  destruct I0 as (A0 & B0 & C0), Ic as (A & B & C).
  assert (V1 : V (x, y0, z0)) by (apply (Up AX 0%nat 1%nat) with (t := (x0, y0, z0)) (v := x); auto; try lia; repeat split; auto).
  assert (V2 : V (x, y, z0)) by (apply (Up AY 2%nat 3%nat) with (t := (x, y0, z0)) (v := y); auto; try lia; repeat split; auto).
  apply (Up AZ 4%nat 5%nat) with (t := (x, y, z0)) (v := z); auto; try lia; repeat split; auto.
Qed.

(** ** The loop *)
Section Flood.
Context {K : FloatOps}.

Definition cells (d : dims) : list N := nrange 0 (N.to_nat (total_cells d)).
Lemma cells_in d c : In c (cells d) <-> c < total_cells d.
Proof. unfold cells. rewrite nrange_in. lia. Qed.

(** Done and queued cells are the wet ones, each once, all in the grid; the neighbours of the
    done cells are wet. *)
Record flood_inv (d : dims) (queue wet : list N) (m : list (N * N)) : Prop := {
  fv_once : Permutation wet (map fst m ++ queue);
  fv_nodup : NoDup wet;
  fv_grid : forall c, In c wet -> c < total_cells d;
  fv_closed : forall c, In c (map fst m) -> incl (all_nbrs d c) wet;
  fv_local : forall e, In e m -> snd e = 0
}.

Lemma node_coord_ok (g : grid K) x y z b : b < 4 -> exists v, node_coord_from_tuple g (x, y, z, b) = Ok v.
Proof.
  intros H. unfold node_coord_from_tuple, basis_offset, vec_get.
  assert (b = 0 \/ b = 1 \/ b = 2 \/ b = 3) as [-> | [-> | [-> | -> ]]] by lia;
    (eexists; reflexivity).
Qed.

Lemma cell_center_ok (g : grid K) c : exists v, cell_center g c = Ok v.
Proof.
  unfold cell_center. destruct (cell_idx_to_tuple (g_dims g) c) as [[x y] z].
  destruct (node_coord_ok g x y z 0 ltac:(lia)) as (v & ->). cbn [rbind]. eauto.
Qed.

Lemma flood_loop_spec (g : grid K) c0 : positive (g_dims g) -> small (g_dims g) ->
  forall fuel a queue wet m nbrs,
  ga_centers a = [c0] -> flood_inv (g_dims g) queue wet m ->
  (N.to_nat (total_cells (g_dims g)) <= fuel + length m)%nat ->
  flood_loop fuel 0 g a (queue, wet) m nbrs <> NoFuel /\
  forall m' nbrs', flood_loop fuel 0 g a (queue, wet) m nbrs = Ok (m', nbrs') ->
    nbrs' = nbrs /\ incl (map fst m) (map fst m') /\ incl queue (map fst m') /\
    exists wet', flood_inv (g_dims g) [] wet' m'.
Proof.
  intros P S. set (d := g_dims g) in * . induction fuel as [|fuel IH]; intros a queue wet m nbrs Ha V Hfuel.
  - destruct queue as [|c queue].
    + cbn. split; [discriminate|]. intros m' nbrs' [= <- <-]. repeat split; eauto using incl_refl; intros ? [].
    + exfalso. destruct V. assert (L : (length wet <= length (cells d))%nat).
      { apply NoDup_incl_length; auto. intros x Hx. apply cells_in. auto. }
      unfold cells in L. rewrite nrange_length in L.
      apply Permutation_length in fv_once0. rewrite app_length, map_length in fv_once0. cbn in fv_once0. lia.
  - cbn [flood_loop fst]. destruct queue as [|c queue].
    + split; [discriminate|]. intros m' nbrs' [= <- <-]. repeat split; eauto using incl_refl; intros ? [].
    + assert (Hc : In c wet).
      { eapply Permutation_in; [symmetry; apply (fv_once _ _ _ _ V)|]. apply in_or_app. right. left. reflexivity. }
      pose proof (fv_grid _ _ _ _ V c Hc) as Hgrid.
      assert (Hm : ~ In c (map fst m)).
      { intros Hm. pose proof (Permutation_NoDup (fv_once _ _ _ _ V) (fv_nodup _ _ _ _ V)) as D.
        apply (NoDup_remove_2 _ _ _ D). apply in_or_app. left. exact Hm. }
      destruct (cell_center_ok g c) as (rr & ->). cbn [rbind].
      pose proof (nearest_center_fuel a rr) as Fn.
      destruct (nearest_center a rr) as [[dom burned]| |] eqn:En; cbn [rbind]; [|split; discriminate|congruence].
      apply nearest_center_index in En. rewrite Ha in En. cbn in En.
      assert (dom = 0) as -> by lia. cbn [N.eqb]. cbn [snd].
      rewrite (add_nbrs_ok d c _ P S Hgrid). cbn [rbind].
      destruct (fold_left flood_push (all_nbrs d c) (queue, wet)) as [queue' wet'] eqn:Ef.
      apply flood_push_spec in Ef. destruct Ef as (new & -> & Hw & Hi & Hn & Hd).
      assert (Em : or_insert m c 0 = m ++ [(c, 0)]).
      { unfold or_insert. apply assoc_none in Hm. rewrite Hm. reflexivity. }
      rewrite Em.
      assert (V' : flood_inv d (queue ++ new) wet' (m ++ [(c, 0)])).
      { constructor.
        - rewrite Hw, (fv_once _ _ _ _ V), map_app. cbn [map fst]. rewrite <- app_assoc. cbn [app].
          rewrite Permutation_app_comm, <- app_assoc. reflexivity.
        - apply Hd, (fv_nodup _ _ _ _ V).
        - intros x Hx. eapply Permutation_in in Hx; [|exact Hw]. apply in_app_or in Hx. destruct Hx as [Hx|Hx].
          + apply Hi in Hx. eapply all_nbrs_in; eauto.
          + apply (fv_grid _ _ _ _ V). exact Hx.
        - intros x Hx. rewrite map_app in Hx. apply in_app_or in Hx. destruct Hx as [Hx|[<-|[]]].
          + intros y Hy. apply (fv_closed _ _ _ _ V x Hx) in Hy. eapply Permutation_in; [symmetry; exact Hw|].
            apply in_or_app. right. exact Hy.
          + exact Hn.
        - intros e He. apply in_app_or in He. destruct He as [He|[<-|[]]]; [|reflexivity].
          apply (fv_local _ _ _ _ V). exact He. }
      specialize (IH (set_burned a burned) (queue ++ new) wet' (m ++ [(c, 0)]) nbrs Ha V').
      rewrite app_length in IH. cbn [length] in IH. specialize (IH ltac:(lia)).
      destruct IH as (IH1 & IH2). split; [exact IH1|].
      intros m' nbrs' H. destruct (IH2 _ _ H) as (-> & I1 & I2 & I3). split; [reflexivity|].
      rewrite map_app in I1. split; [intros x Hx; apply I1, in_or_app; left; exact Hx|].
      split; [|exact I3]. intros x [<-|Hx]; [apply I1, in_or_app; right; left; reflexivity|].
      apply I2, in_or_app. left. exact Hx.
Qed.

Lemma record_centers_centers (g g' : gao K) i l : record_centers g i l = Ok g' -> ga_centers g' = ga_centers g.
Proof.
  revert g i. induction l as [|c l IH]; intros g i H; cbn in H; [injection H as <-; reflexivity|].
  rb H as t E. rb H as mine E2. apply IH in H. exact H.
Qed.
Lemma gao_new_centers (l : list (vec K)) a : gao_new l = Ok a -> ga_centers a = l.
Proof.
  unfold gao_new. intros H. rb H as c0 E0. rb H as n E. rb H as x Ex. rb H as y Ey. rb H as z Ez.
  apply record_centers_centers in H. exact H.
Qed.
Lemma record_centers_fuel (g : gao K) i l : record_centers g i l <> NoFuel.
Proof.
  revert g i. induction l as [|c l IH]; intros g i; cbn [record_centers]; [discriminate|].
  apply rbind_fuel; [apply which_tuple_fuel|]. intros. apply rbind_fuel; [apply vec_get_fuel|]. auto.
Qed.
Lemma gao_new_fuel (l : list (vec K)) : gao_new l <> NoFuel.
Proof.
  unfold gao_new. apply rbind_fuel; [apply vec_get_fuel|]. intros c0 _.
  do 4 (apply rbind_fuel; [apply unwrap_fuel|]; intros ? _). apply record_centers_fuel.
Qed.

Definition one_center_statement (g : grid K) (c : vec K) : Prop :=
  assign_cells 0 g [c] <> NoFuel /\
  forall m nbrs, assign_cells 0 g [c] = Ok (m, nbrs) ->
    nbrs = [] /\ Permutation m (map (fun cell => (cell, 0)) (cells (g_dims g))).

Lemma one_center_local (g : grid K) c root : positive (g_dims g) -> small (g_dims g) ->
  which_cell g c = Ok root -> root < total_cells (g_dims g) -> one_center_statement g c.
Proof.
  intros P S Er Hr. set (d := g_dims g) in * . unfold one_center_statement, assign_cells.
  pose proof (gao_new_fuel [c]) as Fa.
  destruct (gao_new [c]) as [a| |] eqn:Ea; cbn [rbind]; [|split; discriminate|congruence].
  apply gao_new_centers in Ea. cbn [vec_get N.to_nat nth_error unwrap rbind]. rewrite Er. cbn [rbind].
  fold d. rewrite (add_nbrs_ok d root _ P S Hr). cbn [rbind].
  destruct (fold_left flood_push (all_nbrs d root) ([root], [root])) as [queue wet] eqn:Ef.
  apply flood_push_spec in Ef. destruct Ef as (new & -> & Hw & Hi & Hn & Hd).
  assert (V : flood_inv d ([root] ++ new) wet []).
  { constructor.
    - rewrite Hw. change (map fst []  ++ [root] ++ new) with ([root] ++ new). apply Permutation_app_comm.
    - apply Hd. constructor; auto. constructor.
    - intros x Hx. eapply Permutation_in in Hx; [|exact Hw]. apply in_app_or in Hx.
      destruct Hx as [Hx|[<-|[]]]; auto. eapply all_nbrs_in; eauto.
    - intros x [].
    - intros x []. }
  match goal with |- context [flood_loop ?f _ _ _ _ _ _] =>
    destruct (flood_loop_spec g c P S f a _ _ [] [] Ea V) as (F1 & F2) end.
  { unfold n_cells. fold d. unfold total_cells. cbn. lia. }
  split; [exact F1|]. intros m nbrs H. apply F2 in H. destruct H as (-> & _ & Iq & wet' & V').
  split; [reflexivity|].
  assert (Em : m = map (fun cell => (cell, 0)) (map fst m)).
  { pose proof (fv_local _ _ _ _ V') as L. clear - L. induction m as [|[k v] m IH]; [reflexivity|].
    cbn. rewrite <- IH by (intros; apply L; right; auto). f_equal. f_equal. apply (L (k, v)). left. reflexivity. }
  rewrite Em. apply Permutation_map. fold d.
  pose proof (fv_once _ _ _ _ V') as Po. rewrite app_nil_r in Po.
  rewrite <- Po. apply NoDup_Permutation; [apply (fv_nodup _ _ _ _ V')|apply nrange_nodup|].
  intros x. rewrite cells_in. split; [apply (fv_grid _ _ _ _ V')|]. intros Hx.
  apply (closed_everything d (fun c => In c wet') root); auto.
  - eapply Permutation_in; [symmetry; exact Po|]. apply Iq. left. reflexivity.
  - intros c1 f Hc1 Hf Hin. eapply Permutation_in in Hin; [|exact Po].
    apply (fv_closed _ _ _ _ V' c1 Hin). apply face_nbr_in; auto.
Qed.

End Flood.
