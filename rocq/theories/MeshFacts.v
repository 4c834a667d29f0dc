(** Proofs about the construction of the mesh of one domain. *)
From Coq Require Import NArith ZArith List Bool String Lia Permutation.
From Verif Require Import Float ParticleModel NuclearModel MeshTypes CycleModel GridModel AssignModel MeshModel
  GridSpec GridLemmas AssignLemmas FloodLemmas TrackAccount CycleFacts.
Import ListNotations.
Local Open Scope N_scope.
Local Open Scope list_scope.

(** ** C32: local node numbers *)

(** Distinct keys, numbered 0, 1, 2, ... *)
Definition numbered (m : list (N * N)) : Prop :=
  map snd m = nrange 0 (List.length m) /\ NoDup (map fst m).

Lemma number_node_spec m g : numbered m ->
  numbered (number_node m g) /\ forall x, In x (map fst (number_node m g)) <-> In x (map fst m) \/ x = g.
Proof.
  intros (E & D). unfold number_node, or_insert. destruct (assoc m g) eqn:Ea.
  - split; [split; auto|]. apply assoc_some, (in_map fst) in Ea. cbn in Ea.
    intros x. split; [tauto|]. intros [| -> ]; auto.
  - apply assoc_none in Ea. split; [split|].
    + rewrite map_app, E, app_length. cbn [map snd List.length]. rewrite Nat.add_1_r, nrange_snoc. reflexivity.
    + rewrite map_app. cbn. apply Permutation_NoDup with (g :: map fst m); [|constructor; auto].
      apply Permutation_cons_append.
    + intros x. rewrite map_app, in_app_iff. cbn. intuition.
Qed.

Lemma number_nodes_spec l m : numbered m ->
  numbered (fold_left number_node l m) /\
  forall x, In x (map fst (fold_left number_node l m)) <-> In x (map fst m) \/ In x l.
Proof.
  revert m. induction l as [|g l IH]; intros m H; cbn [fold_left]; [split; [exact H|cbn; tauto]|].
  destruct (number_node_spec m g H) as (N1 & I1). destruct (IH _ N1) as (N2 & I2). split; [exact N2|].
  intros x. rewrite I2, I1. cbn. intuition.
Qed.

Definition local_cell (p : partition) (c : N) : Prop :=
  exists info, In (c, info) (pt_cells p) /\ ci_domain_gid info = Some (pt_domain_gid p).

Lemma bootstrap_loop_spec d gid cells corners faces :
  (forall e, In e cells -> ci_domain_gid (snd e) <> None) -> numbered corners -> numbered faces ->
  exists corners' faces', bootstrap_loop d gid cells corners faces = Ok (corners', faces') /\
    numbered corners' /\ numbered faces' /\
    (forall x, In x (map fst corners') <-> In x (map fst corners) \/
       exists e, In e cells /\ ci_domain_gid (snd e) = Some gid /\ In x (firstn 8 (get_node_gids d (fst e)))) /\
    (forall x, In x (map fst faces') <-> In x (map fst faces) \/
       exists e, In e cells /\ ci_domain_gid (snd e) = Some gid /\ In x (skipn 8 (get_node_gids d (fst e)))).
Proof.
  revert corners faces. induction cells as [|[k v] cells IH]; intros corners faces Hl Nc Nf; cbn [bootstrap_loop].
  - exists corners, faces. split; [reflexivity|]. split; [auto|]. split; [auto|]. split; intros x; split; auto;
      intros [|(e & [] & _)]; auto.
  - pose proof (Hl (k, v) (or_introl eq_refl)) as Hv. cbn in Hv.
    destruct (ci_domain_gid v) as [dg|] eqn:Edg; [|congruence]. cbn [unwrap rbind].
    assert (Hl' : forall e, In e cells -> ci_domain_gid (snd e) <> None) by (intros; apply Hl; right; auto).
    destruct (N.eqb_spec dg gid) as [->|Hne]; cbn [negb].
    + destruct (number_nodes_spec (firstn 8 (get_node_gids d k)) corners Nc) as (Nc' & Ic).
      destruct (number_nodes_spec (skipn 8 (get_node_gids d k)) faces Nf) as (Nf' & If').
      destruct (IH _ _ Hl' Nc' Nf') as (c' & f' & -> & N1 & N2 & I1 & I2).
      exists c', f'. split; [reflexivity|]. split; [auto|]. split; [auto|].
      split; intros x; [rewrite I1, Ic|rewrite I2, If']; split.
      * intros [[|]|(e & He & Hg & Hx)]; [auto|right; exists (k, v); cbn; auto|right; exists e; cbn; auto].
      * intros [|(e & [<-|He] & Hg & Hx)]; [auto|left; right; exact Hx|right; exists e; auto].
      * intros [[|]|(e & He & Hg & Hx)]; [auto|right; exists (k, v); cbn; auto|right; exists e; cbn; auto].
      * intros [|(e & [<-|He] & Hg & Hx)]; [auto|left; right; exact Hx|right; exists e; auto].
    + destruct (IH _ _ Hl' Nc Nf) as (c' & f' & -> & N1 & N2 & I1 & I2).
      exists c', f'. split; [reflexivity|]. split; [auto|]. split; [auto|].
      split; intros x; [rewrite I1|rewrite I2]; split.
      * intros [|(e & He & Hg & Hx)]; [auto|right; exists e; cbn; auto].
      * intros [|(e & [<-|He] & Hg & Hx)]; [auto|cbn in Hg; congruence|right; exists e; auto].
      * intros [|(e & He & Hg & Hx)]; [auto|right; exists e; cbn; auto].
      * intros [|(e & [<-|He] & Hg & Hx)]; [auto|cbn in Hg; congruence|right; exists e; auto].
Qed.

(** Corners have kind 0, face centers have another kind. *)
Definition node_kind (d : dims) (g : N) : N := snd (node_idx_to_tuple d g).

Lemma node_gids_kind d c x : positive d -> c < total_cells d ->
  (In x (firstn 8 (get_node_gids d c)) -> node_kind d x = 0) /\
  (In x (skipn 8 (get_node_gids d c)) -> 0 < node_kind d x) /\
  (In x (get_node_gids d c) -> node_kind d x < 4).
Proof.
  intros P H. pose proof (cell_idx_in _ _ P H) as I. unfold get_node_gids, node_kind.
  destruct (cell_idx_to_tuple d c) as [[x0 y0] z0]. destruct I as (Ix & Iy & Iz).
  cbn [map CORNER_OFFSET firstn skipn].
  assert (Ek : forall x y z b, x < nx d + 1 -> y < ny d + 1 -> z < nz d + 1 ->
     snd (node_idx_to_tuple d (node_tuple_to_idx d (x, y, z, b))) = b).
  { intros. rewrite node_idx_tuple; auto. }
  split; [|split]; intros J; cbn [In] in J;
    repeat (destruct J as [<-|J]; [rewrite Ek by lia; lia|]); contradiction.
Qed.

Lemma map_shift n (l : list (N * N)) : map snd l = nrange 0 (List.length l) ->
  map snd (map (fun e => (fst e, snd e + n)) l) = nrange n (List.length l).
Proof.
  intros E. rewrite map_map. cbn [snd]. rewrite <- (map_map snd (fun x => x + n)), E.
  generalize (List.length l) as k. intros k.
  assert (G : forall lo, map (fun x => x + n) (nrange lo k) = nrange (lo + n) k).
  { induction k as [|k IH]; intros lo; [reflexivity|]. cbn. rewrite IH. do 2 f_equal. lia. }
  apply (G 0).
Qed.

Lemma nrange_app lo a b : nrange lo (a + b) = nrange lo a ++ nrange (lo + N.of_nat a) b.
Proof.
  revert lo. induction a as [|a IH]; intros lo; cbn; [f_equal; lia|]. rewrite IH. do 3 f_equal. lia.
Qed.

Lemma node_map_spec d p : positive d ->
  (forall e, In e (pt_cells p) -> ci_domain_gid (snd e) <> None /\ fst e < total_cells d) ->
  exists nodes, bootstrap_node_map d p = Ok nodes /\ numbered nodes /\
    forall x, In x (map fst nodes) <-> exists c, local_cell p c /\ In x (get_node_gids d c).
Proof.
  intros P H. unfold bootstrap_node_map.
  destruct (bootstrap_loop_spec d (pt_domain_gid p) (pt_cells p) [] [])
    as (corners & faces & -> & Nc & Nf & Ic & If').
  { intros e He. apply H. exact He. }
  { split; [reflexivity|constructor]. }
  { split; [reflexivity|constructor]. }
  cbn [rbind]. eexists. split; [reflexivity|].
  assert (Ef : map fst (map (fun e => (fst e, snd e + N.of_nat (List.length corners))) faces) = map fst faces).
  { rewrite map_map. reflexivity. }
  split; [split|].
  - rewrite map_app, map_shift by apply Nf. rewrite (proj1 Nc), app_length, map_length, nrange_app. reflexivity.
  - rewrite map_app, Ef.
    assert (Dis : forall x, In x (map fst corners) -> In x (map fst faces) -> False).
    { intros x Hx Hx'. apply Ic in Hx. apply If' in Hx'.
      destruct Hx as [[]|(e & He & _ & Hx)], Hx' as [[]|(e' & He' & _ & Hx')].
      apply node_gids_kind in Hx; [|auto|apply H; auto]. apply node_gids_kind in Hx'; [|auto|apply H; auto]. lia. }
    revert Dis. generalize (proj2 Nc) (proj2 Nf). generalize (map fst corners) (map fst faces). clear.
    intros l1 l2 D1 D2 Dis. induction l1 as [|x l1 IH]; [exact D2|]. inversion D1; subst. cbn. constructor.
    + rewrite in_app_iff. intros [|]; [auto|]. apply (Dis x); cbn; auto.
    + apply IH; auto. intros y Hy. apply Dis. right. exact Hy.
  - intros x. rewrite map_app, Ef, in_app_iff, Ic, If'. split.
    + intros [[[]|((c, info) & He & Hg & Hx)]|[[]|((c, info) & He & Hg & Hx)]]; exists c; (split; [exists info; auto|]).
      * rewrite <- (firstn_skipn 8). apply in_or_app. left. exact Hx.
      * rewrite <- (firstn_skipn 8). apply in_or_app. right. exact Hx.
    + intros (c & (info & He & Hg) & Hx). rewrite <- (firstn_skipn 8) in Hx. apply in_app_or in Hx.
      destruct Hx as [Hx|Hx]; [left|right]; right; exists (c, info); auto.
Qed.

(** ** C33: the partition *)

Definition local_info (i : N) : cell_info := mkCellInfo (Some 0) (Some 0) (Some 0) (Some i).

(** The partition of one domain: each cell of the list is local, with its position as local number. *)
Definition numbers_cells (cs : list N) (p : partition) : Prop :=
  pt_domain_gid p = 0 /\ pt_foreman p = 0 /\ pt_nbr_domains p = [] /\
  pt_cells p = combine cs (map local_info (nrange 0 (List.length cs))).

Lemma idx_map_local n cs :
  build_cell_idx_map 0 0 n (map (fun c => (c, 0)) cs) = combine cs (map local_info (nrange n (List.length cs))).
Proof.
  revert n. induction cs as [|c cs IH]; intros n; [reflexivity|]. cbn [map build_cell_idx_map N.eqb].
  cbn. f_equal. replace (n + 1) with (N.succ n) by lia. apply IH.
Qed.

Section Mesh.
Context {K : FloatOps}.

Lemma partition_spec order (g : grid K) c root p :
  (forall l, Permutation (order l) l) ->
  positive (g_dims g) -> small (g_dims g) ->
  which_cell g c = Ok root -> root < total_cells (g_dims g) ->
  build_mesh_partition order 0 0 g [c] <> NoFuel /\
  (build_mesh_partition order 0 0 g [c] = Ok p ->
   exists cs, Permutation cs (cells (g_dims g)) /\ numbers_cells cs p).
Proof.
  intros Ho P S Er Hr. destruct (one_center_local g c root P S Er Hr) as (F & A). unfold build_mesh_partition.
  split; [apply rbind_fuel; [exact F|intros [m nbrs] _; discriminate]|].
  intros H. rb H as [m nbrs] E. injection H as <-. destruct (A _ _ E) as (-> & Pm).
  specialize (Ho m). apply (Permutation_trans Ho) in Pm. clear Ho. rename Pm into Ho.
  apply Permutation_map_inv in Ho. destruct Ho as (cs & Ec & Pc).
  exists cs. split; [symmetry; exact Pc|]. repeat split. cbn [pt_cells]. rewrite Ec. apply idx_map_local.
Qed.

End Mesh.

(** ** C34, C41: the connectivity *)

Lemma nth_error_combine {A B} (l1 : list A) (l2 : list B) i a b :
  nth_error l1 i = Some a -> nth_error l2 i = Some b -> nth_error (combine l1 l2) i = Some (a, b).
Proof.
  revert l2 i. induction l1 as [|x l1 IH]; intros [|y l2] [|i]; cbn; try discriminate; [congruence|auto].
Qed.
Lemma map_fst_combine {A B} (l1 : list A) (l2 : list B) : List.length l1 = List.length l2 -> map fst (combine l1 l2) = l1.
Proof. revert l2. induction l1 as [|x l1 IH]; intros [|y l2] H; cbn in * ; try lia; [auto|]. f_equal. auto. Qed.

Lemma cells_entry cs p i c : numbers_cells cs p -> nth_error cs i = Some c ->
  nth_error (pt_cells p) i = Some (c, local_info (N.of_nat i)).
Proof.
  intros (_ & _ & _ & E) H. rewrite E. apply nth_error_combine; [exact H|].
  rewrite nth_error_map, nrange_nth; [reflexivity|]. apply nth_error_Some. congruence.
Qed.
Lemma cells_keys cs p : numbers_cells cs p -> map fst (pt_cells p) = cs.
Proof. intros (_ & _ & _ & ->). apply map_fst_combine. rewrite map_length, nrange_length. reflexivity. Qed.
Lemma cells_length cs p : numbers_cells cs p -> List.length (pt_cells p) = List.length cs.
Proof. intros H. apply cells_keys in H. rewrite <- H. symmetry. apply map_length. Qed.

Lemma cells_assoc cs p i c : numbers_cells cs p -> NoDup cs -> nth_error cs i = Some c ->
  assoc (pt_cells p) c = Some (local_info (N.of_nat i)).
Proof.
  intros H D E. apply assoc_in; [rewrite (cells_keys _ _ H); exact D|].
  eapply nth_error_In, cells_entry; eauto.
Qed.

Lemma cells_info cs p e : numbers_cells cs p -> In e (pt_cells p) ->
  exists i, nth_error cs i = Some (fst e) /\ snd e = local_info (N.of_nat i).
Proof.
  intros H He. apply In_nth_error in He. destruct He as (i & Hi).
  destruct (nth_error cs i) as [c|] eqn:Ec.
  - rewrite (cells_entry _ _ _ _ H Ec) in Hi. injection Hi as <-. exists i. auto.
  - apply nth_error_None in Ec. rewrite <- (cells_length _ _ H) in Ec. apply nth_error_None in Ec. congruence.
Qed.

(** What one facet of a cell must be. *)
Record facet_is (d : dims) (cs : list N) (nodes : list (N * N)) (boundary : list adj_event)
    (i : nat) (c : N) (k : nat) (fa : facet_adj) : Prop := {
  fs_current : fa_current fa = mkLocation (Some 0) (Some (N.of_nat i)) (Some (N.of_nat k));
  fs_boundary : on_boundary d (cell_idx_to_tuple d c) (k / 4) = true ->
    nth_error boundary (k / 4) = Some (fa_event fa) /\ fa_adjacent fa = fa_current fa;
  fs_interior : on_boundary d (cell_idx_to_tuple d c) (k / 4) = false ->
    fa_event fa = TransitOnProcessor /\
    exists j c', nth_error cs j = Some c' /\
      cell_idx_to_tuple d c' = one_step (cell_idx_to_tuple d c) (k / 4) /\
      fa_adjacent fa = mkLocation (Some 0) (Some (N.of_nat j)) (Some (N.of_nat (opposing k)));
  fs_points : forall n0 n1 n2, facet_nodes d c k = (n0, n1, n2) ->
    exists i0 i1 i2, fa_point fa = (i0, i1, i2) /\ In (n0, i0) nodes /\ In (n1, i1) nodes /\ In (n2, i2) nodes
}.

Record cell_is (d : dims) (cs : list N) (nodes : list (N * N)) (boundary : list adj_event)
    (i : nat) (c : N) (cc : cell_conn) : Prop := {
  cl_points : Forall2 (fun g n => In (g, n) nodes) (get_node_gids d c) (cc_point cc);
  cl_count : List.length (cc_facet cc) = 24%nat;
  cl_facets : forall k fa, nth_error (cc_facet cc) k = Some fa -> facet_is d cs nodes boundary i c k fa
}.

Lemma rmap_exists {A B} (f : A -> result B) (R : A -> B -> Prop) l :
  (forall a, In a l -> exists b, f a = Ok b /\ R a b) -> exists l', rmap f l = Ok l' /\ Forall2 R l l'.
Proof.
  induction l as [|a l IH]; intros H; [exists []; split; [reflexivity|constructor]|].
  destruct (H a (or_introl eq_refl)) as (b & Eb & Rb).
  destruct IH as (l' & El & Rl); [intros; apply H; right; auto|].
  exists (b :: l'). cbn. rewrite Eb. cbn [rbind]. rewrite El. split; [reflexivity|constructor; auto].
Qed.

Lemma Forall2_length {A B} (R : A -> B -> Prop) l l' : Forall2 R l l' -> List.length l = List.length l'.
Proof. induction 1; cbn; auto. Qed.
Lemma Forall2_nth {A B} (R : A -> B -> Prop) l l' i a b :
  Forall2 R l l' -> nth_error l i = Some a -> nth_error l' i = Some b -> R a b.
Proof.
  intros H. revert i. induction H; intros [|i]; cbn; try discriminate; [congruence|]. eauto.
Qed.
Lemma Forall2_nth_l {A B} (R : A -> B -> Prop) l l' i a :
  Forall2 R l l' -> nth_error l i = Some a -> exists b, nth_error l' i = Some b /\ R a b.
Proof.
  intros H. revert i. induction H; intros [|i]; cbn; try discriminate; [|eauto].
  intros [= <-]. eauto.
Qed.
Lemma Forall2_nth_r {A B} (R : A -> B -> Prop) l l' i b :
  Forall2 R l l' -> nth_error l' i = Some b -> exists a, nth_error l i = Some a /\ R a b.
Proof.
  intros H. revert i. induction H; intros [|i]; cbn; try discriminate; [|eauto].
  intros [= <-]. eauto.
Qed.

Lemma nth_error_nth_N (l : list N) i a : nth_error l i = Some a -> nth i l 0 = a.
Proof. revert i. induction l; intros [|i]; cbn; try discriminate; [congruence|auto]. Qed.

(** The faces of one cell. *)
Record face_is (d : dims) (cs : list N) (boundary : list adj_event) (i : nat) (c : N) (f : nat) (fi : face_info) : Prop := {
  fc_nbr : fi_nbr_idx fi = None;
  fc_boundary : on_boundary d (cell_idx_to_tuple d c) f = true ->
    nth_error boundary f = Some (fi_event fi) /\ fi_cell_info fi = local_info (N.of_nat i);
  fc_interior : on_boundary d (cell_idx_to_tuple d c) f = false ->
    fi_event fi = TransitOnProcessor /\
    exists j c', nth_error cs j = Some c' /\
      cell_idx_to_tuple d c' = one_step (cell_idx_to_tuple d c) f /\ fi_cell_info fi = local_info (N.of_nat j)
}.

Lemma make_face_spec d cs p boundary i c f nbrs :
  positive d -> small d -> numbers_cells cs p -> Permutation cs (cells d) -> List.length boundary = 6%nat ->
  nth_error cs i = Some c -> (f < 6)%nat -> get_face_nbr_gids d c = Ok nbrs ->
  exists fi, make_face p boundary c (local_info (N.of_nat i)) (N.of_nat f) (nth f nbrs 0) = Ok fi /\
    face_is d cs boundary i c f fi.
Proof.
  intros P S Hp Pc Lb Ec Hf En.
  assert (D : NoDup cs) by (eapply Permutation_NoDup; [symmetry; exact Pc|apply nrange_nodup]).
  assert (Hc : c < total_cells d).
  { apply cells_in. eapply Permutation_in; [exact Pc|]. eapply nth_error_In; eauto. }
  destruct (face_neighbours d c f P S Hc Hf) as (nbrs' & En' & Ln & Hn & Hb & Hi).
  rewrite En in En'. injection En' as <-. cbn zeta in * .
  set (n := nth f nbrs 0) in * .
  assert (Jn : In n cs).
  { eapply Permutation_in; [symmetry; exact Pc|]. apply cells_in. exact Hn. }
  apply In_nth_error in Jn. destruct Jn as (j & Ej).
  unfold make_face. rewrite (cells_assoc _ _ _ _ Hp D Ej). cbn [unwrap rbind local_info ci_domain_gid].
  destruct Hp as (E0 & Ef & Enb & Hcells). rewrite E0. cbn [nbr_domain_idx N.eqb rbind].
  destruct (N.eqb_spec n c) as [E|Hne].
  - assert (On : on_boundary d (cell_idx_to_tuple d c) f = true) by (apply Hb; exact E).
    assert (j = i) as ->.
    { rewrite E in Ej. eapply NoDup_nth_error; eauto; [apply nth_error_Some; congruence|congruence]. }
    destruct (nth_error boundary f) as [ev|] eqn:Eev.
    2:{ apply nth_error_None in Eev. lia. }
    unfold vec_get. rewrite Nnat.Nat2N.id, Eev. cbn [unwrap rbind].
    eexists. split; [reflexivity|]. constructor; cbn; [reflexivity|auto|congruence].
  - assert (On : on_boundary d (cell_idx_to_tuple d c) f = false).
    { destruct (on_boundary d (cell_idx_to_tuple d c) f) eqn:Eo; [|reflexivity]. exfalso. apply Hne, Hb. reflexivity. }
    cbn [ci_foreman opt_N_eqb N.eqb rbind].
    eexists. split; [reflexivity|]. destruct (Hi On) as (Et & _).
    constructor; cbn; [reflexivity|congruence|]. intros _. split; [reflexivity|]. exists j, n. auto.
Qed.

Lemma combine_range_in {A} (l : list A) lo x a : In (x, a) (combine (nrange lo (List.length l)) l) ->
  exists f, x = lo + N.of_nat f /\ nth_error l f = Some a.
Proof.
  revert lo. induction l as [|b l IH]; intros lo H; cbn in H; [contradiction|].
  destruct H as [[= <- <-]|H]; [exists 0%nat; split; [lia|reflexivity]|].
  apply IH in H. destruct H as (f & -> & E). exists (S f). split; [lia|exact E].
Qed.

Lemma points_exist d (nodes : list (N * N)) c : (forall x, In x (get_node_gids d c) -> In x (map fst nodes)) ->
  exists pts, rmap (fun g => unwrap (assoc nodes g)) (get_node_gids d c) = Ok pts /\
    Forall2 (fun g n => In (g, n) nodes) (get_node_gids d c) pts.
Proof.
  intros H. apply rmap_exists. intros g Hg. apply H in Hg.
  destruct (assoc nodes g) as [n|] eqn:E.
  - exists n. split; [reflexivity|]. apply assoc_some. exact E.
  - apply assoc_none in E. contradiction.
Qed.

Definition is_boundary_event (ev : adj_event) : Prop := ev = BoundaryReflection \/ ev = BoundaryEscape.

Lemma indirect_nth k : (k < 24)%nat -> nth_error NODE_INDIRECT k = Some (indirect k).
Proof. intros H. do 24 (destruct k as [|k]; [reflexivity|]). lia. Qed.
Lemma opposing_nth k : (k < 24)%nat -> nth_error OPPOSING_FACET k = Some (N.of_nat (opposing k)).
Proof. intros H. do 24 (destruct k as [|k]; [reflexivity|]). lia. Qed.

Lemma make_facet_spec d cs (nodes : list (N * N)) boundary i c pts faces k :
  (k < 24)%nat -> Forall is_boundary_event boundary ->
  Forall2 (fun g n => In (g, n) nodes) (get_node_gids d c) pts ->
  (forall f, (f < 6)%nat -> exists fi, nth_error faces f = Some fi /\ face_is d cs boundary i c f fi) ->
  exists fa, make_facet (Some 0) (Some (N.of_nat i)) pts faces (N.of_nat k) = Ok fa /\
    facet_is d cs nodes boundary i c k fa.
Proof.
  intros Hk Hb Hp Hf.
  assert (Hf6 : (k / 4 < 6)%nat) by (apply Nat.div_lt_upper_bound; lia).
  destruct (Hf _ Hf6) as (fi & Efi & Hfi).
  pose proof (indirect_lt k Hk) as L. pose proof (indirect_nth k Hk) as Ei.
  unfold make_facet, vec_get. rewrite Nnat.Nat2N.id, Ei, (opposing_nth k Hk).
  unfold indirect in L. destruct (indirect k) as [[a b] e] eqn:Eind. unfold indirect in Eind. rewrite Eind in L.
  destruct L as (La & Lb & Le).
  replace (N.to_nat (N.of_nat k / 4)) with (k / 4)%nat.
  2:{ rewrite Nnat.N2Nat.inj_div, Nnat.Nat2N.id. reflexivity. }
  assert (Pt : forall x, x < 14 -> exists n, nth_error pts (N.to_nat x) = Some n /\ In (nth (N.to_nat x) (get_node_gids d c) 0, n) nodes).
  { intros x Hx. destruct (nth_error (get_node_gids d c) (N.to_nat x)) as [gx|] eqn:Eg.
    - destruct (Forall2_nth_l _ _ _ _ _ Hp Eg) as (n & En & Hin). exists n. split; [exact En|].
      rewrite (nth_error_nth_N _ _ _ Eg). exact Hin.
    - apply nth_error_None in Eg. rewrite node_gids_length in Eg. lia. }
  destruct (Pt a La) as (pa & Epa & Ia), (Pt b Lb) as (pb & Epb & Ib), (Pt e Le) as (pe & Epe & Ie).
  cbn [unwrap rbind]. rewrite Epa. cbn [unwrap rbind]. rewrite Epb. cbn [unwrap rbind]. rewrite Epe. cbn [unwrap rbind].
  rewrite Efi. cbn [unwrap rbind]. eexists. split; [reflexivity|].
  constructor; cbn [fa_current fa_event fa_adjacent fa_point].
  - reflexivity.
  - intros On. destruct (fc_boundary _ _ _ _ _ _ _ Hfi On) as (Eev & Einfo). split; [exact Eev|].
    rewrite Einfo. cbn [local_info ci_domain_index ci_cell_index].
    rewrite Forall_forall in Hb. apply nth_error_In, Hb in Eev. destruct Eev as [-> | -> ]; reflexivity.
  - intros Off. destruct (fc_interior _ _ _ _ _ _ _ Hfi Off) as (Eev & j & c' & Ej & Et & Einfo).
    split; [exact Eev|]. exists j, c'. split; [exact Ej|]. split; [exact Et|].
    rewrite Einfo, Eev. reflexivity.
  - intros n0 n1 n2 En. unfold facet_nodes in En. rewrite Eind in En. cbn zeta in En. injection En as <- <- <-.
    exists pa, pb, pe. auto.
Qed.

Lemma build_cell_spec d cs p (nodes : list (N * N)) boundary i c :
  positive d -> small d -> numbers_cells cs p -> Permutation cs (cells d) ->
  List.length boundary = 6%nat -> Forall is_boundary_event boundary ->
  (forall x, In x (get_node_gids d c) -> In x (map fst nodes)) ->
  nth_error cs i = Some c ->
  exists cc, build_cell d nodes p boundary c (local_info (N.of_nat i)) = Ok cc /\ cell_is d cs nodes boundary i c cc.
Proof.
  intros P S Hp Pc Lb Hb Hn Ec.
  assert (Hc : c < total_cells d).
  { apply cells_in. eapply Permutation_in; [exact Pc|]. eapply nth_error_In; eauto. }
  unfold build_cell. destruct (points_exist d nodes c Hn) as (pts & -> & Hpts). cbn [rbind].
  destruct (face_neighbours d c 0 P S Hc ltac:(lia)) as (nbrs & En & Ln & _). rewrite En. cbn [rbind].
  destruct (rmap_exists (fun '(ii, nbr) => make_face p boundary c (local_info (N.of_nat i)) ii nbr)
     (fun e fi => face_is d cs boundary i c (N.to_nat (fst e)) fi) (combine (nrange 0 6) nbrs)) as (faces & -> & Hfaces).
  { intros [ii nbr] He. rewrite <- Ln in He. apply combine_range_in in He. destruct He as (f & -> & Ef).
    assert (Hf : (f < 6)%nat) by (rewrite <- Ln; apply nth_error_Some; congruence).
    cbn [N.add fst]. destruct (make_face_spec d cs p boundary i c f nbrs P S Hp Pc Lb Ec Hf En) as (fi & Efi & Hfi).
    rewrite (nth_error_nth_N _ _ _ Ef) in Efi. exists fi. rewrite Nnat.Nat2N.id. auto. }
  cbn [rbind].
  destruct (rmap_exists (make_facet (ci_domain_index (local_info (N.of_nat i))) (ci_cell_index (local_info (N.of_nat i))) pts faces)
     (fun k fa => facet_is d cs nodes boundary i c (N.to_nat k) fa) (nrange 0 24)) as (facets & -> & Hfacets).
  { intros k Hk. apply nrange_in in Hk. cbn [local_info ci_domain_index ci_cell_index].
    destruct (make_facet_spec d cs nodes boundary i c pts faces (N.to_nat k) ltac:(lia) Hb Hpts) as (fa & Efa & Hfa).
    - intros f Hf. assert (E : nth_error (combine (nrange 0 6) nbrs) f = Some (N.of_nat f, nth f nbrs 0)).
      { apply nth_error_combine; [rewrite nrange_nth by lia; reflexivity|].
        destruct (nth_error nbrs f) eqn:E; [rewrite (nth_error_nth_N _ _ _ E); reflexivity|].
        apply nth_error_None in E. lia. }
      destruct (Forall2_nth_l _ _ _ _ _ Hfaces E) as (fi & Efi & Hfi). exists fi. split; [exact Efi|].
      cbn [fst] in Hfi. rewrite Nnat.Nat2N.id in Hfi. exact Hfi.
    - rewrite Nnat.N2Nat.id in Efa. exists fa. auto. }
  cbn [rbind]. eexists. split; [reflexivity|]. constructor; cbn [cc_point cc_facet].
  - exact Hpts.
  - apply Forall2_length in Hfacets. rewrite nrange_length in Hfacets. auto.
  - intros k fa Efa. destruct (Forall2_nth_r _ _ _ _ _ Hfacets Efa) as (x & Ex & Hx).
    assert (Hk : (k < 24)%nat).
    { rewrite <- (nrange_length 0 24). apply nth_error_Some. congruence. }
    rewrite nrange_nth in Ex by exact Hk. injection Ex as <-. cbn [N.add] in Hx. rewrite Nnat.Nat2N.id in Hx. exact Hx.
Qed.

Lemma filter_all {A} (f : A -> bool) l : (forall x, In x l -> f x = true) -> filter f l = l.
Proof.
  induction l as [|x l IH]; intros H; [reflexivity|]. cbn. rewrite H by (left; reflexivity). f_equal. apply IH.
  intros; apply H; right; auto.
Qed.

Definition conn_is (d : dims) (cs : list N) (nodes : list (N * N)) (boundary : list adj_event) (conns : list cell_conn) : Prop :=
  List.length conns = List.length cs /\
  forall i c cc, nth_error cs i = Some c -> nth_error conns i = Some cc -> cell_is d cs nodes boundary i c cc.

Lemma build_cells_spec d cs p (nodes : list (N * N)) boundary :
  positive d -> small d -> numbers_cells cs p -> Permutation cs (cells d) ->
  List.length boundary = 6%nat -> Forall is_boundary_event boundary ->
  (forall c x, In c cs -> In x (get_node_gids d c) -> In x (map fst nodes)) ->
  exists conns, build_cells d nodes p boundary = Ok conns /\ conn_is d cs nodes boundary conns.
Proof.
  intros P S Hp Pc Lb Hb Hn. unfold build_cells.
  rewrite filter_all.
  2:{ intros e He. destruct (cells_info _ _ _ Hp He) as (i & _ & ->). destruct Hp as (-> & _). reflexivity. }
  destruct (rmap_exists (fun '(c, info) => build_cell d nodes p boundary c info)
    (fun e cc => forall i, nth_error cs i = Some (fst e) -> cell_is d cs nodes boundary i (fst e) cc) (pt_cells p)) as (conns & E & F).
  { intros [c info] He. destruct (cells_info _ _ _ Hp He) as (i & Ei & Einfo). cbn [fst snd] in * . subst info.
    destruct (build_cell_spec d cs p nodes boundary i c P S Hp Pc Lb Hb) as (cc & Ecc & Hcc); auto.
    { intros x Hx. eapply Hn; eauto. eapply nth_error_In; eauto. }
    exists cc. split; [exact Ecc|]. intros i' Ei'.
    assert (i' = i) as ->; [|exact Hcc].
    assert (D : NoDup cs) by (eapply Permutation_NoDup; [symmetry; exact Pc|apply nrange_nodup]).
    eapply NoDup_nth_error; eauto; [apply nth_error_Some; congruence|congruence]. }
  exists conns. split; [exact E|]. split.
  - apply Forall2_length in F. rewrite <- F. apply cells_length. exact Hp.
  - intros i c cc Ei Ecc. pose proof (cells_entry _ _ _ _ Hp Ei) as Ent.
    exact (Forall2_nth _ _ _ _ _ _ F Ent Ecc i Ei).
Qed.

(** ** The consistency check *)

Lemma enumerate_in {A} (l : list A) x a : In (x, a) (enumerate l) -> exists f, x = N.of_nat f /\ nth_error l f = Some a.
Proof. intros H. apply combine_range_in in H. destruct H as (f & -> & E). exists f. split; [lia|exact E]. Qed.

Lemma rfold_unit {A} (f : unit -> A -> result unit) l : (forall a, In a l -> f tt a = Ok tt) -> rfold f l tt = Ok tt.
Proof.
  induction l as [|a l IH]; intros H; [reflexivity|]. cbn. rewrite H by (left; reflexivity). cbn [rbind].
  apply IH. intros; apply H; right; auto.
Qed.

(** The facet reached by crossing, and back. *)
Lemma crossing_back d cs nodes boundary conns i c cc k fa :
  positive d -> Permutation cs (cells d) -> conn_is d cs nodes boundary conns ->
  nth_error cs i = Some c -> nth_error conns i = Some cc -> nth_error (cc_facet cc) k = Some fa ->
  exists j cc' k' fa', fa_adjacent fa = mkLocation (Some 0) (Some (N.of_nat j)) (Some (N.of_nat k')) /\
    nth_error conns j = Some cc' /\ nth_error (cc_facet cc') k' = Some fa' /\
    fa_adjacent fa' = fa_current fa /\ fa_current fa' = fa_adjacent fa /\
    (on_boundary d (cell_idx_to_tuple d c) (k / 4) = true <-> j = i).
Proof.
  intros P Pc (Lc & Hc) Ei Ecc Efa.
  assert (D : NoDup cs) by (eapply Permutation_NoDup; [symmetry; exact Pc|apply nrange_nodup]).
  assert (Hgrid : forall j c', nth_error cs j = Some c' -> c' < total_cells d).
  { intros j c' E. apply cells_in. eapply Permutation_in; [exact Pc|]. eapply nth_error_In; eauto. }
  pose proof (Hc _ _ _ Ei Ecc) as C. pose proof (cl_facets _ _ _ _ _ _ _ C _ _ Efa) as Fa.
  assert (Hk : (k < 24)%nat).
  { rewrite <- (cl_count _ _ _ _ _ _ _ C). apply nth_error_Some. congruence. }
  assert (Hf : (k / 4 < 6)%nat) by (apply Nat.div_lt_upper_bound; lia).
  destruct (on_boundary d (cell_idx_to_tuple d c) (k / 4)) eqn:Eo.
  - destruct (fs_boundary _ _ _ _ _ _ _ _ Fa Eo) as (_ & Eadj).
    pose proof (fs_current _ _ _ _ _ _ _ _ Fa) as Ecur.
    exists i, cc, k, fa. rewrite Eadj, Ecur. tauto.
  - destruct (fs_interior _ _ _ _ _ _ _ _ Fa Eo) as (_ & j & c' & Ej & Et & Eadj).
    destruct (opposing_facts k Hk) as (Ho & Hoo & Hof).
    destruct (nth_error conns j) as [cc'|] eqn:Ecc'.
    2:{ exfalso. apply nth_error_None in Ecc'. rewrite Lc in Ecc'. apply nth_error_None in Ecc'. congruence. }
    pose proof (Hc _ _ _ Ej Ecc') as C'.
    destruct (nth_error (cc_facet cc') (opposing k)) as [fa'|] eqn:Efa'.
    2:{ exfalso. apply nth_error_None in Efa'. rewrite (cl_count _ _ _ _ _ _ _ C') in Efa'. lia. }
    pose proof (cl_facets _ _ _ _ _ _ _ C' _ _ Efa') as Fa'.
    pose proof (cell_idx_in d c P (Hgrid _ _ Ei)) as Ic.
    destruct (one_step_back _ _ Hf d Ic Eo) as (Eo' & Eb & Hne).
    exists j, cc', (opposing k), fa'. split; [exact Eadj|]. split; [exact Ecc'|]. split; [exact Efa'|].
    assert (Eo2 : on_boundary d (cell_idx_to_tuple d c') (opposing k / 4) = false) by (rewrite Et, Hof; exact Eo').
    destruct (fs_interior _ _ _ _ _ _ _ _ Fa' Eo2) as (_ & i' & c2 & Ei' & Et2 & Eadj2).
    rewrite Et, Hof, Eb in Et2.
    assert (c2 = c) as ->.
    { rewrite <- (cell_tuple_idx d c2 P), <- (cell_tuple_idx d c P), Et2. reflexivity. }
    assert (i' = i) as ->.
    { eapply NoDup_nth_error; eauto; [apply nth_error_Some; congruence|congruence]. }
    rewrite Hoo in Eadj2. split; [rewrite Eadj2; symmetry; apply (fs_current _ _ _ _ _ _ _ _ Fa)|].
    split; [rewrite Eadj; apply (fs_current _ _ _ _ _ _ _ _ Fa')|].
    split; [discriminate|]. intros ->. exfalso. apply Hne. rewrite <- Et. congruence.
Qed.

Lemma check_ok d cs nodes boundary conns :
  positive d -> Permutation cs (cells d) -> conn_is d cs nodes boundary conns -> consistency_check conns = Ok tt.
Proof.
  intros P Pc Hconn. unfold consistency_check. apply rfold_unit. intros [x cc] Hx.
  apply enumerate_in in Hx. destruct Hx as (i & -> & Ecc). apply rfold_unit. intros [y fa] Hy.
  apply enumerate_in in Hy. destruct Hy as (k & -> & Efa).
  destruct (nth_error cs i) as [c|] eqn:Ei.
  2:{ exfalso. apply nth_error_None in Ei. rewrite <- (proj1 Hconn) in Ei. apply nth_error_None in Ei. congruence. }
  destruct (crossing_back d cs nodes boundary conns i c cc k fa P Pc Hconn Ei Ecc Efa)
    as (j & cc' & k' & fa' & Eadj & Ecc' & Efa' & Eback & _).
  pose proof (cl_facets _ _ _ _ _ _ _ (proj2 Hconn _ _ _ Ei Ecc) _ _ Efa) as Fa.
  pose proof (fs_current _ _ _ _ _ _ _ _ Fa) as Ecur.
  unfold check_facet. rewrite Ecur, Eadj. cbn [loc_cell loc_domain loc_facet unwrap rbind].
  rewrite N.eqb_refl. cbn [rassert rbind vec_get N.to_nat nth_error unwrap].
  unfold vec_get. rewrite !Nnat.Nat2N.id, Ecc'. cbn [unwrap rbind]. rewrite Efa'. cbn [unwrap rbind].
  rewrite Eback, Ecur. cbn [loc_cell loc_domain loc_facet unwrap rbind]. rewrite !N.eqb_refl. reflexivity.
Qed.

(** ** The whole mesh *)

Lemma boundary_conditions_ok s boundary : get_boundary_conditions s = Ok boundary ->
  List.length boundary = 6%nat /\ Forall is_boundary_event boundary.
Proof.
  unfold get_boundary_conditions. destruct (String.eqb s "reflect"); [|destruct (String.eqb s "escape"); [|destruct (String.eqb s "octant")]];
    intros [= <-]; (split; [reflexivity|]); unfold is_boundary_event; cbn [repeat]; repeat (apply Forall_cons; [auto|]); apply Forall_nil.
Qed.

Section Coordinates.
Context {K : FloatOps}.

(** Every node of the table has the coordinates of its global number. *)
Definition coords_are (g : grid K) (nodes : list (N * N)) (node : list (vec K)) : Prop :=
  List.length node = List.length nodes /\
  forall gid n, In (gid, n) nodes -> exists v, node_coord_from_idx g gid = Ok v /\ nth_error node (N.to_nat n) = Some v.

Lemma place_nodes_spec (g : grid K) nodes init :
  (forall e, In e nodes -> node_kind (g_dims g) (fst e) < 4) ->
  (forall e, In e nodes -> (N.to_nat (snd e) < List.length init)%nat) -> NoDup (map snd nodes) ->
  exists node, rfold (place_node g) nodes init = Ok node /\ List.length node = List.length init /\
    (forall gid n, In (gid, n) nodes -> exists v, node_coord_from_idx g gid = Ok v /\ nth_error node (N.to_nat n) = Some v) /\
    (forall n, ~ In n (map snd nodes) -> nth_error node (N.to_nat n) = nth_error init (N.to_nat n)).
Proof.
  revert init. induction nodes as [|[gid n] nodes IH]; intros init Hk Hl D.
  - exists init. repeat split; auto. intros ? ? [].
  - cbn [rfold]. unfold place_node at 1. cbn [fst snd].
    assert (Ev : exists v, node_coord_from_idx g gid = Ok v).
    { specialize (Hk _ (or_introl eq_refl)). cbn [fst] in Hk. unfold node_kind in Hk. unfold node_coord_from_idx.
      destruct (node_idx_to_tuple (g_dims g) gid) as [[[x y] z] b]. apply node_coord_ok. exact Hk. }
    destruct Ev as (v & Ev). rewrite Ev. cbn [rbind].
    pose proof (Hl _ (or_introl eq_refl)) as Hn. cbn in Hn.
    unfold vec_get. destruct (nth_error init (N.to_nat n)) eqn:En; [|apply nth_error_None in En; lia].
    cbn [unwrap rbind]. inversion D; subst.
    destruct (IH (list_set init (N.to_nat n) v)) as (node & -> & Ln & H1' & H2').
    + intros; apply Hk; right; auto.
    + intros e He. rewrite length_list_set. apply Hl. right. exact He.
    + assumption.
    + exists node. split; [reflexivity|]. rewrite length_list_set in Ln. split; [exact Ln|]. split.
      * intros gid' n' [[= <- <-]|H]; [|auto]. exists v. split; [exact Ev|]. rewrite H2' by assumption.
        apply list_set_same. exact Hn.
      * intros m Hm. cbn in Hm. rewrite H2' by tauto. apply list_set_other.
        intros E. apply Hm. left. apply Nnat.N2Nat.inj. exact E.
Qed.

Lemma node_in_nodes_lt nodes gid n : numbered nodes -> In (gid, n) nodes -> n < N.of_nat (List.length nodes).
Proof.
  intros (E & _) H. apply (in_map snd) in H. rewrite E in H. apply nrange_in in H. cbn in H. lia.
Qed.

(** The planes of a cell are those through the corners of its facets. *)
Definition planes_are (g : grid K) (c : N) (planes : list (plane K)) : Prop :=
  List.length planes = 24%nat /\
  forall k pl, nth_error planes k = Some pl ->
    exists v0 v1 v2, (let '(n0, n1, n2) := facet_nodes (g_dims g) c k in
      node_coord_from_idx g n0 = Ok v0 /\ node_coord_from_idx g n1 = Ok v1 /\ node_coord_from_idx g n2 = Ok v2) /\
      pl = plane_new v0 v1 v2.

Lemma get_planes_spec (g : grid K) cs nodes boundary node i c cc :
  numbered nodes -> coords_are g nodes node -> cell_is (g_dims g) cs nodes boundary i c cc ->
  exists planes, get_planes node cc = Ok planes /\ planes_are g c planes.
Proof.
  intros Nn (Ln & Hn) C. unfold get_planes.
  destruct (rmap_exists (fun fa => let '(i0, i1, i2) := fa_point fa in
                  do p0 <- vec_get node i0 ; do p1 <- vec_get node i1 ; do p2 <- vec_get node i2 ;
                  Ok (plane_new p0 p1 p2))
    (fun fa pl => forall k, nth_error (cc_facet cc) k = Some fa ->
      exists v0 v1 v2, (let '(n0, n1, n2) := facet_nodes (g_dims g) c k in
        node_coord_from_idx g n0 = Ok v0 /\ node_coord_from_idx g n1 = Ok v1 /\ node_coord_from_idx g n2 = Ok v2) /\
        pl = plane_new v0 v1 v2) (cc_facet cc)) as (planes & E & F).
  { intros fa Hfa. destruct (fa_point fa) as [[i0 i1] i2] eqn:Ep.
    assert (Get : exists v0 v1 v2, vec_get node i0 = Ok v0 /\ vec_get node i1 = Ok v1 /\ vec_get node i2 = Ok v2).
    { apply In_nth_error in Hfa. destruct Hfa as (k & Ek). pose proof (cl_facets _ _ _ _ _ _ _ C _ _ Ek) as Fa.
      destruct (facet_nodes (g_dims g) c k) as [[n0 n1] n2] eqn:En.
      destruct (fs_points _ _ _ _ _ _ _ _ Fa _ _ _ En) as (j0 & j1 & j2 & Ej & I0 & I1 & I2).
      rewrite Ep in Ej. injection Ej as <- <- <-.
      destruct (Hn _ _ I0) as (v0 & _ & E0), (Hn _ _ I1) as (v1 & _ & E1), (Hn _ _ I2) as (v2 & _ & E2).
      exists v0, v1, v2. unfold vec_get. rewrite E0, E1, E2. auto. }
    destruct Get as (v0 & v1 & v2 & E0 & E1 & E2). rewrite E0, E1, E2. cbn [rbind].
    eexists. split; [reflexivity|]. intros k Ek. pose proof (cl_facets _ _ _ _ _ _ _ C _ _ Ek) as Fa.
    destruct (facet_nodes (g_dims g) c k) as [[n0 n1] n2] eqn:En.
    destruct (fs_points _ _ _ _ _ _ _ _ Fa _ _ _ En) as (j0 & j1 & j2 & Ej & I0 & I1 & I2).
    rewrite Ep in Ej. injection Ej as <- <- <-.
    destruct (Hn _ _ I0) as (w0 & W0 & X0), (Hn _ _ I1) as (w1 & W1 & X1), (Hn _ _ I2) as (w2 & W2 & X2).
    unfold vec_get in E0, E1, E2. rewrite X0 in E0. rewrite X1 in E1. rewrite X2 in E2.
    injection E0 as <-. injection E1 as <-. injection E2 as <-. exists w0, w1, w2. auto. }
  exists planes. split; [exact E|]. split.
  - apply Forall2_length in F. rewrite <- F. apply (cl_count _ _ _ _ _ _ _ C).
  - intros k pl Epl. destruct (Forall2_nth_r _ _ _ _ _ F Epl) as (fa & Efa & H). auto.
Qed.

Record mesh_is (g : grid K) (cs : list N) (boundary : list adj_event) (m : mesh K) : Prop := {
  mi_gid : me_domain_gid m = 0;
  mi_nodes : exists nodes, numbered nodes /\ coords_are g nodes (me_node m) /\
    (forall x, In x (map fst nodes) <-> exists c, In c cs /\ In x (get_node_gids (g_dims g) c)) /\
    conn_is (g_dims g) cs nodes boundary (me_conn m);
  mi_planes : Forall2 (planes_are g) cs (me_geom m)
}.

Lemma mesh_new_spec (g : grid K) cs p boundary :
  positive (g_dims g) -> small (g_dims g) -> numbers_cells cs p -> Permutation cs (cells (g_dims g)) ->
  List.length boundary = 6%nat -> Forall is_boundary_event boundary ->
  exists m, mesh_new p g boundary = Ok m /\ mesh_is g cs boundary m.
Proof.
  intros P S Hp Pc Lb Hb. set (d := g_dims g) in * .
  assert (Hgrid : forall c, In c cs -> c < total_cells d).
  { intros c Hc. apply cells_in. eapply Permutation_in; eauto. }
  unfold mesh_new. fold d.
  destruct (node_map_spec d p P) as (nodes & -> & Nn & In').
  { intros e He. destruct (cells_info _ _ _ Hp He) as (i & Ei & ->). split; [discriminate|].
    apply Hgrid. eapply nth_error_In; eauto. }
  cbn [rbind].
  assert (Loc : forall c, local_cell p c <-> In c cs).
  { intros c. unfold local_cell. rewrite (proj1 Hp). split.
    - intros (info & H & _). destruct (cells_info _ _ _ Hp H) as (i & Ei & _). eapply nth_error_In; eauto.
    - intros H. apply In_nth_error in H. destruct H as (i & Ei). exists (local_info (N.of_nat i)).
      split; [eapply nth_error_In, cells_entry; eauto|reflexivity]. }
  destruct (build_cells_spec d cs p nodes boundary P S Hp Pc Lb Hb) as (conns & -> & Hconn).
  { intros c x Hc Hx. apply In'. exists c. split; [apply Loc; exact Hc|exact Hx]. }
  cbn [rbind].
  destruct (place_nodes_spec g nodes (repeat vzero (List.length nodes))) as (node & -> & Ln & Hn & _).
  { intros e He. apply (in_map fst), In' in He. destruct He as (c & Hc & Hx). apply Loc in Hc.
    apply node_gids_kind in Hx; auto. }
  { intros [gid n] He. rewrite repeat_length. cbn. pose proof (node_in_nodes_lt _ _ _ Nn He). lia. }
  { rewrite (proj1 Nn). apply nrange_nodup. }
  cbn [rbind]. rewrite repeat_length in Ln.
  assert (Hco : coords_are g nodes node) by (split; auto).
  destruct (rmap_exists (get_planes node) (fun cc planes => exists i c, nth_error conns i = Some cc /\ nth_error cs i = Some c /\
      get_planes node cc = Ok planes /\ planes_are g c planes) conns) as (geom & Eg & Fg).
  { intros cc Hcc. apply In_nth_error in Hcc. destruct Hcc as (i & Ei).
    destruct (nth_error cs i) as [c|] eqn:Ec.
    2:{ exfalso. apply nth_error_None in Ec. rewrite <- (proj1 Hconn) in Ec. apply nth_error_None in Ec. congruence. }
    destruct (get_planes_spec g cs nodes boundary node i c cc Nn Hco (proj2 Hconn _ _ _ Ec Ei)) as (pls & E & H).
    exists pls. split; [exact E|]. exists i, c. auto. }
  rewrite Eg. cbn [rbind]. eexists. split; [reflexivity|].
  constructor; cbn [me_domain_gid me_node me_conn me_geom].
  - apply (proj1 Hp).
  - exists nodes. split; [exact Nn|]. split; [exact Hco|]. split; [|exact Hconn].
    intros x. rewrite In'. split; intros (c & Hc & Hx); exists c; (split; [apply Loc; exact Hc|exact Hx]).
  - assert (Lg : List.length cs = List.length geom).
    { apply Forall2_length in Fg. rewrite <- Fg. symmetry. apply Hconn. }
    assert (At : forall i c pls, nth_error cs i = Some c -> nth_error geom i = Some pls -> planes_are g c pls).
    { intros i c pls Ec Epl. destruct (Forall2_nth_r _ _ _ _ _ Fg Epl) as (cc & Ecc & _).
      destruct (get_planes_spec g cs nodes boundary node i c cc Nn Hco (proj2 Hconn _ _ _ Ec Ecc)) as (pls' & E & H).
      assert (G : nth_error geom i = Some pls').
      { clear - Eg Ecc E. revert geom i Eg Ecc. induction conns as [|x l IH]; intros geom i Eg Ecc; [destruct i; discriminate|].
        cbn in Eg. rb Eg as y Ey. rb Eg as ys Eys. injection Eg as <-. destruct i as [|i]; cbn in Ecc |- * .
        - injection Ecc as ->. congruence.
        - eauto. }
      rewrite Epl in G. injection G as ->. exact H. }
    clear - Lg At. revert geom Lg At. induction cs as [|c cs IH]; intros [|pls geom] Lg At; cbn in Lg; try lia; constructor.
    + apply (At 0%nat c pls); reflexivity.
    + apply IH; [lia|]. intros i c' pls' E1 E2. apply (At (Datatypes.S i) c' pls'); assumption.
Qed.

End Coordinates.
