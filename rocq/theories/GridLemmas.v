(** Proofs about the grid numbering. *)
From Coq Require Import NArith ZArith List Bool Lia.
From Verif Require Import Float GridModel MeshModel GridSpec.
Import ListNotations.
Local Open Scope N_scope.

Lemma divmod_unique a b q r : r < b -> a = r + b * q -> a / b = q /\ a mod b = r.
Proof.
  intros Hr ->. split.
  - symmetry. apply N.div_unique with r; auto. lia.
  - symmetry. apply N.mod_unique with q; auto. lia.
Qed.

Lemma divmod_eq a b : b <> 0 -> a = a mod b + b * (a / b).
Proof. intros H. rewrite N.add_comm. apply N.div_mod. exact H. Qed.

Lemma cell_tuple_idx d idx : positive d -> cell_tuple_to_idx d (cell_idx_to_tuple d idx) = idx.
Proof.
  intros (Hx & Hy & Hz). unfold cell_tuple_to_idx, cell_idx_to_tuple.
  rewrite <- (divmod_eq (idx / nx d) (ny d)) by lia. symmetry. apply divmod_eq. lia.
Qed.

Lemma cell_idx_tuple d t : cell_in d t -> cell_idx_to_tuple d (cell_tuple_to_idx d t) = t.
Proof.
  destruct t as [[x y] z]. intros (Hx & Hy & Hz). unfold cell_tuple_to_idx, cell_idx_to_tuple.
  destruct (divmod_unique (x + nx d * (y + ny d * z)) (nx d) (y + ny d * z) x Hx eq_refl) as [-> ->].
  destruct (divmod_unique (y + ny d * z) (ny d) z y Hy eq_refl) as [-> ->]. reflexivity.
Qed.

Lemma cell_idx_in d idx : positive d -> idx < total_cells d -> cell_in d (cell_idx_to_tuple d idx).
Proof.
  intros (Hx & Hy & Hz) H. unfold cell_in, cell_idx_to_tuple, total_cells in * .
  split; [apply N.mod_lt; lia|]. split; [apply N.mod_lt; lia|].
  rewrite N.div_div by lia. apply N.div_lt_upper_bound; nia.
Qed.

Lemma cell_tuple_in d t : cell_in d t -> cell_tuple_to_idx d t < total_cells d.
Proof.
  destruct t as [[x y] z]. intros (Hx & Hy & Hz). unfold cell_tuple_to_idx, total_cells.
  assert (y + ny d * z + 1 <= ny d * nz d) by nia. nia.
Qed.

Lemma node_tuple_idx d idx : node_tuple_to_idx d (node_idx_to_tuple d idx) = idx.
Proof.
  unfold node_tuple_to_idx, node_idx_to_tuple.
  rewrite <- (divmod_eq (idx / (nx d + 1) / (ny d + 1)) (nz d + 1)) by lia.
  rewrite <- (divmod_eq (idx / (nx d + 1)) (ny d + 1)) by lia. symmetry. apply divmod_eq. lia.
Qed.

Lemma node_idx_tuple d t : (let '(x, y, z, b) := t in x < nx d + 1 /\ y < ny d + 1 /\ z < nz d + 1) ->
  node_idx_to_tuple d (node_tuple_to_idx d t) = t.
Proof.
  destruct t as [[[x y] z] b]. intros (Hx & Hy & Hz). unfold node_tuple_to_idx, node_idx_to_tuple.
  destruct (divmod_unique (x + (nx d + 1) * (y + (ny d + 1) * (z + (nz d + 1) * b))) (nx d + 1) _ x Hx eq_refl) as [-> ->].
  destruct (divmod_unique (y + (ny d + 1) * (z + (nz d + 1) * b)) (ny d + 1) _ y Hy eq_refl) as [-> ->].
  destruct (divmod_unique (z + (nz d + 1) * b) (nz d + 1) _ z Hz eq_refl) as [-> ->]. reflexivity.
Qed.

Lemma node_idx_in d idx : idx < total_nodes d -> node_in d (node_idx_to_tuple d idx).
Proof.
  intros H. unfold node_in, node_idx_to_tuple, total_nodes in * .
  split; [apply N.mod_lt; lia|]. split; [apply N.mod_lt; lia|]. split; [apply N.mod_lt; lia|].
  rewrite !N.div_div by lia. apply N.div_lt_upper_bound; nia.
Qed.

Lemma node_tuple_in d t : node_in d t -> node_tuple_to_idx d t < total_nodes d.
Proof.
  destruct t as [[[x y] z] b]. intros (Hx & Hy & Hz & Hb). unfold node_tuple_to_idx, total_nodes.
  set (X := nx d + 1) in * . set (Y := ny d + 1) in * . set (Z := nz d + 1) in * .
  assert (z + Z * b + 1 <= Z * 4) by nia. assert (y + Y * (z + Z * b) + 1 <= Y * (Z * 4)) by nia. nia.
Qed.

(** C29 *)
Lemma grid_numbering d : positive d ->
  (forall idx, idx < total_cells d ->
     cell_in d (cell_idx_to_tuple d idx) /\ cell_tuple_to_idx d (cell_idx_to_tuple d idx) = idx) /\
  (forall t, cell_in d t -> cell_tuple_to_idx d t < total_cells d /\ cell_idx_to_tuple d (cell_tuple_to_idx d t) = t) /\
  (forall idx, idx < total_nodes d ->
     node_in d (node_idx_to_tuple d idx) /\ node_tuple_to_idx d (node_idx_to_tuple d idx) = idx) /\
  (forall t, node_in d t -> node_tuple_to_idx d t < total_nodes d /\ node_idx_to_tuple d (node_tuple_to_idx d t) = t).
Proof.
  intros P. split; [|split; [|split]].
  - split; [apply cell_idx_in|apply cell_tuple_idx]; auto.
  - split; [apply cell_tuple_in|apply cell_idx_tuple]; auto.
  - split; [apply node_idx_in|apply node_tuple_idx]; auto.
  - split; [apply node_tuple_in; auto|]. apply node_idx_tuple. destruct t as [[[x y] z] b].
    destruct H as (? & ? & ? & ?). auto.
Qed.

(** ** Neighbours *)

Lemma as_i32_small n : n < 2 ^ 31 -> as_i32 n = Z.of_N n.
Proof.
  intros H. unfold as_i32. rewrite Z.mod_small by lia.
  destruct (Z.ltb_spec (Z.of_N n) (2 ^ 31)); lia.
Qed.

(** One coordinate of a neighbour: the step, clamped to the grid. *)
Definition clamp_step (n x : N) (o : Z) : N := Z.to_N (Z.max 0 (Z.min (Z.of_N x + o) (Z.of_N n - 1))).

Lemma axis_step n x o : 0 < n -> n < 2 ^ 31 -> x < n -> (-1 <= o <= 1)%Z ->
  exists s, add_i32 (as_i32 x) o = Ok s /\
    (do m <- usub n 1 ; clamp_i32 s 0 (as_i32 m)) = Ok (clamp_step n x o).
Proof.
  intros Hn Hb Hx Ho. rewrite (as_i32_small x) by lia. unfold add_i32.
  destruct (Z.leb_spec (- 2 ^ 31) (Z.of_N x + o)); [|lia].
  destruct (Z.ltb_spec (Z.of_N x + o) (2 ^ 31)); [|lia]. cbn [andb].
  eexists. split; [reflexivity|]. unfold usub. destruct (N.leb_spec 1 n); [|lia]. cbn [rbind].
  rewrite as_i32_small by lia. unfold clamp_i32. destruct (Z.leb_spec 0 (Z.of_N (n - 1))); [|lia].
  unfold clamp_step. do 4 f_equal. lia.
Qed.

Definition clamp_tuple (d : dims) (t : N * N * N) (o : Z * Z * Z) : N * N * N :=
  let '(x, y, z) := t in let '(ox, oy, oz) := o in
  (clamp_step (nx d) x ox, clamp_step (ny d) y oy, clamp_step (nz d) z oz).
Definition unit_offset (o : Z * Z * Z) : Prop :=
  let '(ox, oy, oz) := o in (-1 <= ox <= 1 /\ -1 <= oy <= 1 /\ -1 <= oz <= 1)%Z.

Lemma offset_cell_ok d t o : positive d -> small d -> cell_in d t -> unit_offset o ->
  offset_cell d t o = Ok (cell_tuple_to_idx d (clamp_tuple d t o)).
Proof.
  destruct t as [[x y] z], o as [[ox oy] oz]. intros (Px & Py & Pz) (Sx & Sy & Sz) (Ix & Iy & Iz) (Ox & Oy & Oz).
  unfold offset_cell.
  destruct (axis_step (nx d) x ox Px Sx Ix Ox) as (sx & -> & Ex).
  destruct (axis_step (ny d) y oy Py Sy Iy Oy) as (sy & -> & Ey).
  destruct (axis_step (nz d) z oz Pz Sz Iz Oz) as (sz & -> & Ez).
  cbn [rbind]. unfold snap_turtle.
  destruct (usub (nx d) 1) as [mx| |]; try discriminate. cbn [rbind] in Ex |- * . rewrite Ex. cbn [rbind].
  destruct (usub (ny d) 1) as [my| |]; try discriminate. cbn [rbind] in Ey |- * . rewrite Ey. cbn [rbind].
  destruct (usub (nz d) 1) as [mz| |]; try discriminate. cbn [rbind] in Ez |- * . rewrite Ez. cbn [rbind].
  reflexivity.
Qed.

Lemma clamp_step_in n x o : 0 < n -> clamp_step n x o < n.
Proof. intros H. unfold clamp_step. lia. Qed.
Lemma clamp_tuple_in d t o : positive d -> cell_in d (clamp_tuple d t o).
Proof.
  destruct t as [[x y] z], o as [[ox oy] oz]. intros (Px & Py & Pz).
  repeat split; apply clamp_step_in; auto.
Qed.

Lemma rmap_ok_map {A B} (f : A -> result B) (g : A -> B) l :
  (forall x, In x l -> f x = Ok (g x)) -> rmap f l = Ok (map g l).
Proof.
  induction l as [|x l IH]; intros H; [reflexivity|]. cbn [rmap map].
  rewrite H by (left; reflexivity). cbn [rbind]. rewrite IH; [reflexivity|]. intros y Hy. apply H. right. exact Hy.
Qed.

(** The neighbour across a face, by coordinates. *)
Definition face_cell (d : dims) (t : N * N * N) (f : nat) : N * N * N :=
  if on_boundary d t f then t else one_step t f.

Lemma face_cell_in d t f : cell_in d t -> (f < 6)%nat -> cell_in d (face_cell d t f).
Proof.
  intros I Hf. unfold face_cell. destruct (on_boundary d t f) eqn:E; [exact I|].
  destruct t as [[x y] z]. destruct I as (Ix & Iy & Iz).
  do 6 (destruct f as [|f]; [unfold on_boundary in E; cbn in E |- * ; apply N.eqb_neq in E; repeat split; cbn; lia|]). lia.
Qed.

Lemma clamp_face d t f : cell_in d t -> (f < 6)%nat ->
  clamp_tuple d t (nth f FACE_OFFSET (0, 0, 0)%Z) = face_cell d t f.
Proof.
  destruct t as [[x y] z]. intros (Ix & Iy & Iz) Hf. unfold face_cell, on_boundary.
  do 6 (destruct f as [|f]; [cbn [nth FACE_OFFSET clamp_tuple face_axis face_up coord size one_step set_coord];
    unfold clamp_step;
    match goal with |- context [?a =? ?b] => destruct (N.eqb_spec a b) end; repeat f_equal; lia|]). lia.
Qed.

(** C30 *)
Lemma face_nbrs_ok d idx : positive d -> small d -> idx < total_cells d ->
  get_face_nbr_gids d idx = Ok (map (fun f => cell_tuple_to_idx d (face_cell d (cell_idx_to_tuple d idx) f)) (seq 0 6)).
Proof.
  intros P S H. pose proof (cell_idx_in _ _ P H) as I. unfold get_face_nbr_gids.
  rewrite (rmap_ok_map _ (fun o => cell_tuple_to_idx d (clamp_tuple d (cell_idx_to_tuple d idx) o))).
  - f_equal. rewrite <- (map_map (clamp_tuple d (cell_idx_to_tuple d idx)) (cell_tuple_to_idx d)).
    rewrite <- (map_map (face_cell d (cell_idx_to_tuple d idx)) (cell_tuple_to_idx d)). f_equal.
    cbn [seq map]. unfold FACE_OFFSET. cbn [map].
    rewrite <- !clamp_face by (auto; lia). reflexivity.
  - intros o Ho. apply offset_cell_ok; auto.
    cbn in Ho. repeat (destruct Ho as [<-|Ho]; [cbn; lia|]). contradiction.
Qed.

Lemma one_step_back t f : (f < 6)%nat -> forall d, cell_in d t -> on_boundary d t f = false ->
  on_boundary d (one_step t f) (opposite_face f) = false /\ one_step (one_step t f) (opposite_face f) = t /\
  one_step t f <> t.
Proof.
  destruct t as [[x y] z]. intros Hf d (Ix & Iy & Iz).
  do 6 (destruct f as [|f]; [unfold on_boundary; cbn; intros E; apply N.eqb_neq in E;
    (split; [apply N.eqb_neq; lia|]); (split; [repeat f_equal; lia|]); injection; lia|]). lia.
Qed.

(** What C30 says of one cell and one face. *)
Lemma face_neighbours d idx f : positive d -> small d -> idx < total_cells d -> (f < 6)%nat ->
  exists nbrs, get_face_nbr_gids d idx = Ok nbrs /\ length nbrs = 6%nat /\
    let n := nth f nbrs 0 in
    let t := cell_idx_to_tuple d idx in
    n < total_cells d /\
    (n = idx <-> on_boundary d t f = true) /\
    (on_boundary d t f = false ->
       cell_idx_to_tuple d n = one_step t f /\
       exists back, get_face_nbr_gids d n = Ok back /\ nth (opposite_face f) back 0 = idx).
Proof.
  intros P S H Hf. eexists. split; [apply face_nbrs_ok; auto|]. split; [reflexivity|].
  pose proof (cell_idx_in _ _ P H) as I.
  set (t := cell_idx_to_tuple d idx) in * .
  assert (En : forall u g, (g < 6)%nat ->
     nth g (map (fun f => cell_tuple_to_idx d (face_cell d u f)) (seq 0 6)) 0 = cell_tuple_to_idx d (face_cell d u g)).
  { clear. intros u g Hg. do 6 (destruct g as [|g]; [reflexivity|]). lia. }
  cbn zeta. rewrite En by auto.
  pose proof (face_cell_in d t f I Hf) as I'.
  split; [apply cell_tuple_in; exact I'|].
  assert (Et : cell_tuple_to_idx d t = idx) by (apply cell_tuple_idx; auto).
  split.
  - unfold face_cell. destruct (on_boundary d t f) eqn:E; split; auto; try discriminate; try congruence.
    intros En'. exfalso. destruct (one_step_back t f Hf d I E) as (_ & _ & Hne). apply Hne.
    rewrite <- (cell_idx_tuple d (one_step t f)).
    + rewrite En'. reflexivity.
    + unfold face_cell in I'. rewrite E in I'. exact I'.
  - intros E. destruct (one_step_back t f Hf d I E) as (E' & Eb & _).
    unfold face_cell in I' |- * . rewrite E in * . split; [apply cell_idx_tuple; auto|].
    eexists. split; [apply face_nbrs_ok; auto; apply cell_tuple_in; auto|].
    rewrite En by (clear - Hf; do 6 (destruct f as [|f]; [cbn; lia|]); lia).
    rewrite cell_idx_tuple by auto. unfold face_cell. rewrite E', Eb. exact Et.
Qed.

(** ** Facets: C31 *)

(** Global numbers of the three corners of facet [k] of a cell. *)
Definition facet_nodes (d : dims) (cell : N) (k : nat) : N * N * N :=
  let '(a, b, c) := nth k NODE_INDIRECT (0, 0, 0) in
  let g i := nth (N.to_nat i) (get_node_gids d cell) 0 in (g a, g b, g c).

Lemma node_gids_length d idx : length (get_node_gids d idx) = 14%nat.
Proof. unfold get_node_gids. destruct (cell_idx_to_tuple d idx) as [[x y] z]. reflexivity. Qed.

Definition node_at (t : N * N * N) (i : nat) : N * N * N * N :=
  let '(x, y, z) := t in
  let '(ox, oy, oz, b) := nth i CORNER_OFFSET (0, 0, 0, 0) in (x + ox, y + oy, z + oz, b).

Lemma node_gids_nth d idx i : (i < 14)%nat ->
  nth i (get_node_gids d idx) 0 = node_tuple_to_idx d (node_at (cell_idx_to_tuple d idx) i).
Proof.
  intros H. unfold get_node_gids, node_at. destruct (cell_idx_to_tuple d idx) as [[x y] z].
  do 14 (destruct i as [|i]; [reflexivity|]). lia.
Qed.

Lemma node_at_in d t i : cell_in d t -> (i < 14)%nat -> node_in d (node_at t i).
Proof.
  destruct t as [[x y] z]. intros (Ix & Iy & Iz) Hi. unfold node_at.
  do 14 (destruct i as [|i]; [cbn; lia|]). lia.
Qed.

Definition indirect (k : nat) : N * N * N := nth k NODE_INDIRECT (0, 0, 0).
Definition opposing (k : nat) : nat := N.to_nat (nth k OPPOSING_FACET 0).

Lemma indirect_lt k : (k < 24)%nat -> let '(a, b, c) := indirect k in a < 14 /\ b < 14 /\ c < 14.
Proof. intros H. do 24 (destruct k as [|k]; [cbn; lia|]). lia. Qed.

Lemma opposing_facts k : (k < 24)%nat ->
  (opposing k < 24)%nat /\ opposing (opposing k) = k /\ (opposing k / 4)%nat = opposite_face (k / 4).
Proof. intros H. do 24 (destruct k as [|k]; [vm_compute; repeat split; lia|]). lia. Qed.

Lemma facet_nodes_at d idx k : (k < 24)%nat ->
  facet_nodes d idx k =
    (let '(a, b, c) := indirect k in
     let g i := node_tuple_to_idx d (node_at (cell_idx_to_tuple d idx) (N.to_nat i)) in (g a, g b, g c)).
Proof.
  intros H. unfold facet_nodes. fold (indirect k). pose proof (indirect_lt k H) as L.
  destruct (indirect k) as [[a b] c]. destruct L as (La & Lb & Lc).
  rewrite !node_gids_nth by lia. reflexivity.
Qed.

Definition node_triple (t : N * N * N) (k : nat) : (N * N * N * N) * (N * N * N * N) * (N * N * N * N) :=
  let '(a, b, c) := indirect k in (node_at t (N.to_nat a), node_at t (N.to_nat b), node_at t (N.to_nat c)).
Definition reverse3 {A} (t : A * A * A) : A * A * A := let '(a, b, c) := t in (b, a, c).

Lemma pair_eq {A B} (a c : A) (b d : B) : a = c -> b = d -> (a, b) = (c, d).
Proof. intros -> ->. reflexivity. Qed.

(** The facet of the other side of a face that has the corners of facet [k]: the facets of opposite
    faces go round in opposite directions. *)
Definition matching (k : nat) : nat :=
  nth k [7; 6; 5; 4; 3; 2; 1; 0; 12; 15; 14; 13; 8; 11; 10; 9; 23; 22; 21; 20; 19; 18; 17; 16]%nat 0%nat.

Lemma matching_facts k : (k < 24)%nat ->
  (matching k < 24)%nat /\ matching (matching k) = k /\ (matching k / 4)%nat = opposite_face (k / 4).
Proof. intros H. do 24 (destruct k as [|k]; [vm_compute; repeat split; lia|]). lia. Qed.

Lemma matching_opposing k : (k < 24)%nat -> (matching k = opposing k <-> (k < 16)%nat).
Proof. intros H. do 24 (destruct k as [|k]; [cbv; split; intros; try reflexivity; try discriminate; lia|]). lia. Qed.

Lemma facet_match d t k : (k < 24)%nat -> cell_in d t -> on_boundary d t (k / 4)%nat = false ->
  node_triple (one_step t (k / 4)%nat) (matching k) = reverse3 (node_triple t k).
Proof.
  destruct t as [[x y] z]. intros Hk (Ix & Iy & Iz) E. unfold on_boundary in E.
  do 24 (destruct k as [|k]; [lazy - [N.add N.sub N.eqb] in E; lazy - [N.add N.sub]; apply N.eqb_neq in E;
    repeat apply pair_eq; lia|]). lia.
Qed.

(** One facet of the opposite face of the neighbour has the same corners, in reversed orientation. *)
Lemma facets_match d idx k nbr : positive d -> idx < total_cells d -> (k < 24)%nat ->
  on_boundary d (cell_idx_to_tuple d idx) (k / 4) = false ->
  cell_idx_to_tuple d nbr = one_step (cell_idx_to_tuple d idx) (k / 4) ->
  facet_nodes d nbr (matching k) = reverse3 (facet_nodes d idx k).
Proof.
  intros P H Hk E En. pose proof (cell_idx_in _ _ P H) as I.
  destruct (matching_facts k Hk) as (Ho & _ & _).
  rewrite !facet_nodes_at by auto. rewrite En.
  pose proof (facet_match d _ k Hk I E) as M. unfold node_triple in M.
  revert M. generalize (one_step (cell_idx_to_tuple d idx) (k / 4)) as u. generalize (cell_idx_to_tuple d idx) as t.
  intros t u M. destruct (indirect k) as [[a b] c], (indirect (matching k)) as [[a' b'] c'].
  cbn [reverse3] in M |- * . apply (f_equal (fun '(p, q, r) => (node_tuple_to_idx d p, node_tuple_to_idx d q, node_tuple_to_idx d r))) in M.
  exact M.
Qed.

Lemma facet_nodes_inj d idx k k' : positive d -> idx < total_cells d -> (k < 24)%nat -> (k' < 24)%nat ->
  facet_nodes d idx k = facet_nodes d idx k' -> k = k'.
Proof.
  intros P H Hk Hk' E. pose proof (cell_idx_in _ _ P H) as I. rewrite !facet_nodes_at in E by auto.
  pose proof (indirect_lt k Hk) as L. pose proof (indirect_lt k' Hk') as L'.
  assert (J : forall i j, i < 14 -> j < 14 ->
    node_tuple_to_idx d (node_at (cell_idx_to_tuple d idx) (N.to_nat i)) =
    node_tuple_to_idx d (node_at (cell_idx_to_tuple d idx) (N.to_nat j)) -> i = j).
  { intros i j Hi Hj Eij. set (t := cell_idx_to_tuple d idx) in * .
    assert (Et : node_at t (N.to_nat i) = node_at t (N.to_nat j)).
    { rewrite <- (node_idx_tuple d (node_at t (N.to_nat i))), Eij.
      - apply node_idx_tuple. pose proof (node_at_in d t (N.to_nat j) I ltac:(lia)) as Q.
        destruct (node_at t (N.to_nat j)) as [[[? ?] ?] ?]. destruct Q as (? & ? & ? & ?). auto.
      - pose proof (node_at_in d t (N.to_nat i) I ltac:(lia)) as Q.
        destruct (node_at t (N.to_nat i)) as [[[? ?] ?] ?]. destruct Q as (? & ? & ? & ?). auto. }
    assert (Go : forall a b, (a < 14)%nat -> (b < 14)%nat -> node_at t a = node_at t b -> a = b).
    { clear. destruct t as [[x y] z]. intros a b Ha Hb. unfold node_at.
      assert (Inj : forall a b : nat, (a < 14)%nat -> (b < 14)%nat -> nth a CORNER_OFFSET (0,0,0,0) = nth b CORNER_OFFSET (0,0,0,0) -> a = b).
      { clear. intros a b Ha Hb. do 14 (destruct a as [|a]; [do 14 (destruct b as [|b]; [cbn; congruence|]); lia|]). lia. }
      intros E. apply Inj; auto.
      destruct (nth a CORNER_OFFSET (0,0,0,0)) as [[[? ?] ?] ?], (nth b CORNER_OFFSET (0,0,0,0)) as [[[? ?] ?] ?].
      injection E. intros. repeat apply pair_eq; lia. }
    apply Go in Et; lia. }
  assert (Inj : forall a b : nat, (a < 24)%nat -> (b < 24)%nat -> indirect a = indirect b -> a = b).
  { clear. intros a b Ha Hb. do 24 (destruct a as [|a]; [do 24 (destruct b as [|b]; [cbv; congruence|]); lia|]). lia. }
  apply Inj; auto. destruct (indirect k) as [[a b] c], (indirect k') as [[a' b'] c'].
  destruct L as (? & ? & ?), L' as (? & ? & ?). injection E. intros. repeat apply pair_eq; apply J; auto.
Qed.

Lemma get_face_nth d idx nbrs f : positive d -> small d -> idx < total_cells d -> (f < 6)%nat ->
  get_face_nbr_gids d idx = Ok nbrs -> nth f nbrs 0 = cell_tuple_to_idx d (face_cell d (cell_idx_to_tuple d idx) f).
Proof.
  intros P S H Hf E. rewrite face_nbrs_ok in E by auto. injection E as <-.
  do 6 (destruct f as [|f]; [reflexivity|]). lia.
Qed.

(** C31.  Across an interior face exactly one facet of the neighbour has the corners of facet [k], with the
    orientation reversed; it lies on the opposite face.  [OPPOSING_FACET] names it for the faces orthogonal to
    x and y, and never does for those orthogonal to z. *)
Lemma watertight d idx k : positive d -> small d -> idx < total_cells d -> (k < 24)%nat ->
  on_boundary d (cell_idx_to_tuple d idx) (k / 4) = false ->
  exists nbrs, get_face_nbr_gids d idx = Ok nbrs /\
    let n := nth (k / 4) nbrs 0 in
    exists k', (k' < 24)%nat /\ (k' / 4)%nat = opposite_face (k / 4) /\
      facet_nodes d n k' = reverse3 (facet_nodes d idx k) /\
      (forall k'', (k'' < 24)%nat -> facet_nodes d n k'' = reverse3 (facet_nodes d idx k) -> k'' = k') /\
      (k' = opposing k <-> face_axis (k / 4) <> AZ).
Proof.
  intros P S H Hk E.
  assert (Hf : (k / 4 < 6)%nat) by (apply Nat.div_lt_upper_bound; lia).
  destruct (face_neighbours d idx (k / 4) P S H Hf) as (nbrs & En & _ & Hn & _ & Hs).
  exists nbrs. split; [exact En|]. cbn zeta. specialize (Hs E). destruct Hs as (Et & _).
  destruct (matching_facts k Hk) as (Hm & _ & Hmf).
  exists (matching k). split; [exact Hm|]. split; [exact Hmf|].
  pose proof (facets_match d idx k _ P H Hk E Et) as M. split; [exact M|]. split.
  - intros k'' Hk'' E''. rewrite <- M in E''. eapply facet_nodes_inj in E''; eauto.
  - rewrite matching_opposing by auto.
    clear - Hk. do 24 (destruct k as [|k]; [cbv; split; intros; try discriminate; try lia; congruence|]). lia.
Qed.
