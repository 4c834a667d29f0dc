(** The search of the nearest center is exact, in exact arithmetic (C40). *)
From Coq Require Import NArith ZArith QArith Qreals List Bool Reals Lra Lia Psatz.
From Flocq Require Import Core.
From Verif Require Import Float RealOps RngModel ParticleModel NuclearModel CycleModel GridModel AssignModel GridSpec GridLemmas
  SegmentFacts TrackAccount CycleFacts AssignLemmas CrossingLemmas PopLemmas SourceCount GeomSpec GeomLemmas PlaneLemmas.
Import ListNotations.
Local Open Scope R_scope.

(** ** Indices along an axis *)

(** [floor] of the position of [x], clamped to the cells. *)
Definition clamped (u : R) (n : N) : Z := Z.min (Z.max (Zfloor u) 0) (Z.of_N n - 1).

Lemma axis_index_is (x corner d : R) (n i : N) : axis_index (K := Rops) x corner d n = Ok i ->
  (0 < n)%N /\ Z.of_N i = clamped ((x - corner) / d) n.
Proof.
  unfold axis_index. cbn [fmax ffloor fsub fdiv f0 fto_usize Rops]. intros H. rb H as j Ej. rb H as k Ek. apply Ok_inj in H.
  unfold usub in Ek. destruct (1 <=? n)%N eqn:En; [|discriminate]. apply N.leb_le in En. injection Ek as <-.
  set (u := (x - corner) / d) in * . replace (Rmax (IZR (Zfloor u)) 0) with (IZR (Z.max (Zfloor u) 0)) in Ej.
  2:{ unfold Rmax. destruct (Rle_dec (IZR (Zfloor u)) 0) as [L|L].
      - apply (le_IZR _ 0) in L. rewrite Z.max_r by lia. reflexivity.
      - apply Rnot_le_lt in L. apply (lt_IZR 0) in L. rewrite Z.max_l by lia. reflexivity. }
  unfold Rto_usize in Ej. destruct (_ && _); [|discriminate]. cbn [unwrap] in Ej. injection Ej as <-. rewrite Ztrunc_IZR in H.
  split; [lia|]. subst i. unfold clamped. lia.
Qed.

Lemma axis_gap_le (x x' corner d : R) (n i j : N) : 0 < d ->
  axis_index (K := Rops) x corner d n = Ok i -> axis_index (K := Rops) x' corner d n = Ok j ->
  0 <= axis_gap (K := Rops) j i d /\ axis_gap (K := Rops) j i d * axis_gap (K := Rops) j i d <= (x - x') * (x - x').
Proof.
  intros Hd Hi Hj. apply axis_index_is in Hi, Hj. destruct Hi as (Hn & Hi), Hj as (_ & Hj).
  set (u := (x - corner) / d) in * . set (w := (x' - corner) / d) in * .
  assert (Ex : x - x' = (u - w) * d) by (unfold u, w; field; lra).
  unfold axis_gap. cbn [fmul fof_N Rops]. set (k := if (j <? i)%N then (i - j - 1)%N else (j - i - 1)%N).
  pose proof (real_nonneg k) as Hk. fold (real_of k). split; [nra|].
  assert (G : real_of k <= Rabs (u - w)).
  { pose proof (Zfloor_lb u) as U0. pose proof (Zfloor_ub u) as U1. pose proof (Zfloor_lb w) as W0. pose proof (Zfloor_ub w) as W1.
    assert (Kz : (Z.of_N k <= Z.abs (Zfloor u - Zfloor w) - 1)%Z \/ k = 0%N).
    { unfold k, clamped in * . destruct (N.ltb_spec j i); lia. }
    destruct Kz as [Kz|Kz]; [|rewrite Kz; apply Rabs_pos].
    apply IZR_le in Kz. fold (real_of k) in Kz. rewrite minus_IZR, abs_IZR, minus_IZR in Kz.
    unfold Rabs in * . destruct (Rcase_abs _), (Rcase_abs _); lra. }
  rewrite Ex. set (q := u - w) in * . assert (Q : Rabs q * Rabs q = q * q) by (unfold Rabs; destruct (Rcase_abs q); ring).
  assert (real_of k * real_of k <= q * q) by (rewrite <- Q; apply Rmult_le_compat; lra). nra.
Qed.

(** ** The grid of the centers *)
Section Search.
Variable g : gao Rops.
Definition gdims : dims := mkDims (ga_nx g) (ga_ny g) (ga_nz g).
Definition gao_cells : N := total_cells gdims.

Record well_recorded : Prop := {
  wr_pos : positive gdims;
  wr_dx : 0 < ga_dx g; wr_dy : 0 < ga_dy g; wr_dz : 0 < ga_dz g;
  wr_len : length (ga_my_centers g) = N.to_nat gao_cells;
  wr_flags : ga_burned g = repeat false (N.to_nat gao_cells);
  wr_ids : forall idx l i, nth_error (ga_my_centers g) idx = Some l -> In i l -> (N.to_nat i < length (ga_centers g))%nat;
  wr_all : forall i c, nth_error (ga_centers g) i = Some c -> exists t l,
    which_cell_tuple g c = Ok t /\ nth_error (ga_my_centers g) (N.to_nat (tuple_to_index g t)) = Some l /\ In (N.of_nat i) l
}.

Lemma tuple_idx t : tuple_to_index g t = cell_tuple_to_idx gdims t.
Proof. destruct t as [[x y] z]. reflexivity. Qed.
Lemma idx_tuple i : index_to_tuple g i = cell_idx_to_tuple gdims i.
Proof. reflexivity. Qed.

Hypothesis W : well_recorded.
Variables (rr : vec Rops) (s0 : N * N * N).
Hypothesis E0 : which_cell_tuple g rr = Ok s0.

Lemma which_in r t : which_cell_tuple g r = Ok t -> cell_in gdims t.
Proof.
  unfold which_cell_tuple. intros H. rb H as x Ex. rb H as y Ey. rb H as z Ez. apply Ok_inj in H. subst t.
  apply axis_index_is in Ex, Ey, Ez. unfold clamped in * . unfold cell_in, gdims. cbn. lia.
Qed.

(** Lower bound of the distance of [rr] to the centers of cell [t]. *)
Definition bound (t : N * N * N) : R :=
  let '(x, y, z) := t in let '(rx, ry, rz) := s0 in
  let a := axis_gap (K := Rops) x rx (ga_dx g) in let b := axis_gap (K := Rops) y ry (ga_dy g) in
  let c := axis_gap (K := Rops) z rz (ga_dz g) in a * a + b * b + c * c.

Lemma gap_nonneg a b d : 0 < d -> 0 <= axis_gap (K := Rops) a b d.
Proof. intros Hd. unfold axis_gap. cbn [fmul fof_N Rops]. apply Rmult_le_pos; [lra|apply IZR_le; lia]. Qed.

Lemma min_dist2_is idx : min_dist2 g rr idx = Ok (bound (index_to_tuple g idx)).
Proof.
  unfold min_dist2. rewrite E0. cbn [rbind]. unfold bound. destruct s0 as [[rx ry] rz]. destruct (index_to_tuple g idx) as [[x y] z].
  pose proof (gap_nonneg x rx _ (wr_dx W)) as G1. pose proof (gap_nonneg y ry _ (wr_dy W)) as G2. pose proof (gap_nonneg z rz _ (wr_dz W)) as G3.
  cbn [fle f0 Rops]. rewrite !(proj2 (Rleb_iff _ _)) by assumption. reflexivity.
Qed.

Lemma bound_le t c : which_cell_tuple g c = Ok t -> bound t <= dist2 rr c.
Proof.
  pose proof E0 as E. unfold which_cell_tuple in E. rb E as x Ex. rb E as y Ey. rb E as z Ez. apply Ok_inj in E.
  unfold which_cell_tuple. intros H. rb H as x' Ex'. rb H as y' Ey'. rb H as z' Ez'. apply Ok_inj in H. subst t. unfold bound. rewrite <- E.
  destruct (axis_gap_le _ _ _ _ _ _ _ (wr_dx W) Ex Ex') as (_ & A). destruct (axis_gap_le _ _ _ _ _ _ _ (wr_dy W) Ey Ey') as (_ & B).
  destruct (axis_gap_le _ _ _ _ _ _ _ (wr_dz W) Ez Ez') as (_ & C). unfold dist2. lra.
Qed.

Definition lit300 : R := flit (f := Rops) (inject_Z (10 ^ 300)).

(** Flags and best of a state of the search. *)
Definition flag (s : search) (t : N * N * N) : Prop := nth_error (se_burned s) (N.to_nat (tuple_to_index g t)) = Some true.
Definition dist_of (i : N) (d : R) : Prop := exists c, nth_error (ga_centers g) (N.to_nat i) = Some c /\ d = dist2 rr c.
Definition best_is (best : R * option N) : Prop :=
  match snd best with None => fst best = lit300 | Some i => dist_of i (fst best) end.
Definition done (s : search) (best : R * option N) (t : N * N * N) : Prop :=
  (forall t', In t' (axis_nbrs g t) -> flag s t') /\
  (forall l i d, nth_error (ga_my_centers g) (N.to_nat (tuple_to_index g t)) = Some l -> In i l -> dist_of i d -> fst best <= d).

Record inv (s : search) (best : R * option N) : Prop := {
  iv_len : length (se_burned s) = N.to_nat gao_cells;
  iv_queue : Forall (fun i => (i < gao_cells)%N) (se_queue s);
  iv_start : flag s s0;
  iv_best : best_is best;
  iv_flag : forall t, cell_in gdims t -> flag s t -> In (tuple_to_index g t) (se_queue s) \/ fst best < bound t \/ done s best t
}.

(** ** One step *)
Lemma scanned l : forall best : R * option N, (forall i, In i l -> (N.to_nat i < length (ga_centers g))%nat) -> best_is best ->
  exists best' : R * option N, scan_centers g rr l best = Ok best' /\ best_is best' /\ fst best' <= fst best /\
    forall i d, In i l -> dist_of i d -> fst best' <= d.
Proof.
  induction l as [|i l IH]; intros best Hl Hb; cbn [scan_centers].
  - exists best. split; [reflexivity|]. split; [exact Hb|]. split; [lra|]. intros i d [].
  - destruct (nth_error (ga_centers g) (N.to_nat i)) as [c|] eqn:Ec.
    2:{ exfalso. apply nth_error_None in Ec. specialize (Hl i (or_introl eq_refl)). lia. }
    rewrite (proj2 (vec_get_nth _ _ _) Ec). cbn [rbind].
    assert (Ed : vdot (vsub rr c) (vsub rr c) = dist2 rr c) by reflexivity. rewrite Ed. cbn [flt Rops].
    set (best1 := if Rltb (dist2 rr c) (fst best) then (dist2 rr c, Some i) else best).
    assert (B1 : best_is best1 /\ fst best1 <= fst best /\ fst best1 <= dist2 rr c).
    { unfold best1. destruct (Rltb (dist2 rr c) (fst best)) eqn:E; [apply Rltb_iff in E|apply Rltb_false in E]; cbn [fst snd].
      - split; [exists c; auto|]. lra.
      - split; [exact Hb|]. lra. }
    destruct B1 as (B1 & B2 & B3). destruct (IH best1 (fun j Hj => Hl j (or_intror Hj)) B1) as (best' & Es & H1 & H2 & H3).
    exists best'. split; [exact Es|]. split; [exact H1|]. split; [lra|].
    intros j d [<-|Hj] Hd; [|eauto]. destruct Hd as (c' & Ec' & ->). rewrite Ec in Ec'. injection Ec' as <-. lra.
Qed.

(** [s'] extends [s]: flags are kept and every new flag is in the queue. *)
Definition extends (s s' : search) : Prop :=
  length (se_burned s') = length (se_burned s) /\ incl (se_queue s) (se_queue s') /\
  (Forall (fun i => (i < gao_cells)%N) (se_queue s) -> Forall (fun i => (i < gao_cells)%N) (se_queue s')) /\
  (forall t, flag s t -> flag s' t) /\ (forall t, flag s' t -> flag s t \/ In (tuple_to_index g t) (se_queue s')).

Lemma extends_refl s : extends s s.
Proof. unfold extends. repeat split; auto using incl_refl. Qed.
Lemma extends_trans a b c : extends a b -> extends b c -> extends a c.
Proof.
  intros (A1 & A2 & A3 & A4 & A5) (B1 & B2 & B3 & B4 & B5). unfold extends.
  split; [congruence|]. split; [eapply incl_tran; eauto|]. split; [auto|]. split; [auto|].
  intros t H. destruct (B5 t H) as [H'|H']; [|auto]. destruct (A5 t H') as [H''|H'']; auto.
Qed.

Lemma idx_lt t : cell_in gdims t -> (tuple_to_index g t < gao_cells)%N.
Proof. intros H. rewrite tuple_idx. apply cell_tuple_in. exact H. Qed.

Lemma tuple_added s t : length (se_burned s) = N.to_nat gao_cells -> cell_in gdims t ->
  exists s', add_tuple_to_queue g s t = Ok s' /\ extends s s' /\ flag s' t.
Proof.
  intros Hl Ht. pose proof (idx_lt t Ht) as Hi. unfold add_tuple_to_queue.
  destruct (nth_error (se_burned s) (N.to_nat (tuple_to_index g t))) as [b|] eqn:Eb.
  2:{ exfalso. apply nth_error_None in Eb. lia. }
  rewrite (proj2 (vec_get_nth _ _ _) Eb). cbn [rbind]. destruct b.
  - exists s. split; [reflexivity|]. split; [apply extends_refl|exact Eb].
  - eexists. split; [reflexivity|]. unfold extends, flag. cbn [se_burned se_queue]. split.
    + split; [apply length_list_set|]. split; [apply incl_appl, incl_refl|]. split; [intros H; apply Forall_app; auto|].
      split.
      * intros t' H. destruct (Nat.eq_dec (N.to_nat (tuple_to_index g t)) (N.to_nat (tuple_to_index g t'))) as [E|E]; [congruence|].
        rewrite list_set_other by exact E. exact H.
      * intros t' H. destruct (Nat.eq_dec (N.to_nat (tuple_to_index g t)) (N.to_nat (tuple_to_index g t'))) as [E|E].
        -- right. apply in_or_app. right. left. lia.
        -- left. rewrite list_set_other in H by exact E. exact H.
    + apply list_set_same. lia.
Qed.

Lemma tuples_added l : forall s, length (se_burned s) = N.to_nat gao_cells -> Forall (cell_in gdims) l ->
  exists s', rfold (add_tuple_to_queue g) l s = Ok s' /\ extends s s' /\ Forall (flag s') l.
Proof.
  induction l as [|t l IH]; intros s Hl Hf; cbn [rfold].
  - exists s. split; [reflexivity|]. split; [apply extends_refl|constructor].
  - destruct (tuple_added s t Hl (Forall_inv Hf)) as (s1 & E1 & X1 & F1). rewrite E1. cbn [rbind].
    destruct (IH s1) as (s2 & E2 & X2 & F2); [rewrite (proj1 X1); exact Hl|exact (Forall_inv_tail Hf)|].
    exists s2. split; [exact E2|]. split; [eapply extends_trans; eauto|]. constructor; [|exact F2]. apply X2. exact F1.
Qed.

Lemma nbrs_in t : cell_in gdims t -> Forall (cell_in gdims) (axis_nbrs g t).
Proof.
  destruct t as [[x y] z]. unfold cell_in, gdims. cbn [nx ny nz]. intros (Hx & Hy & Hz). unfold axis_nbrs.
  repeat (apply Forall_app; split);
    match goal with |- Forall _ (if ?b then _ else _) => destruct b eqn:E; constructor; try constructor end;
    try apply N.ltb_lt in E; cbn [nx ny nz]; lia.
Qed.

(** ** The loop *)
Lemma loop_right fuel : forall s (best : R * option N), inv s best -> search_loop fuel g rr s best <> NoFuel ->
  exists s' (best' : R * option N), search_loop fuel g rr s best = Ok (s', best') /\ inv s' best' /\ se_queue s' = [].
Proof.
  induction fuel as [|fuel IH]; intros s best I Hnf; cbn [search_loop] in * ; destruct (se_queue s) as [|i q] eqn:Eq.
  - exists s, best. auto.
  - congruence.
  - exists s, best. auto.
  - pose proof (iv_queue _ _ I) as Hq. rewrite Eq in Hq. pose proof (Forall_inv Hq) as Hi. cbn beta in Hi. apply Forall_inv_tail in Hq.
    set (t := index_to_tuple g i). assert (Ht : cell_in gdims t) by (unfold t; rewrite idx_tuple; apply cell_idx_in; [apply (wr_pos W)|exact Hi]).
    assert (Ei : tuple_to_index g t = i) by (rewrite tuple_idx; unfold t; rewrite idx_tuple; apply cell_tuple_idx, (wr_pos W)).
    rewrite min_dist2_is in * . cbn [rbind] in * . fold t in Hnf |- * . cbn [flt Rops] in * . change (F Rops) with R in * .
    destruct (Rltb (fst best) (bound t)) eqn:E.
    + apply Rltb_iff in E. apply IH; [|exact Hnf]. constructor; cbn [se_burned se_queue].
      * apply (iv_len _ _ I).
      * exact Hq.
      * apply (iv_start _ _ I).
      * apply (iv_best _ _ I).
      * intros t' Ht' F'. destruct (iv_flag _ _ I t' Ht' F') as [A|A]; [|right; exact A].
        rewrite Eq in A. destruct A as [A|A]; [|left; exact A]. right. left. replace t' with t; [exact E|].
        unfold t. rewrite A, tuple_idx, idx_tuple. apply cell_idx_tuple. exact Ht'.
    + apply Rltb_false in E.
      destruct (nth_error (ga_my_centers g) (N.to_nat i)) as [l|] eqn:El.
      2:{ exfalso. apply nth_error_None in El. rewrite (wr_len W) in El. lia. }
      rewrite (proj2 (vec_get_nth _ _ _) El) in * . cbn [rbind] in * .
      destruct (scanned l best (fun j Hj => wr_ids W _ _ _ El Hj) (iv_best _ _ I)) as (best' & Es & Hb & Hle & Hall).
      rewrite Es in * . cbn [rbind] in * . unfold add_nbrs_to_queue in * . fold t in Hnf |- * .
      destruct (tuples_added (axis_nbrs g t) (mkSearch (se_burned s) q (se_wet s)) (iv_len _ _ I) (nbrs_in t Ht)) as (s1 & E1 & X & Fl).
      rewrite E1 in * . cbn [rbind] in * . apply IH; [|exact Hnf]. destruct X as (X1 & X2 & X3 & X4 & X5). constructor.
      * rewrite X1. apply (iv_len _ _ I).
      * apply X3. exact Hq.
      * apply X4. apply (iv_start _ _ I).
      * exact Hb.
      * intros t' Ht' F'. destruct (X5 t' F') as [F0|F0]; [|left; exact F0].
        destruct (iv_flag _ _ I t' Ht' F0) as [A|[A|A]].
        -- rewrite Eq in A. destruct A as [A|A]; [|left; apply X2; exact A].
           assert (t' = t) as -> by (unfold t; rewrite A, tuple_idx, idx_tuple; symmetry; apply cell_idx_tuple; exact Ht').
           right. right. split; [apply Forall_forall; exact Fl|]. rewrite Ei. intros l' j d El' Hj Hd. rewrite El in El'. injection El' as <-. eauto.
        -- right. left. lra.
        -- right. right. destruct A as (A1 & A2). split; [intros t2 H2; apply X4; exact (A1 t2 H2)|].
           intros l' j d El' Hj Hd. specialize (A2 l' j d El' Hj Hd). lra.
Qed.

(** ** Every cell that is near enough is visited *)
Lemma gap_step a b d : 0 < d -> (a < b)%N -> axis_gap (K := Rops) (a + 1) b d <= axis_gap (K := Rops) a b d.
Proof.
  intros Hd H. unfold axis_gap. cbn [fmul fof_N Rops]. apply Rmult_le_compat_l; [lra|]. apply IZR_le.
  destruct (N.ltb_spec a b), (N.ltb_spec (a + 1) b); lia.
Qed.
Lemma gap_step_back a b d : 0 < d -> (b < a)%N -> axis_gap (K := Rops) (a - 1) b d <= axis_gap (K := Rops) a b d.
Proof.
  intros Hd H. unfold axis_gap. cbn [fmul fof_N Rops]. apply Rmult_le_compat_l; [lra|]. apply IZR_le.
  destruct (N.ltb_spec a b), (N.ltb_spec (a - 1) b); lia.
Qed.

Definition apart (a b : N) : nat := N.to_nat (a - b + (b - a)).

Lemma visited s best : inv s best -> se_queue s = [] -> forall n t, cell_in gdims t -> bound t <= fst best ->
  (let '(x, y, z) := t in let '(rx, ry, rz) := s0 in apart x rx + apart y ry + apart z rz = n)%nat -> flag s t.
Proof.
  intros I Q. pose proof (which_in _ _ E0) as In0.
  assert (Next : forall t t', cell_in gdims t' -> flag s t' -> bound t' <= fst best -> In t (axis_nbrs g t') -> flag s t).
  { intros t t' H1 H2 H3 H4. destruct (iv_flag _ _ I t' H1 H2) as [A|[A|A]]; [rewrite Q in A; destruct A|lra|]. apply A. exact H4. }
  assert (Sq : forall a b, 0 <= a -> a <= b -> a * a <= b * b) by (intros; nra).
  pose proof (wr_dx W) as Px. pose proof (wr_dy W) as Py. pose proof (wr_dz W) as Pz.
  induction n as [n IH] using lt_wf_ind. intros [[x y] z] Ht Hb Hn.
  pose proof E0 as E0'. destruct s0 as [[rx ry] rz] eqn:Es0. 
  assert (Ht' := Ht). unfold cell_in, gdims in Ht', In0. cbn [nx ny nz] in Ht', In0.
  pose proof (gap_nonneg x rx _ Px) as Gx. pose proof (gap_nonneg y ry _ Py) as Gy. pose proof (gap_nonneg z rz _ Pz) as Gz.
  assert (St : forall t', cell_in gdims t' -> bound t' <= bound (x, y, z) ->
    (let '(x', y', z') := t' in (apart x' rx + apart y' ry + apart z' rz < n)%nat) -> In (x, y, z) (axis_nbrs g t') -> flag s (x, y, z)).
  { intros t' H1 H2 H3 H4. apply (Next _ t' H1); [|lra|exact H4]. destruct t' as [[x' y'] z'].
    apply (IH _ H3 (x', y', z') H1); [lra|reflexivity]. }
  unfold bound in St. rewrite Es0 in St || idtac.
  destruct (N.lt_trichotomy x rx) as [L|[L|L]].
  - apply (St (x + 1, y, z)%N).
    + unfold cell_in, gdims. cbn [nx ny nz]. lia.
    + pose proof (gap_step x rx _ Px L). pose proof (Sq _ _ (gap_nonneg (x + 1) rx _ Px) H). lra.
    + unfold apart in * . lia.
    + unfold axis_nbrs. apply in_or_app. right. apply in_or_app. left. destruct (N.ltb_spec 0 (x + 1)); [|lia]. left. f_equal. f_equal. lia.
  - destruct (N.lt_trichotomy y ry) as [M|[M|M]].
    + apply (St (x, y + 1, z)%N).
      * unfold cell_in, gdims. cbn [nx ny nz]. lia.
      * pose proof (gap_step y ry _ Py M). pose proof (Sq _ _ (gap_nonneg (y + 1) ry _ Py) H). lra.
      * unfold apart in * . lia.
      * unfold axis_nbrs. do 3 (apply in_or_app; right). apply in_or_app. left. destruct (N.ltb_spec 0 (y + 1)); [|lia]. left. f_equal. f_equal. lia.
    + destruct (N.lt_trichotomy z rz) as [O|[O|O]].
      * apply (St (x, y, z + 1)%N).
        -- unfold cell_in, gdims. cbn [nx ny nz]. lia.
        -- pose proof (gap_step z rz _ Pz O). pose proof (Sq _ _ (gap_nonneg (z + 1) rz _ Pz) H). lra.
        -- unfold apart in * . lia.
        -- unfold axis_nbrs. do 5 (apply in_or_app; right). destruct (N.ltb_spec 0 (z + 1)); [|lia]. left. f_equal. lia.
      * subst x y z. pose proof (iv_start _ _ I) as S0. rewrite Es0 in S0 || idtac. exact S0.
      * apply (St (x, y, z - 1)%N).
        -- unfold cell_in, gdims. cbn [nx ny nz]. lia.
        -- pose proof (gap_step_back z rz _ Pz O). pose proof (Sq _ _ (gap_nonneg (z - 1) rz _ Pz) H). lra.
        -- unfold apart in * . lia.
        -- unfold axis_nbrs. do 4 (apply in_or_app; right). apply in_or_app. left. destruct (N.ltb_spec (z - 1 + 1) (ga_nz g)); [|lia]. left. f_equal. lia.
    + apply (St (x, y - 1, z)%N).
      * unfold cell_in, gdims. cbn [nx ny nz]. lia.
      * pose proof (gap_step_back y ry _ Py M). pose proof (Sq _ _ (gap_nonneg (y - 1) ry _ Py) H). lra.
      * unfold apart in * . lia.
      * unfold axis_nbrs. do 2 (apply in_or_app; right). apply in_or_app. left. destruct (N.ltb_spec (y - 1 + 1) (ga_ny g)); [|lia]. left. f_equal. f_equal. lia.
  - apply (St (x - 1, y, z)%N).
    + unfold cell_in, gdims. cbn [nx ny nz]. lia.
    + pose proof (gap_step_back x rx _ Px L). pose proof (Sq _ _ (gap_nonneg (x - 1) rx _ Px) H). lra.
    + unfold apart in * . lia.
    + unfold axis_nbrs. apply in_or_app. left. destruct (N.ltb_spec (x - 1 + 1) (ga_nx g)); [|lia]. left. f_equal. f_equal. lia.
Qed.

Lemma best_minimal s best i c : inv s best -> se_queue s = [] -> nth_error (ga_centers g) i = Some c -> fst best <= dist2 rr c.
Proof.
  intros I Q Ec. destruct (wr_all W _ _ Ec) as (t & l & Et & El & Hin). pose proof (bound_le _ _ Et) as Hb.
  destruct (Rle_lt_dec (bound t) (fst best)) as [L|L]; [|lra].
  pose proof (which_in _ _ Et) as Ht.
  assert (F : flag s t).
  { destruct t as [[x y] z]. destruct s0 as [[rx ry] rz] eqn:Es0. rewrite <- Es0 in * .
    eapply (visited s best I Q _ (x, y, z) Ht L). rewrite Es0. reflexivity. }
  destruct (iv_flag _ _ I t Ht F) as [A|[A|A]]; [rewrite Q in A; destruct A|lra|].
  destruct A as (_ & A). apply (A l (N.of_nat i)); auto. exists c. rewrite Nnat.Nat2N.id. auto.
Qed.

(** The search answers with a nearest center as soon as one is not too far. *)
Lemma search_right : (exists c, In c (ga_centers g) /\ dist2 rr c < lit300) ->
  exists i, nearest_center g rr = Ok (i, ga_burned g) /\ is_nearest (ga_centers g) rr i.
Proof.
  intros (c & Hc & Hd). pose proof (nearest_center_fuel g rr) as Nf.
  assert (G : exists i b, nearest_center g rr = Ok (i, b) /\ is_nearest (ga_centers g) rr i).
  { unfold nearest_center in * . rewrite E0 in * . cbn [rbind] in * .
    destruct (tuple_added (mkSearch (ga_burned g) [] []) s0) as (s1 & E1 & X & F1).
    { cbn [se_burned]. rewrite (wr_flags W). apply repeat_length. }
    { exact (which_in _ _ E0). }
    rewrite E1 in * . cbn [rbind] in * . destruct X as (X1 & X2 & X3 & X4 & X5). cbn [se_burned se_queue] in * .
    assert (I : inv s1 (lit300, None)).
    { constructor.
      - rewrite X1, (wr_flags W). apply repeat_length.
      - apply X3. constructor.
      - exact F1.
      - reflexivity.
      - intros t Ht Ft. destruct (X5 t Ft) as [A|A]; [|left; exact A]. exfalso. unfold flag in A. cbn [se_burned] in A.
        rewrite (wr_flags W) in A. apply nth_error_In, repeat_spec in A. discriminate. }
    destruct (loop_right (S (length (ga_burned g))) s1 (lit300, None) I) as (s2 & best & E2 & I2 & Q2).
    { intros C. change (search_loop (S (length (ga_burned g))) g rr s1 (flit (f := Rops) (inject_Z (10 ^ 300)), None) = NoFuel) in C.
      rewrite C in Nf. cbn [rbind] in Nf. congruence. }
    change (search_loop (S (length (ga_burned g))) g rr s1 (flit (f := Rops) (inject_Z (10 ^ 300)), None) = Ok (s2, best)) in E2.
    rewrite E2. cbn [rbind].
    assert (Hall : forall c', In c' (ga_centers g) -> fst best <= dist2 rr c').
    { intros c' Hc'. apply In_nth_error in Hc'. destruct Hc' as (j & Ej). eapply best_minimal; eauto. }
    pose proof (iv_best _ _ I2) as Hb. unfold best_is in Hb. destruct best as [bd [i|]]; cbn [fst snd] in * .
    - cbn [unwrap rbind]. do 2 eexists. split; [reflexivity|]. destruct Hb as (ci & Eci & Edi). exists ci. split; [exact Eci|].
      intros c' Hc'. rewrite <- Edi. auto.
    - exfalso. specialize (Hall c Hc). lra. }
  destruct G as (i & b & E & H). exists i. split; [|exact H]. rewrite E. f_equal. f_equal.
  eapply nearest_center_scratch; [apply (wr_flags W)|exact E].
Qed.
End Search.

(** ** Construction *)
Definition with_my (g : gao Rops) (my : list (list N)) : gao Rops :=
  mkGao (K := Rops) (ga_nx g) (ga_ny g) (ga_nz g) (ga_dx g) (ga_dy g) (ga_dz g) (ga_corner g) (ga_centers g) my (ga_burned g).

Lemma recorded l : forall (g : gao Rops) i g', record_centers g i l = Ok g' ->
  exists my, g' = with_my g my /\ length my = length (ga_my_centers g) /\
    (forall idx l0 j, nth_error (ga_my_centers g) idx = Some l0 -> In j l0 -> exists l1, nth_error my idx = Some l1 /\ In j l1) /\
    (forall idx l1 j, nth_error my idx = Some l1 -> In j l1 ->
       (exists l0, nth_error (ga_my_centers g) idx = Some l0 /\ In j l0) \/ (i <= j < i + N.of_nat (length l))%N) /\
    (forall k c, nth_error l k = Some c -> exists t l1, which_cell_tuple g c = Ok t /\
       nth_error my (N.to_nat (tuple_to_index g t)) = Some l1 /\ In (i + N.of_nat k)%N l1).
Proof.
  induction l as [|c l IH]; intros g i g' H; cbn [record_centers] in H.
  - apply Ok_inj in H. subst g'. exists (ga_my_centers g). split; [destruct g; reflexivity|]. split; [reflexivity|].
    split; [eauto|]. split; [eauto|]. intros [|k] c; discriminate.
  - rb H as t Et. rb H as mine Em. apply vec_get_nth in Em. set (idx := N.to_nat (tuple_to_index g t)) in * .
    assert (Hidx : (idx < length (ga_my_centers g))%nat) by (apply nth_error_Some; congruence).
    destruct (IH _ _ _ H) as (my & -> & Hl & Hk & Hn & Ha). cbn [ga_my_centers] in * . rewrite length_list_set in Hl.
    exists my. split; [reflexivity|]. split; [exact Hl|]. split; [|split].
    + intros k l0 j El Hj. destruct (Nat.eq_dec idx k) as [<-|Hne].
      * rewrite Em in El. injection El as <-. apply (Hk idx (mine ++ [i])); [apply list_set_same; exact Hidx|apply in_or_app; auto].
      * apply (Hk k l0); [|exact Hj]. rewrite list_set_other by exact Hne. exact El.
    + intros k l1 j El Hj. destruct (Hn k l1 j El Hj) as [(l0 & El0 & Hj0)|Hr].
      * destruct (Nat.eq_dec idx k) as [<-|Hne].
        -- rewrite list_set_same in El0 by exact Hidx. injection El0 as <-. apply in_app_or in Hj0. destruct Hj0 as [Hj0|[<-|[]]].
           ++ left. eauto.
           ++ right. cbn [length]. lia.
        -- rewrite list_set_other in El0 by exact Hne. left. eauto.
      * right. cbn [length]. lia.
    + intros [|k] c' Ec; cbn [nth_error] in Ec.
      * injection Ec as <-. destruct (Hk idx (mine ++ [i]) i) as (l1 & E1 & H1); [apply list_set_same; exact Hidx|apply in_or_app; right; left; reflexivity|].
        exists t, l1. split; [exact Et|]. split; [exact E1|]. replace (i + N.of_nat 0)%N with i by lia. exact H1.
      * destruct (Ha k c' Ec) as (t' & l1 & E1 & E2 & E3). exists t', l1. split; [exact E1|]. split; [exact E2|].
        replace (i + N.of_nat (S k))%N with (N.succ i + N.of_nat k)%N by lia. exact E3.
Qed.

Lemma max_floor (u : R) : Rmax 1 (IZR (Zfloor u)) = IZR (Z.max 1 (Zfloor u)).
Proof.
  unfold Rmax. destruct (Rle_dec 1 (IZR (Zfloor u))) as [L|L].
  - apply (le_IZR 1) in L. rewrite Z.max_r by lia. reflexivity.
  - apply Rnot_le_lt in L. apply (lt_IZR _ 1) in L. rewrite Z.max_l by lia. reflexivity.
Qed.
Lemma usize_of_Z z n : (0 < z)%Z -> unwrap (Rto_usize (IZR z)) = Ok n -> n = Z.to_N z.
Proof.
  intros Hz. unfold Rto_usize. destruct (_ && _); [|discriminate]. cbn [unwrap]. intros H. injection H as <-. rewrite Ztrunc_IZR. reflexivity.
Qed.

Lemma gao_recorded (centers : list (vec Rops)) a : gao_new centers = Ok a -> well_recorded a /\ ga_centers a = centers.
Proof.
  unfold gao_new. intros H. rb H as c0 Ec0. cbn [fmax flit f0 fsub fmul fdiv fcbrt ffloor fto_usize fof_N Rops] in H.
  replace (Q2R (1 # 1)) with 1 in H by (unfold Q2R; cbn; lra).
  set (lx := Rmax 1 (vx (fold_max centers c0) - vx (fold_min centers c0))) in H. set (ly := Rmax 1 (vy (fold_max centers c0) - vy (fold_min centers c0))) in H. set (lz := Rmax 1 (vz (fold_max centers c0) - vz (fold_min centers c0))) in H.
  assert (Hlx : 1 <= lx) by apply Rmax_l. assert (Hly : 1 <= ly) by apply Rmax_l. assert (Hlz : 1 <= lz) by apply Rmax_l.
  set (dim := Rcbrt _) in H. rewrite !max_floor in H.
  set (X := Z.max 1 (Zfloor (dim * lx))) in H. set (Y := Z.max 1 (Zfloor (dim * ly))) in H. set (Z0 := Z.max 1 (Zfloor (dim * lz))) in H.
  assert (HX : (0 < X)%Z) by lia. assert (HY : (0 < Y)%Z) by lia. assert (HZ : (0 < Z0)%Z) by lia.
  clearbody lx ly lz dim X Y Z0. rewrite <- !mult_IZR in H.
  rb H as n En. rb H as ix Ex. rb H as iy Ey. rb H as iz Ez.
  apply usize_of_Z in En; [|nia]. apply usize_of_Z in Ex; [|exact HX]. apply usize_of_Z in Ey; [|exact HY]. apply usize_of_Z in Ez; [|exact HZ].
  assert (Hn : n = (ix * iy * iz)%N) by (subst; nia).
  destruct (recorded _ _ _ _ H) as (my & -> & Hl & Hk & Hnew & Ha). cbn [ga_my_centers ga_centers with_my] in * . rewrite repeat_length in Hl.
  assert (Hd : forall l z, 1 <= l -> (0 < z)%Z -> 0 < l / IZR z).
  { intros l z H1 H2. apply Rmult_lt_0_compat; [lra|]. apply Rinv_0_lt_compat. apply (IZR_lt 0). exact H2. }
  split; [|reflexivity].
  assert (Ec : gao_cells (with_my (mkGao (K := Rops) ix iy iz (lx / IZR X) (ly / IZR Y) (lz / IZR Z0) (fold_min centers c0) centers (repeat [] (N.to_nat n)) (repeat false (N.to_nat n))) my) = n)
    by (unfold gao_cells, gdims, total_cells; cbn [nx ny nz ga_nx ga_ny ga_nz with_my]; lia).
  constructor; rewrite ?Ec; cbn [ga_my_centers ga_centers ga_burned with_my ga_dx ga_dy ga_dz]; auto.
  - unfold positive, gdims. cbn [nx ny nz ga_nx ga_ny ga_nz with_my]. lia.
  - intros idx l i El Hi. destruct (Hnew idx l i El Hi) as [(l0 & E0 & H0)|Hr].
    + apply nth_error_In, repeat_spec in E0. subst l0. destruct H0.
    + lia.
Qed.

(** The search returns a nearest center and leaves its flags as they were. *)
Lemma nearest_right (centers : list (vec Rops)) a rr t : gao_new centers = Ok a -> which_cell_tuple a rr = Ok t ->
  (exists c, In c centers /\ dist2 rr c < lit300) ->
  exists i, nearest_center a rr = Ok (i, ga_burned a) /\ is_nearest centers rr i.
Proof.
  intros E Et Hc. destruct (gao_recorded _ _ E) as (Wr & Ec). rewrite <- Ec in * . eapply search_right; eauto.
Qed.

(** Whenever it answers, the answer is right. *)
Lemma nearest_answer (centers : list (vec Rops)) a rr i b : gao_new centers = Ok a -> nearest_center a rr = Ok (i, b) ->
  is_nearest centers rr i /\ b = ga_burned a.
Proof.
  intros E H. destruct (gao_recorded _ _ E) as (Wr & Ec).
  assert (Et : exists t, which_cell_tuple a rr = Ok t) by (unfold nearest_center in H; rb H as t Et; eauto).
  destruct Et as (t & Et).
  destruct (Classical_Prop.classic (exists c, In c centers /\ dist2 rr c < lit300)) as [C|C].
  - destruct (nearest_right _ _ _ _ E Et C) as (j & Ej & Hj). rewrite H in Ej. injection Ej as -> ->. auto.
  - exfalso. unfold nearest_center in H. rewrite Et in H. cbn [rbind] in H. rb H as s Es. rb H as [s' best] Eb. rb H as j Ej.
    assert (Never : forall fuel s best s' best', snd best = None -> fst best = lit300 ->
      search_loop fuel a rr s best = Ok (s', best') -> snd best' = None).
    { clear - C Ec Wr. assert (Sc : forall l best best', snd best = None -> fst best = lit300 -> scan_centers a rr l best = Ok best' -> best' = best).
      { induction l as [|k l IH]; intros best best' H1 H2 H; cbn [scan_centers] in H; [apply Ok_inj in H; auto|].
        rb H as c Hc. apply vec_get_nth in Hc. cbn [flt Rops] in H.
        assert (Hd : lit300 <= vdot (vsub rr c) (vsub rr c)).
        { apply Rnot_lt_le. intros L. apply C. exists c. split; [rewrite <- Ec; eapply nth_error_In; eauto|exact L]. }
        destruct best as [bd bo]; cbn [fst snd] in * . rewrite H2 in H. rewrite (proj2 (Rltb_false _ _) Hd) in H.
        change (bd = lit300) in H2. rewrite <- H2 in H. exact (IH (bd, bo) _ H1 H2 H). }
      induction fuel as [|fuel IH]; intros s best s' best' H1 H2 H; cbn [search_loop] in H; destruct (se_queue s) as [|k q]; try discriminate.
      - apply Ok_inj in H. injection H as <- <-. exact H1.
      - apply Ok_inj in H. injection H as <- <-. exact H1.
      - rb H as d Hd. match type of H with context [if ?b then _ else _] => destruct b end; [eapply IH; eauto|]. rb H as mine Hm. rb H as best1 Hb. rb H as s1 Hs.
        rewrite (Sc _ _ _ H1 H2 Hb) in H. eapply IH; eauto. }
    rewrite (Never _ _ (flit (f := Rops) (inject_Z (10 ^ 300)), None) _ _ eq_refl eq_refl Eb) in Ej. discriminate.
Qed.
