(** Facts about the search of the nearest facet, for any floats. *)
From Coq Require Import NArith QArith PeanoNat List Bool Lia.
From Verif Require Import Float RngModel ParticleModel NuclearModel MeshTypes Balance TrackModel CycleModel
  TrackSpec TrackAccount PopSpec SegmentSpec.
Import ListNotations.
Local Open Scope N_scope.
Local Opaque rng_next spawn_rn_seed.

Section Nearest.
Context {K : FloatOps}.

Definition defined {A} (r : result A) : Prop := r <> NoFuel.

Lemma defined_bind {A B} (r : result A) (k : A -> result B) : defined r -> (forall a, r = Ok a -> defined (k a)) -> defined (rbind r k).
Proof. intros Hr Hk. destruct r; cbn [rbind]; [apply Hk; reflexivity|discriminate|congruence]. Qed.
Lemma defined_ok {A} (a : A) : defined (Ok a).
Proof. discriminate. Qed.
Lemma defined_vec_get {A} (l : list A) i : defined (vec_get l i).
Proof. unfold vec_get, unwrap, defined. destruct (nth_error _ _); discriminate. Qed.
Lemma defined_rmap {A B} (f : A -> result B) l : (forall a, defined (f a)) -> defined (rmap f l).
Proof.
  intros Hf. induction l as [|a l IH]; cbn [rmap]; [discriminate|].
  apply defined_bind; [apply Hf|]. intros b _. apply defined_bind; [exact IH|]. intros; discriminate.
Qed.
Lemma defined_rassert b : defined (rassert b).
Proof. destruct b; discriminate. Qed.

Lemma defined_facet_coords (m : mesh K) c i : defined (get_facet_coords m c i).
Proof.
  unfold get_facet_coords. apply defined_bind; [apply defined_vec_get|]. intros cc _.
  apply defined_bind; [apply defined_vec_get|]. intros fa _. destruct (fa_point fa) as [[a b] c'].
  apply defined_bind; [apply defined_vec_get|]. intros x _. apply defined_bind; [apply defined_vec_get|]. intros y _.
  apply defined_bind; [apply defined_vec_get|]. intros; discriminate.
Qed.
Lemma defined_cell_position (m : mesh K) c : defined (cell_position_3dg m c).
Proof.
  unfold cell_position_3dg. apply defined_bind; [apply defined_vec_get|]. intros cc _.
  apply defined_bind; [apply defined_rmap; intros; apply defined_vec_get|]. intros pts _.
  unfold vdiv. apply defined_bind; [apply defined_rassert|]. intros; discriminate.
Qed.
Lemma defined_distances (m : mesh K) c x u tol pls : forall i, defined (facet_distances m c x u tol i pls).
Proof.
  induction pls as [|pl pls IH]; intros i; cbn [facet_distances]; [discriminate|].
  apply defined_bind.
  - unfold facet_distance. cbv zeta. destruct (_ || _); [discriminate|].
    apply defined_bind; [apply defined_facet_coords|]. intros; discriminate.
  - intros d _. apply defined_bind; [apply IH|]. intros; discriminate.
Qed.
Lemma defined_check (p : particle K) m i mf nf : defined (check_nearest_validity p m i mf nf).
Proof.
  unfold check_nearest_validity. cbv zeta. destruct (_ || _); [|discriminate].
  apply defined_bind; [apply defined_cell_position|]. intros; discriminate.
Qed.

Lemma place_refl (p : particle K) : same_but_place p p.
Proof. exists (p_coordinate p). destruct p; reflexivity. Qed.
Lemma place_trans (p q r : particle K) : same_but_place p q -> same_but_place q r -> same_but_place p r.
Proof. intros (x & ->) (y & ->). exists y. reflexivity. Qed.

Lemma check_place (p : particle K) m i mf nf rt p' i' mf' :
  check_nearest_validity p m i mf nf = Ok (rt, p', i', mf') ->
  same_but_place p p' /\ (rt = true -> i' = i + 1 /\ i' <> 1000) /\
  (rt = false -> i' = 1000 \/ p' = p).
Proof.
  unfold check_nearest_validity. cbv zeta. destruct (_ || _); intros H.
  - rb H as mv E. injection H; intros; subst; clear H. split; [eexists; reflexivity|].
    split; intros Hr.
    + apply Bool.negb_true_iff in Hr. split; [reflexivity|]. apply N.eqb_neq. exact Hr.
    + apply Bool.negb_false_iff in Hr. left. apply N.eqb_eq. exact Hr.
  - injection H; intros; subst. split; [apply place_refl|]. split; [discriminate|auto].
Qed.

(** The retries look at the same distances; at most 1000 attempts are made. *)
Lemma loop_first m x u tol pls ds : forall fuel (p : particle K) i mf,
  (i < 1000)%N -> (1000 <= i + N.of_nat fuel)%N ->
  facet_distances m (p_cell p) x u tol 0 pls = Ok ds ->
  match mct_nf_loop fuel m x u tol pls p i mf with
  | Ok (nf, p') => nf = compute_nearest ds /\ same_but_place p p'
  | Panic => True
  | NoFuel => False
  end.
Proof.
  induction fuel as [|fuel IH]; intros p i mf Hi Hf Hd; [cbn in Hf; lia|].
  cbn [mct_nf_loop]. rewrite Hd. cbn [rbind].
  pose proof (defined_check p m i mf (compute_nearest ds)) as Hc.
  destruct (check_nearest_validity p m i mf (compute_nearest ds)) as [[[[rt p1] i1] mf1]| |] eqn:E; cbn [rbind]; [|exact I|congruence].
  destruct (check_place _ _ _ _ _ _ _ _ _ E) as (Hp & Ht & _). destruct rt.
  - destruct (Ht eq_refl) as (-> & Hn). specialize (IH p1 (i + 1) mf1 ltac:(lia) ltac:(lia)).
    assert (Hd1 : facet_distances m (p_cell p1) x u tol 0 pls = Ok ds) by (destruct Hp as (y & ->); exact Hd).
    specialize (IH Hd1). destruct (mct_nf_loop fuel _ _ _ _ _ p1 _ _) as [[nf p']| |]; auto.
    destruct IH as (-> & IH). split; [reflexivity|]. exact (place_trans _ _ _ Hp IH).
  - split; [reflexivity|exact Hp].
Qed.

(** More fuel changes nothing. *)
Lemma loop_more m x u tol pls k : forall fuel (p : particle K) i mf,
  mct_nf_loop fuel m x u tol pls p i mf <> NoFuel ->
  mct_nf_loop (fuel + k) m x u tol pls p i mf = mct_nf_loop fuel m x u tol pls p i mf.
Proof.
  induction fuel as [|fuel IH]; intros p i mf H; [cbn in H; congruence|].
  cbn [mct_nf_loop plus] in * . destruct (facet_distances m (p_cell p) x u tol 0 pls) as [ds| |]; cbn [rbind] in * ; auto.
  destruct (check_nearest_validity p m i mf (compute_nearest ds)) as [[[[rt p1] i1] mf1]| |]; cbn [rbind] in * ; auto.
  destruct rt; auto.
Qed.

Lemma loop_defined m x u tol pls (p : particle K) mf :
  mct_nf_loop 1000 m x u tol pls p 0 mf <> NoFuel.
Proof.
  destruct (facet_distances m (p_cell p) x u tol 0 pls) as [ds| |] eqn:E.
  - pose proof (loop_first m x u tol pls ds 1000 p 0 mf ltac:(lia) ltac:(cbv; congruence) E) as H.
    intros C. rewrite C in H. exact H.
  - intros C. change 1000%nat with (S 999) in C. cbn [mct_nf_loop] in C. rewrite E in C. discriminate.
  - exfalso. exact (defined_distances _ _ _ _ _ _ _ E).
Qed.

(** C28 *)
Lemma search_first (m : mesh K) (p : particle K) :
  mct_nf_3dg p m <> NoFuel /\
  forall nf p', mct_nf_3dg p m = Ok (nf, p') ->
    same_but_place p p' /\ exists ds, distances_now m p ds /\ nf = compute_nearest ds.
Proof.
  unfold mct_nf_3dg. cbv zeta. fold (plane_tolerance p).
  pose proof (defined_vec_get (me_geom m) (p_cell p)) as Hg.
  destruct (vec_get (me_geom m) (p_cell p)) as [pls| |] eqn:Eg; cbn [rbind]; [|split; [discriminate|intros; discriminate]|congruence].
  split; [apply loop_defined|]. intros nf p' H.
  destruct (facet_distances m (p_cell p) (p_coordinate p) (p_direction p) (plane_tolerance p) 0 pls) as [ds| |] eqn:E.
  - pose proof (loop_first m _ _ _ pls ds 1000 p 0 (fmul (flit (1 # 2)) fsmall) ltac:(lia) ltac:(cbv; congruence) E) as L.
    rewrite H in L. destruct L as (L1 & L2). split; [exact L2|]. exists ds. split; [|exact L1]. exists pls. auto.
  - change 1000%nat with (S 999) in H. cbn [mct_nf_loop] in H. rewrite E in H. discriminate.
  - exfalso. exact (defined_distances _ _ _ _ _ _ _ E).
Qed.

Lemma search_terminates (m : mesh K) x u tol pls (p : particle K) mf n : (1000 <= n)%nat ->
  mct_nf_loop n m x u tol pls p 0 mf = mct_nf_loop 1000 m x u tol pls p 0 mf.
Proof.
  intros Hn. replace n with (1000 + (n - 1000))%nat by lia. apply loop_more, loop_defined.
Qed.

(** Where a facet is found, the particle is left where it is. *)
Lemma search_stays (m : mesh K) (p : particle K) nf p' : mct_nf_3dg p m = Ok (nf, p') ->
  feq (snd nf) fhuge = false -> flt (fof_N 10000000) (p_num_segments p) && fle (snd nf) f0 = false -> p' = p.
Proof.
  unfold mct_nf_3dg. cbv zeta. intros H Hh Hs. rb H as pls Eg. change 1000%nat with (S 999) in H. cbn [mct_nf_loop] in H.
  rb H as ds Ed. set (nf0 := compute_nearest ds) in * .
  assert (G : forall rt p1 i1 mf1, check_nearest_validity p m 0 (fmul (flit (1 # 2)) fsmall) nf0 = Ok (rt, p1, i1, mf1) ->
              nf = nf0 -> rt = false /\ p1 = p).
  { intros rt p1 i1 mf1 E ->. unfold check_nearest_validity in E. cbv zeta in E. rewrite Hh, Hs in E. cbn [orb] in E.
    injection E; intros; subst; auto. }
  rb H as [[[rt p1] i1] mf1] Ec.
  assert (Hnf : nf = nf0).
  { destruct rt; [|injection H; intros; subst; reflexivity].
    destruct (check_place _ _ _ _ _ _ _ _ _ Ec) as (Hp & Ht & _). destruct (Ht eq_refl) as (-> & Hn).
    assert (Ed1 : facet_distances m (p_cell p1) (p_coordinate p) (p_direction p)
       (fmul (flit (1 # 10000000000000000)) (fadd (fadd (fmul (vx (p_coordinate p)) (vx (p_coordinate p)))
          (fmul (vy (p_coordinate p)) (vy (p_coordinate p)))) (fmul (vz (p_coordinate p)) (vz (p_coordinate p))))) 0 pls = Ok ds)
      by (destruct Hp as (y & ->); exact Ed).
    pose proof (loop_first m _ _ _ pls ds 999 p1 (0 + 1) mf1 ltac:(lia) ltac:(cbv; congruence) Ed1) as L.
    match type of H with ?t = _ => match type of L with match ?t' with _ => _ end => change t' with t in L end end.
    rewrite H in L. apply L. }
  destruct (G _ _ _ _ Ec Hnf) as (-> & ->). injection H; intros; subst. reflexivity.
Qed.

(** [nearest_facet] *)
Lemma nearest_facet_first (m : mesh K) (p : particle K) nf p' : nearest_facet p m = Ok (nf, p') ->
  same_but_place p p' /\ exists ds, distances_now m p ds /\
    nf = (fst (compute_nearest ds), fmax (snd (compute_nearest ds)) f0) /\ fle (snd nf) fhuge = true.
Proof.
  unfold nearest_facet. intros H. rb H as [nf0 p0] E. rb H as t Et. injection H; intros; subst; clear H.
  destruct (proj2 (search_first m p) _ _ E) as (Hp & ds & Hd & ->). split; [exact Hp|]. exists ds. split; [exact Hd|].
  split; [reflexivity|]. cbn [snd fst] in * . destruct (fle _ fhuge); [reflexivity|discriminate].
Qed.

End Nearest.
