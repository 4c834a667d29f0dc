(** A segment always has an outcome (exact arithmetic): nothing panics between two events. *)
From Coq Require Import NArith ZArith QArith Qreals List Bool Lia Reals Lra.
From Verif Require Import Float RealOps RngModel RngLemmas ParticleModel NuclearModel MeshTypes Balance TrackModel CycleModel
  TrackSpec CycleSpec TrackAccount PopSpec SourceCount SegmentSpec NearestLemmas FacetLemmas SegmentFacts.
Import ListNotations.
Local Open Scope N_scope.

Section Any.
Context {K : FloatOps}.
Variable m : mesh K.
Hypothesis Hm : complete_geometry m.
Hypothesis H14 : feq (fof_N N_POINTS_INTERSEC : F K) f0 = false.

Lemma distances_ok c x u tol pls : c < N.of_nat (length (me_conn m)) -> forall i, i + N.of_nat (length pls) <= 24 ->
  exists ds, facet_distances m c x u tol i pls = Ok ds.
Proof.
  intros Hc. induction pls as [|pl pls IH]; intros i Hi; cbn [facet_distances]; [exists []; reflexivity|]. cbn [length] in Hi.
  assert (Hd : exists d, facet_distance m c x u tol i pl = Ok d).
  { unfold facet_distance. cbv zeta. destruct (_ || _); [eexists; reflexivity|].
    destruct (facet_coords_ok m c i (proj1 Hm) Hc) as (pts & ->); [lia|]. cbn [rbind]. eexists. reflexivity. }
  destruct Hd as (d & ->). cbn [rbind]. destruct (IH (N.succ i)) as (ds & ->); [lia|]. cbn [rbind]. eexists. reflexivity.
Qed.

Lemma check_ok (p : particle K) i mf nf : p_cell p < N.of_nat (length (me_conn m)) ->
  exists r, check_nearest_validity p m i mf nf = Ok r.
Proof.
  intros Hc. unfold check_nearest_validity. cbv zeta. destruct (_ || _); [|eexists; reflexivity].
  destruct (cell_position_ok m (p_cell p) (proj1 Hm) Hc H14) as (x & ->). cbn [rbind]. eexists. reflexivity.
Qed.

Lemma loop_ok x u tol pls : (length pls <= 24)%nat -> forall fuel (p : particle K) i mf, p_cell p < N.of_nat (length (me_conn m)) ->
  mct_nf_loop fuel m x u tol pls p i mf <> Panic.
Proof.
  intros Hl. induction fuel as [|fuel IH]; intros p i mf Hc; cbn [mct_nf_loop]; [discriminate|].
  destruct (distances_ok (p_cell p) x u tol pls Hc 0) as (ds & ->); [lia|]. cbn [rbind].
  destruct (check_ok p i mf (compute_nearest ds) Hc) as ([[[rt p1] i1] mf1] & E). rewrite E. cbn [rbind].
  destruct rt; [|discriminate]. apply IH. destruct (check_place _ _ _ _ _ _ _ _ _ E) as ((y & ->) & _). exact Hc.
Qed.

Lemma search_ok (p : particle K) : p_cell p < N.of_nat (length (me_conn m)) -> exists nf p', mct_nf_3dg p m = Ok (nf, p').
Proof.
  intros Hc. destruct (search_first m p) as (Hn & _). unfold mct_nf_3dg in * . cbv zeta in * .
  destruct Hm as (_ & Hl & H24). destruct (vec_get_lt (me_geom m) (p_cell p)) as (pls & E); [rewrite Hl; exact Hc|].
  rewrite E in * . cbn [rbind] in * . rewrite Forall_forall in H24. pose proof (H24 _ (vec_get_in _ _ _ E)) as L.
  match goal with |- exists nf p', ?r = _ => assert (Hp : r <> Panic) by (apply loop_ok; [lia|exact Hc]); destruct r as [[nf p']| |] end; [|congruence|congruence].
  exists nf, p'. reflexivity.
Qed.
End Any.

Local Open Scope R_scope.
Local Opaque huge tiny.

Lemma fourteen : feq (fof_N N_POINTS_INTERSEC : F Rops) f0 = false.
Proof. cbn [feq fof_N f0 Rops]. apply Reqb_false. cbn. lra. Qed.

Lemma nearest_facet_ok (m : mesh Rops) (p : particle Rops) : complete_geometry m -> (p_cell p < N.of_nat (length (me_conn m)))%N ->
  exists nf p', nearest_facet p m = Ok (nf, p').
Proof.
  intros Hm Hc. destruct (search_ok m Hm fourteen p Hc) as (nf & p' & E). unfold nearest_facet. rewrite E. cbn [rbind].
  destruct (proj2 (search_first m p) _ _ E) as (_ & ds & _ & ->).
  pose proof (choice_right ds) as Hch. cbv zeta in Hch. apply facet_choice_nonneg in Hch.
  assert (B : fle (Rmax (snd (compute_nearest (K := Rops) ds)) 0 : F Rops) fhuge = true).
  { cbn [fle Rops]. apply Rleb_iff. exact (proj2 Hch). }
  cbn [snd fst fmax f0 Rops]. cbn [snd fmax f0 Rops] in B. rewrite B. cbn [rassert rbind]. eexists. eexists. reflexivity.
Qed.

Lemma tiny_pos : 0 < tiny.
Proof. Local Transparent tiny. unfold tiny. cbn [ftiny Rops]. unfold Q2R. cbn [QArith_base.Qnum QArith_base.Qden]. apply Rmult_lt_0_compat; [lra|]. apply Rinv_0_lt_compat. apply (IZR_lt 0). reflexivity. Qed.
Local Opaque tiny.

Lemma nearest_event_nonneg (p : particle Rops) (speed df : R) : 0 <= p_num_mean_free_paths p * p_mean_free_path p ->
  0 <= speed * p_time_to_census p -> 0 <= df -> 0 <= fst (nearest_event p speed df).
Proof.
  intros H1 H2 H3. destruct (nearest_event p speed df) as [d o] eqn:E. symmetry in E. apply event_is in E. cbn [fst].
  pose proof huge_pos. destruct o; cbn [first_event] in E; destruct E as (-> & _); auto. apply Rmin_glb; lra.
Qed.

Lemma mean_path_pos xs : 0 <= xs -> 0 < mean_path xs.
Proof.
  intros H. unfold mean_path. pose proof huge_pos. destruct (Req_EM_T xs 0); [lra|].
  unfold Rdiv. rewrite Rmult_1_l. apply Rinv_0_lt_compat. lra.
Qed.

(** With a complete mesh, a particle in a cell of the mesh and quantities that are not negative, the
    segment has an outcome. *)
Lemma outcome_defined (dom : domain Rops) (p : particle Rops) (speed : R) force (xs : R) :
  complete_geometry (d_mesh dom) -> (p_cell p < N.of_nat (length (me_conn (d_mesh dom))))%N ->
  0 <= speed -> 0 <= xs -> on_time p ->
  exists o q, outcome_after dom p speed force xs = Ok (o, q).
Proof.
  intros Hm Hc Hs Hx (Ht & Hn).
  destruct (prepared_paths p xs) as (Pn & Pm & Pt & Pa & Pc & _).
  assert (Hc' : (p_cell (prepared_for p xs) < N.of_nat (length (me_conn (d_mesh dom))))%N) by (rewrite Pc; exact Hc).
  destruct (nearest_facet_ok _ _ Hm Hc') as ([i df] & p1 & En).
  unfold outcome_after. fold (prepared_for p xs). cbv zeta. rewrite En. cbn [rbind].
  assert (Hnn : 0 <= p_num_mean_free_paths (prepared_for p xs)).
  { destruct Pn as [(_ & ->)|(_ & ->)]; [exact Hn|apply minus_ln_pos, draw_unit]. }
  assert (Hdf : 0 <= df).
  { destruct (nearest_facet_first _ _ _ _ En) as (_ & ds & _ & Enf & _). pose proof (choice_right ds) as Hch. cbv zeta in Hch.
    apply facet_choice_nonneg in Hch. injection Enf; intros E1 E2. rewrite E1. exact (proj1 Hch). }
  assert (Hd : 0 <= fst (nearest_event (prepared_for p xs) speed df)).
  { apply nearest_event_nonneg; [rewrite Pm|rewrite Pt|exact Hdf]; apply Rmult_le_pos; auto. left. apply mean_path_pos, Hx. }
  unfold nearest_event in Hd. pose proof tiny_pos as Htp.
  match goal with |- context [let '(_, _) := ?h in _] =>
    assert (Hh : 0 <= fst h) by (destruct force; [left; exact Htp|exact Hd]); destruct h as [d o] end.
  cbn [fst] in Hh.
  assert (A : fle (f0 : F Rops) d = true) by (apply Rleb_iff; exact Hh).
  rewrite A. cbn [rassert rbind].
  destruct o; (match goal with |- context [if ?c then Ok _ else Ok _] => destruct c end); eexists; eexists; reflexivity.
Qed.
