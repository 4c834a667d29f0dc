(** Crossing a facet of a mesh built from a grid (C48). *)
From Coq Require Import NArith ZArith List Bool String Lia Permutation.
From Verif Require Import Float ParticleModel NuclearModel MeshTypes Balance TrackModel CycleModel GridModel AssignModel MeshModel
  TrackSpec TrackAccount GridSpec GridLemmas AssignLemmas FloodLemmas MeshFacts MeshSpec MeshTheorems SegmentSpec.
Import ListNotations.
Local Open Scope N_scope.

Section Crossing.
Context {K : FloatOps}.

Lemma vec_get_nth {A} (l : list A) i x : vec_get l i = Ok x <-> nth_error l (N.to_nat i) = Some x.
Proof. unfold vec_get. destruct (nth_error l (N.to_nat i)); cbn; split; congruence. Qed.

Lemma facet_plane g bc p (m : mesh K) i k fa : built g bc p m -> facet_at m i k fa ->
  exists planes pl, vec_get (me_geom m) (N.of_nat i) = Ok planes /\ vec_get planes (N.of_nat k) = Ok pl.
Proof.
  intros B (cc & Ecc & Efa). destruct (built_mesh_is _ _ _ _ B) as (cs & boundary & Pc & Nc & Eb & M).
  destruct (mi_nodes _ _ _ _ M) as (nodes & _ & _ & _ & Hconn).
  assert (Hi : (i < List.length cs)%nat) by (rewrite <- (proj1 Hconn); apply nth_error_Some; congruence).
  destruct (nth_error cs i) as [c|] eqn:Ec; [|apply nth_error_None in Ec; lia].
  pose proof (proj2 Hconn _ _ _ Ec Ecc) as C.
  destruct (Forall2_nth_l _ _ _ _ _ (mi_planes _ _ _ _ M) Ec) as (planes & Epl & Hp).
  assert (Hk : (k < 24)%nat) by (rewrite <- (cl_count _ _ _ _ _ _ _ C); apply nth_error_Some; congruence).
  destruct (nth_error planes k) as [pl|] eqn:Ek; [|apply nth_error_None in Ek; destruct Hp; lia].
  exists planes, pl. rewrite !vec_get_nth, !Nat2N.id. auto.
Qed.

Lemma crossing g bc p (dom : domain K) i c k fa pt b ex :
  built g bc p (d_mesh dom) -> local_to_global p i c -> facet_at (d_mesh dom) i k fa ->
  p_cell pt = N.of_nat i -> p_facet pt = N.of_nat k ->
  let at_boundary := on_boundary (g_dims g) (cell_idx_to_tuple (g_dims g) c) (k / 4) in
  (at_boundary = false -> exists j k' c' fa',
     on_facet dom pt b ex =
       Ok (true, set_last_event (set_facet (set_cell (set_domain pt 0) (N.of_nat j)) (N.of_nat k')) EvTransitExit, b, ex) /\
     local_to_global p j c' /\ cell_idx_to_tuple (g_dims g) c' = one_step (cell_idx_to_tuple (g_dims g) c) (k / 4) /\
     k' = paired k /\ facet_at (d_mesh dom) j k' fa' /\
     fa_adjacent fa' = mkLocation (Some 0) (Some (N.of_nat i)) (Some (N.of_nat k))) /\
  (at_boundary = true -> requested bc (k / 4) = Some BoundaryReflection -> exists planes pl,
     vec_get (me_geom (d_mesh dom)) (N.of_nat i) = Ok planes /\ vec_get planes (N.of_nat k) = Ok pl /\
     on_facet dom pt b ex = Ok (true, reflect_particle (set_last_event pt EvReflection) pl, b, ex)) /\
  (at_boundary = true -> requested bc (k / 4) = Some BoundaryEscape ->
     on_facet dom pt b ex = Ok (false, set_species (set_last_event pt EvEscape) Unknown, binc b EEscape 1, ex)).
Proof.
  intros B Li Hf Ec Ek. cbv zeta.
  pose proof (boundary_events _ _ _ _ _ _ _ _ B Li Hf) as Hev.
  destruct (adjacency_back _ _ _ _ _ _ _ _ B Li Hf) as (j & k' & fa' & Ea & Hf' & Ea' & _ & Hin).
  destruct (facet_plane _ _ _ _ _ _ _ B Hf) as (planes & pl & G1 & G2).
  destruct Hf as (cc & Ecc & Efa).
  assert (V1 : vec_get (me_conn (d_mesh dom)) (p_cell pt) = Ok cc) by (rewrite vec_get_nth, Ec, Nat2N.id; exact Ecc).
  assert (V2 : vec_get (cc_facet cc) (p_facet pt) = Ok fa) by (rewrite vec_get_nth, Ek, Nat2N.id; exact Efa).
  unfold on_facet. rewrite V1. cbn [rbind]. rewrite V2. cbn [rbind]. unfold facet_crossing_event.
  split; [|split].
  - intros E. rewrite E in Hev. rewrite Hev, Ea. cbn [loc_domain loc_cell loc_facet unwrap rbind].
    destruct (Hin E) as (-> & c' & L' & S'). exists j, (paired k), c', fa'. repeat split; auto.
  - intros E Er. rewrite E in Hev. rewrite Hev in Er. injection Er; intros ->. cbn [rbind].
    exists planes, pl. split; [exact G1|]. split; [exact G2|].
    cbn [p_last_event set_last_event p_cell p_facet]. rewrite Ec, Ek, G1. cbn [rbind]. rewrite G2. reflexivity.
  - intros E Er. rewrite E in Hev. rewrite Hev in Er. injection Er; intros ->. reflexivity.
Qed.

End Crossing.
