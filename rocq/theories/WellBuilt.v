(** A domain built by the initialisation is complete, in any arithmetic: nothing that a cell refers
    to is missing. *)
From Coq Require Import NArith List Bool Lia Permutation.
From Verif Require Import Float ParticleModel NuclearModel MeshTypes CycleModel GridModel MeshModel GridSpec GridLemmas
  FloodLemmas MeshFacts MeshSpec MeshTheorems TrackAccount CycleAccount SourceLemmas PopSpec SegmentSpec SegmentFacts GeomSpec.
Import ListNotations.
Local Open Scope N_scope.

Section Any.
Context {K : FloatOps}.

Lemma Forall2_nth_l {A B} (P : A -> B -> Prop) l l' : Forall2 P l l' -> forall b, In b l' -> exists a, In a l /\ P a b.
Proof. induction 1 as [|x y l l' H F2 IH]; intros b Hb; [destruct Hb|]. destruct Hb as [<-|Hb]; [exists x; cbn; auto|]. destruct (IH b Hb) as (a & H1 & H2). exists a. cbn. auto. Qed.

Lemma built_complete (g : grid K) bc p m : built g bc p m -> complete_geometry m /\ length (me_conn m) = N.to_nat (total_cells (g_dims g)).
Proof.
  intros B. destruct (built_mesh_is _ _ _ _ B) as (cs & boundary & Pc & Nc & Eb & M).
  destruct (mi_nodes _ _ _ _ M) as (nodes & Nn & (Hln & Hn) & _ & Hlc & Hconn).
  assert (Lt : forall gid n, In (gid, n) nodes -> n < N.of_nat (length (me_node m))).
  { intros gid n H. destruct (Hn _ _ H) as (v & _ & Ev). assert (N.to_nat n < length (me_node m))%nat by (apply nth_error_Some; congruence). lia. }
  assert (Lcs : length cs = N.to_nat (total_cells (g_dims g))) by (rewrite (Permutation_length Pc); apply nrange_length).
  split; [|congruence]. split; [|split].
  - apply Forall_forall. intros cc Hcc. apply In_nth_error in Hcc. destruct Hcc as (i & Ei).
    destruct (nth_error cs i) as [c|] eqn:Ec.
    2:{ exfalso. apply nth_error_None in Ec. rewrite <- Hlc in Ec. apply nth_error_None in Ec. congruence. }
    pose proof (Hconn _ _ _ Ec Ei) as C. split; [apply (cl_count _ _ _ _ _ _ _ C)|]. split.
    + apply Forall_forall. intros n Hin. destruct (Forall2_nth_l _ _ _ (cl_points _ _ _ _ _ _ _ C) n Hin) as (gid & _ & Hg). eauto.
    + apply Forall_forall. intros fa Hfa. apply In_nth_error in Hfa. destruct Hfa as (k & Ek).
      pose proof (cl_facets _ _ _ _ _ _ _ C _ _ Ek) as Fa. destruct (facet_nodes (g_dims g) c k) as [[n0 n1] n2] eqn:En.
      destruct (fs_points _ _ _ _ _ _ _ _ Fa _ _ _ En) as (i0 & i1 & i2 & -> & I0 & I1 & I2). repeat constructor; eauto.
  - pose proof (mi_planes _ _ _ _ M) as F2. apply Forall2_length in F2. congruence.
  - apply Forall_forall. intros pl Hpl. destruct (Forall2_nth_l _ _ _ (mi_planes _ _ _ _ M) pl Hpl) as (c & _ & H & _). exact H.
Qed.

Lemma find_material_idx_lt (mats : list (material K)) name i : find_material_idx mats name = Some i -> i < N.of_nat (length mats).
Proof.
  unfold find_material_idx. enough (G : forall l k, find_material_from l name k = Some i -> i < k + N.of_nat (length l)) by (intros H; apply G in H; lia).
  induction l as [|m l IH]; intros k H; cbn [find_material_from length] in * ; [discriminate|].
  destruct (String.eqb _ _); [injection H as <-; lia|]. apply IH in H. lia.
Qed.

(** The domain: as many states as cells, each with a known material. *)
Lemma built_domain_parts (g : grid K) bc p geoms mats dom : built_domain g bc p geoms mats dom ->
  built g bc p (d_mesh dom) /\ d_global_domain dom = 0 /\ length (d_cells dom) = length (me_conn (d_mesh dom)) /\
  Forall (fun cs : cell_state K => cs_material cs < N.of_nat (length mats)) (d_cells dom).
Proof.
  intros (Hp & E). unfold domain_new in E. rb E as boundary Eb. rb E as m Em. rb E as cells0 Ec. apply Ok_inj in E. subst dom. cbn [d_mesh d_cells d_global_domain].
  assert (B : built g bc p m) by (split; [exact Hp|]; exists boundary; auto).
  destruct (built_complete _ _ _ _ B) as ((_ & Lg & _) & _). split; [exact B|].
  destruct (built_mesh_is _ _ _ _ B) as (cs & b' & _ & _ & _ & M). split; [apply (mi_gid _ _ _ _ M)|].
  apply rmap_Forall2 in Ec. split.
  - apply Forall2_length in Ec. rewrite nrange_length in Ec. congruence.
  - apply Forall_forall. intros x Hx. destruct (Forall2_nth_l _ _ _ Ec x Hx) as (i & _ & Ei). unfold cell_state_new in Ei.
    rb Ei as rr Er. rb Ei as name En. rb Ei as mat Emat. rb Ei as vol Ev. rb Ei as id Eid. apply Ok_inj in Ei. subst x. cbn [cs_material].
    destruct (find_material_idx mats name) as [k|] eqn:Ek; [|discriminate]. cbn [unwrap] in Emat. injection Emat as ->.
    apply find_material_idx_lt in Ek. exact Ek.
Qed.

Lemma built_domain_complete (g : grid K) bc p geoms mats dom : built_domain g bc p geoms mats dom ->
  complete_geometry (d_mesh dom) /\ length (me_conn (d_mesh dom)) = N.to_nat (total_cells (g_dims g)) /\
  length (d_cells dom) = length (me_conn (d_mesh dom)) /\
  Forall (fun cs : cell_state K => cs_material cs < N.of_nat (length mats)) (d_cells dom).
Proof.
  intros D. destruct (built_domain_parts _ _ _ _ _ _ D) as (B & _ & L & M). destruct (built_complete _ _ _ _ B) as (C & Ln). auto.
Qed.
End Any.
