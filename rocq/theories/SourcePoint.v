(** The cells of a domain and the points sampled in them, in exact arithmetic (C04, C35, C39). *)
From Coq Require Import NArith ZArith QArith Qreals List Bool Reals Lra Lia Psatz Permutation.
From Verif Require Import Float RealOps RngModel ParticleModel NuclearModel MeshTypes TrackModel CycleModel GridModel MeshModel GridSpec GridLemmas
  FloodLemmas MeshFacts MeshSpec MeshTheorems TrackAccount PopSpec SourceLemmas SegmentSpec SegmentFacts GeomSpec GeomLemmas PlaneLemmas.
Import ListNotations.
Local Open Scope R_scope.

(** ** Weights *)
Lemma fold_weights (r1 r2 r3 : R) a b c d : 0 <= r1 <= 1 -> 0 <= r2 <= 1 -> 0 <= r3 <= 1 ->
  fold_barycentric (K := Rops) r1 r2 r3 = (a, b, c, d) ->
  0 <= a /\ 0 <= b /\ 0 <= c /\ 0 <= d /\ a + b + c + d = 1.
Proof.
  intros H1 H2 H3. unfold fold_barycentric. cbn [fadd fsub f1 flt Rops].
  destruct (Rltb 1 (r1 + r2)) eqn:E1; [apply Rltb_iff in E1|apply Rltb_false in E1].
  - destruct (Rltb 1 (1 - r2 + r3)) eqn:E2; [apply Rltb_iff in E2|apply Rltb_false in E2].
    + intros [= <- <- <- <-]. lra.
    + destruct (Rltb 1 (1 - r1 + (1 - r2) + r3)) eqn:E3; [apply Rltb_iff in E3|apply Rltb_false in E3];
        intros [= <- <- <- <-]; lra.
  - destruct (Rltb 1 (r2 + r3)) eqn:E2; [apply Rltb_iff in E2|apply Rltb_false in E2].
    + intros [= <- <- <- <-]. lra.
    + destruct (Rltb 1 (r1 + r2 + r3)) eqn:E3; [apply Rltb_iff in E3|apply Rltb_false in E3];
        intros [= <- <- <- <-]; lra.
Qed.

(** A tetrahedron with its corners in a cell is in the cell. *)
Lemma tetrahedron_inside (g : grid Rops) t q0 q1 q2 q3 r :
  in_cell g t q0 -> in_cell g t q1 -> in_cell g t q2 -> in_cell g t q3 -> in_tetrahedron q0 q1 q2 q3 r -> in_cell g t r.
Proof.
  destruct t as [[x y] z]. intros H0 H1 H2 H3 (a & b & c & d & Ha & Hb & Hc & Hd & Hs & ->). unfold in_cell in * . cbn [vx vy vz].
  assert (G : forall lo hi u0 u1 u2 u3, lo <= u0 <= hi -> lo <= u1 <= hi -> lo <= u2 <= hi -> lo <= u3 <= hi ->
    lo <= a * u0 + b * u1 + c * u2 + d * u3 <= hi).
  { intros lo hi u0 u1 u2 u3 U0 U1 U2 U3. assert (Ed : d = 1 - a - b - c) by lra. clear Hs.
    assert (A1 : a * lo <= a * u0 <= a * hi) by nra. assert (A2 : b * lo <= b * u1 <= b * hi) by nra.
    assert (A3 : c * lo <= c * u2 <= c * hi) by nra. assert (A4 : d * lo <= d * u3 <= d * hi) by nra.
    assert (S1 : a * lo + b * lo + c * lo + d * lo = lo) by (rewrite Ed; ring).
    assert (S2 : a * hi + b * hi + c * hi + d * hi = hi) by (rewrite Ed; ring). lra. }
  destruct H0 as (X0 & Y0 & Z0), H1 as (X1 & Y1 & Z1), H2 as (X2 & Y2 & Z2), H3 as (X3 & Y3 & Z3).
  split; [|split]; apply G; assumption.
Qed.

Lemma point_inside (g : grid Rops) t j : sized g -> (j < 14)%nat -> in_cell g t (cell_point g t j).
Proof.
  intros (Hx & Hy & Hz) Hj. destruct t as [[x y] z]. unfold in_cell, cell_point, grid_point.
  do 14 (destruct j as [|j]; [cbn [nth cell_halves vx vy vz]; rewrite ?real_0, ?real_1, ?real_2; repeat split; nra|]). lia.
Qed.
Lemma middle_in (g : grid Rops) t : sized g -> in_cell g t (middle_of g t).
Proof.
  intros Hs. pose proof (middle_inside g t Hs) as H. destruct t as [[x y] z]. unfold in_cell_half_open, in_cell in * . lra.
Qed.

Section Point.
Variables (g : grid Rops) (bc : String.string) (pt : partition) (m : mesh Rops) (i : nat) (c : N).
Hypothesis B : built g bc pt m.
Hypothesis Hs : sized g.
Hypothesis L : local_to_global pt i c.
Let t := cell_idx_to_tuple (g_dims g) c.
Let v := g_dx g * g_dy g * g_dz g / 4.

(** Every facet weighs [v]. *)
Lemma facets_alike k : (k < 24)%nat -> exists fc, get_facet_coords m (N.of_nat i) (N.of_nat k) = Ok fc /\
  compute_volume fc (middle_of g t) = v /\
  let '(q0, q1, q2) := fc in in_cell g t q0 /\ in_cell g t q1 /\ in_cell g t q2.
Proof.
  intros Hk. eexists. split; [apply (mesh_facet_coords g bc pt m B i c k L Hk)|].
  pose proof (facet_determinant g t k Hk) as D. pose proof (indirect_lt k Hk) as Il. destruct (indirect k) as [[a b] e].
  destruct Il as (La & Lb & Le). cbv zeta in D |- * . split; [exact D|]. fold t.
  split; [|split]; apply point_inside; auto; lia.
Qed.

Lemma v_pos : 0 < v.
Proof. destruct Hs as (Hx & Hy & Hz). unfold v. apply Rmult_lt_0_compat; [repeat apply Rmult_lt_0_compat; assumption|lra]. Qed.

Lemma facet_picked (which : R) n : forall k pts, (k + n = 24)%nat -> (0 < n)%nat -> which <= 24 * v ->
  (k = 0%nat \/ real_of (N.of_nat k) * v < which) ->
  exists k' fc, (k <= k' < 24)%nat /\ get_facet_coords m (N.of_nat i) (N.of_nat k') = Ok fc /\
    pick_facet n m (N.of_nat i) (N.of_nat k) (middle_of g t) which (real_of (N.of_nat k) * v) pts = Ok fc /\
    which <= (real_of (N.of_nat k') + 1) * v /\ (k' = 0%nat \/ real_of (N.of_nat k') * v < which).
Proof.
  induction n as [|n IH]; intros k pts Hk Hn Hw H0; [lia|]. cbn [pick_facet].
  destruct (facets_alike k ltac:(lia)) as (fc & Ef & Ev & _). rewrite Ef. cbn [rbind]. rewrite Ev. cbn [fadd fle Rops].
  assert (Sk : real_of (N.of_nat k) * v + v = real_of (N.of_nat (S k)) * v).
  { rewrite Nnat.Nat2N.inj_succ, <- N.add_1_r, real_add, real_1. ring. }
  rewrite Sk. destruct (Rleb which (real_of (N.of_nat (S k)) * v)) eqn:E.
  - apply Rleb_iff in E. exists k, fc. split; [lia|]. split; [exact Ef|]. split; [reflexivity|]. split; [lra|exact H0].
  - apply Rleb_false in E. destruct n as [|n].
    + exfalso. assert (k = 23%nat) by lia. subst k. change (real_of (N.of_nat 24)) with 24 in E. lra.
    + rewrite <- (Nnat.Nat2N.inj_succ k). destruct (IH (S k) fc ltac:(lia) ltac:(lia) Hw) as (k' & fc' & A1 & A2 & A3 & A4 & A5); [right; exact E|].
      exists k', fc'. split; [lia|]. auto.
Qed.

(** The point sampled for a particle: facet [k] is chosen by the first draw. *)
Lemma point_sampled (p : particle Rops) :
  exists k q0 q1 q2 r p', (k < 24)%nat /\
    generate_coordinate_3dg p m (N.of_nat i) (g_dx g * g_dy g * g_dz g) = Ok (r, p') /\
    get_facet_coords m (N.of_nat i) (N.of_nat k) = Ok (q0, q1, q2) /\
    24 * next_draw p <= real_of (N.of_nat k) + 1 /\ (k = 0%nat \/ real_of (N.of_nat k) < 24 * next_draw p) /\
    in_tetrahedron q0 q1 q2 (middle_of g t) r /\ in_cell g t r.
Proof.
  unfold generate_coordinate_3dg. rewrite (mesh_position g bc pt m B i c L). cbn [rbind]. fold t.
  rewrite draw_next. pose proof (draw_unit p) as H0. set (r0 := next_draw p) in * .
  set (p1 := set_random_number_seed p _). pose proof v_pos as Hv. cbn [fmul flit f0 Rops].
  replace (Q2R (6 # 1)) with 6 by (unfold Q2R; cbn; lra).
  replace (r0 * 6 * (g_dx g * g_dy g * g_dz g)) with (24 * r0 * v) by (unfold v; rfield).
  destruct (facet_picked (24 * r0 * v) 24 0 (vzero, vzero, vzero) eq_refl ltac:(lia) ltac:(nra) (or_introl eq_refl))
    as (k & [[q0 q1] q2] & Hk & Ef & Epick & Hup & Hlo).
  change (N.of_nat 0) with 0%N in Epick. replace (real_of 0 * v) with 0 in Epick by (rewrite real_0; ring). rewrite Epick. cbn [rbind].
  rewrite draw_next. pose proof (draw_unit p1) as H1. set (r1 := next_draw p1) in * . set (p2 := set_random_number_seed p1 _).
  rewrite draw_next. pose proof (draw_unit p2) as H2. set (r2 := next_draw p2) in * . set (p3 := set_random_number_seed p2 _).
  rewrite draw_next. pose proof (draw_unit p3) as H3. set (r3 := next_draw p3) in * . set (p4 := set_random_number_seed p3 _).
  destruct (fold_barycentric r1 r2 r3) as [[[a b] e] f] eqn:E. destruct (fold_weights _ _ _ _ _ _ _ H1 H2 H3 E) as (Wa & Wb & We & Wf & Ws).
  destruct (facets_alike k ltac:(lia)) as ([[u0 u1] u2] & Ef' & _ & I0 & I1 & I2). rewrite Ef in Ef'. apply Ok_inj in Ef'. injection Ef' as <- <- <-.
  assert (T : in_tetrahedron q0 q1 q2 (middle_of g t) (vadd (vadd (vadd (vscale q0 a) (vscale q1 b)) (vscale q2 e)) (vscale (middle_of g t) f))).
  { exists a, b, e, f. repeat split; try assumption. unfold vadd, vscale. apply vec_eq; cbn [vx vy vz fadd fmul Rops]; rring. }
  exists k, q0, q1, q2. do 2 eexists. split; [lia|]. split; [reflexivity|]. split; [exact Ef|].
  split; [nra|]. split; [destruct Hlo as [Hlo|Hlo]; [left; exact Hlo|right; nra]|]. split; [exact T|].
  eapply tetrahedron_inside; [exact I0|exact I1|exact I2|apply middle_in; exact Hs|exact T].
Qed.
End Point.

(** ** The cells of a domain *)
Lemma nrange_nth n : forall lo i, (i < n)%nat -> nth_error (nrange lo n) i = Some (lo + N.of_nat i)%N.
Proof.
  induction n as [|n IH]; intros lo [|i] H; cbn [nrange nth_error]; try lia.
  - f_equal. lia.
  - rewrite IH by lia. f_equal. lia.
Qed.

Section Cells.
Variables (g : grid Rops) (bc : String.string) (pt : partition) (geoms : list (geometry_params Rops)) (mats : list (material Rops)) (dom : domain Rops).
Hypothesis D : built_domain g bc pt geoms mats dom.
Hypothesis Hs : sized g.

Lemma domain_mesh : built g bc pt (d_mesh dom).
Proof.
  destruct D as (Hp & E). unfold domain_new in E. rb E as boundary Eb. rb E as m Em. rb E as cs Ec.
  apply Ok_inj in E. subst dom. split; [exact Hp|]. exists boundary. auto.
Qed.

Lemma domain_states i cs : cell_at dom i cs -> cell_state_new (d_mesh dom) g geoms mats (N.of_nat i) = Ok cs.
Proof.
  intros H. destruct D as (Hp & E). unfold domain_new in E. rb E as boundary Eb. rb E as m Em. rb E as cells0 Ec.
  apply Ok_inj in E. subst dom. unfold cell_at in H. cbn [d_cells d_mesh] in * . apply rmap_Forall2 in Ec.
  assert (Hi : (i < length (me_geom m))%nat).
  { rewrite <- (nrange_length 0 (length (me_geom m))). clear - Ec H. revert i H. induction Ec; intros [|i] H0; cbn in * ; try discriminate; [lia|].
    specialize (IHEc _ H0). lia. }
  exact (Forall2_at _ _ _ _ _ _ Ec (nrange_nth _ 0 i Hi) H).
Qed.

Lemma domain_size : length (d_cells dom) = N.to_nat (total_cells (g_dims g)).
Proof.
  destruct (built_mesh_is _ _ _ _ domain_mesh) as (cs & boundary & Pc & _ & _ & M).
  assert (Lg : length (me_geom (d_mesh dom)) = N.to_nat (total_cells (g_dims g))).
  { pose proof (mi_planes _ _ _ _ M) as F2. apply Forall2_length in F2. rewrite <- F2, (Permutation_length Pc). apply nrange_length. }
  destruct D as (Hp & E). unfold domain_new in E. rb E as b' Eb'. rb E as m Em. rb E as cells0 Ec.
  apply Ok_inj in E. subst dom. cbn [d_cells d_mesh] in * . rewrite <- Lg. apply rmap_Forall2, Forall2_length in Ec. rewrite nrange_length in Ec. auto.
Qed.

Lemma cell_facts i cs : cell_at dom i cs -> exists c, local_to_global pt i c /\ (c < total_cells (g_dims g))%N /\
  cs_id cs = (c * 2 ^ 32)%N /\ cs_volume cs = g_dx g * g_dy g * g_dz g /\ cs_source_tally cs = 0%N /\ cs_number_density cs = 1.
Proof.
  intros H. pose proof domain_mesh as B. destruct (facets_exist _ _ _ _ B) as (Lc & Hg & _).
  assert (Hi : (i < length (me_conn (d_mesh dom)))%nat) by (rewrite Lc, <- domain_size; apply nth_error_Some; unfold cell_at in H; congruence).
  destruct (Hg i Hi) as (c & L). pose proof (global_lt _ _ _ _ B _ _ L) as Hc. pose proof (dims_ok _ _ _ _ B) as (P & Sm).
  exists c. split; [exact L|]. split; [exact Hc|]. apply domain_states in H. unfold cell_state_new in H.
  rewrite (mesh_position _ _ _ _ B i c L) in H. cbn [rbind] in H. rb H as name En. rb H as mat Emat.
  rewrite (mesh_volume _ _ _ _ B i c Hs L) in H. cbn [rbind] in H.
  destruct (center_located g c Hs P Sm Hc) as (r & Er & _ & Ew). rewrite center_is in Er. apply Ok_inj in Er. rewrite Er, Ew in H. cbn [rbind] in H.
  apply Ok_inj in H. subst cs. repeat split.
Qed.

Lemma global_inj i j c : local_to_global pt i c -> local_to_global pt j c -> i = j.
Proof.
  intros Li Lj. destruct D as (Hp & _). destruct (partitioned_cells _ _ Hp) as (cs & Pc & Nc).
  unfold local_to_global in * . rewrite (cells_keys _ _ Nc) in * .
  assert (Nd : NoDup cs) by (eapply Permutation_NoDup; [symmetry; exact Pc|]; unfold cells; apply nrange_nodup).
  rewrite NoDup_nth_error in Nd. apply Nd; [apply nth_error_Some; congruence|congruence].
Qed.

Lemma ids_of_domain : (total_cells (g_dims g) <= 2 ^ 32)%N -> ids_apart (d_cells dom).
Proof.
  intros Ht. split.
  - apply Forall_forall. intros cs H. apply In_nth_error in H. destruct H as (i & Hi). destruct (cell_facts i cs Hi) as (c & _ & Hc & E & _).
    exists c. split; [lia|exact E].
  - rewrite NoDup_nth_error. intros i j Hi E. rewrite map_length in Hi. rewrite !nth_error_map in E.
    destruct (nth_error (d_cells dom) i) as [a|] eqn:Ea; [|apply nth_error_None in Ea; lia].
    destruct (nth_error (d_cells dom) j) as [b|] eqn:Eb; [|discriminate]. cbn [option_map] in E. injection E as E.
    destruct (cell_facts i a Ea) as (c & Lc & _ & Ec & _), (cell_facts j b Eb) as (c' & Lc' & _ & Ec' & _).
    apply (global_inj i j c); [exact Lc|]. replace c with c'; [exact Lc'|]. rewrite Ec, Ec' in E. lia.
Qed.

Lemma tallies_of_domain : Forall (fun cs : cell_state Rops => cs_source_tally cs = 0%N) (d_cells dom).
Proof.
  apply Forall_forall. intros cs H. apply In_nth_error in H. destruct H as (i & Hi).
  destruct (cell_facts i cs Hi) as (c & _ & _ & _ & _ & E & _). exact E.
Qed.
End Cells.

(** ** The particles created by a run *)
Section Sourced.
Variables (g : grid Rops) (bc : String.string) (pt : partition) (geoms : list (geometry_params Rops)) (mats : list (material Rops)) (dom : domain Rops).
Hypothesis D : built_domain g bc pt geoms mats dom.
Hypothesis Hs : sized g.


Lemma particle_starts md w d i x p : d_mesh d = d_mesh dom -> d_global_domain d = 0%N -> (i < length (d_cells dom))%nat ->
  source_particle md w d (N.of_nat i) (g_dx g * g_dy g * g_dz g) x = Ok p -> starts_inside g pt md p /\ p_cell p = N.of_nat i.
Proof.
  intros Em Eg Hi E. pose proof (domain_mesh _ _ _ _ _ _ D) as B. destruct (facets_exist _ _ _ _ B) as (Lc & Hg & _).
  destruct (Hg i) as (c & L); [rewrite Lc, <- (domain_size _ _ _ _ _ _ D); exact Hi|].
  unfold source_particle in E. destruct (spawn_rn_seed x) as [s x']. rewrite Em in E. set (p0 := set_identifier _ _) in E.
  destruct (point_sampled _ _ _ _ _ _ B Hs L p0) as (k & q0 & q1 & q2 & r & p1 & _ & Ep & _ & _ & _ & _ & Hin). rewrite Ep in E. cbn [rbind] in E.
  assert (Hage : p_age p1 = 0).
  { unfold generate_coordinate_3dg in Ep. rb Ep as ce Ece. cbn [draw] in Ep. rb Ep as pts Epts. destruct (fold_barycentric _ _ _) as [[[a b] e] f].
    destruct pts as [[u0 u1] u2]. apply Ok_inj in Ep. injection Ep as _ <-. reflexivity. }
  set (p2 := set_weight _ _) in E. pose proof (isotropic_unit p2) as Hu. set (p3 := sample_isotropic p2) in * .
  assert (F3 : p_coordinate p3 = r /\ p_cell p3 = N.of_nat i /\ p_domain p3 = 0%N /\ p_age p3 = 0).
  { unfold p3, sample_isotropic, p2. cbn [draw p_coordinate p_cell p_domain p_age set_direction set_random_number_seed set_weight set_cell set_domain set_coordinate]. auto. }
  clearbody p3. rewrite draw_next in E. pose proof (draw_unit p3) as H1. unfold sample_num_mfp in E. rewrite draw_next in E. rewrite draw_next in E.
  match type of E with Ok (set_time_to_census _ (fmul _ (next_draw ?q))) = _ => pose proof (draw_unit q) as H2; set (r2 := next_draw q) in * end.
  apply Ok_inj in E. subst p. destruct F3 as (F1 & F2 & F4 & F5). split; [|exact F2].
  exists c, (next_draw p3), r2.
  cbn [p_coordinate p_cell p_direction p_kinetic_energy p_time_to_census p_domain p_age set_time_to_census set_random_number_seed set_num_mean_free_paths set_kinetic_energy].
  rewrite F1, F2, Nnat.Nat2N.id. repeat (split; [assumption || reflexivity|]). assumption.
Qed.

(** The cells of [d] have the volume of the grid. *)
Definition same_cells (d : domain Rops) : Prop :=
  d_mesh d = d_mesh dom /\ d_global_domain d = 0%N /\ length (d_cells d) = length (d_cells dom) /\
  Forall (fun cs : cell_state Rops => cs_volume cs = g_dx g * g_dy g * g_dz g) (d_cells d).

Lemma cells_start md w rates d : d_mesh d = d_mesh dom -> d_global_domain d = 0%N -> forall cells i cells' n ps,
  (i + length cells = length (d_cells dom))%nat -> Forall (fun cs : cell_state Rops => cs_volume cs = g_dx g * g_dy g * g_dz g) cells ->
  source_cells md w rates d (N.of_nat i) cells = Ok (cells', n, ps) ->
  Forall (starts_inside g pt md) ps /\ length cells' = length cells /\ Forall (fun cs : cell_state Rops => cs_volume cs = g_dx g * g_dy g * g_dz g) cells'.
Proof.
  intros Em Eg. induction cells as [|cs cells IH]; intros i cells' n ps Hi Hv E; cbn [source_cells] in E.
  - apply Ok_inj in E. injection E as <- <- <-. auto.
  - pose proof (Forall_inv Hv) as V. cbn beta in V. apply Forall_inv_tail in Hv. cbn [length] in Hi.
    rb E as k Ek. rb E as ps1 Eps. rb E as [[cells1 n1] ps2] Er. apply Ok_inj in E. injection E as <- <- <-.
    rewrite <- Nnat.Nat2N.inj_succ in Er. destruct (IH (S i) _ _ _ ltac:(lia) Hv Er) as (I1 & I2 & I3).
    split; [|split; [cbn [length]; congruence|constructor; [exact V|exact I3]]].
    apply Forall_app. split; [|exact I1]. apply rmap_Forall2 in Eps. rewrite V in Eps. clear - Eps Em Eg Hi D Hs.
    induction Eps as [|x p xs ps Ex _ IH]; constructor; [|exact IH]. eapply particle_starts; eauto. lia.
Qed.

Lemma now_starts md w u c u' c' new : same_cells (u_domain u) -> source_now md w u c = Ok (u', c') ->
  processing c' = processing c ++ new -> Forall (starts_inside g pt md) new /\ same_cells (u_domain u').
Proof.
  intros (E1 & E2 & E3 & E4) H Hn. unfold source_now in H. rb H as rates Er. rb H as [[cells n] ps] Ec. apply Ok_inj in H. injection H as <- <-.
  cbn [processing] in Hn. apply app_inv_head in Hn. subst ps.
  destruct (cells_start md w rates (u_domain u) E1 E2 _ 0 _ _ _ E3 E4 Ec) as (H1 & H2 & H3). split; [exact H1|].
  unfold same_cells, set_cells. cbn [u_domain d_mesh d_global_domain d_cells]. repeat split; auto. congruence.
Qed.

Lemma domain_same : same_cells dom.
Proof.
  assert (G : d_global_domain dom = 0%N).
  { destruct (built_mesh_is _ _ _ _ (domain_mesh _ _ _ _ _ _ D)) as (cs & boundary & _ & _ & _ & M).
    rewrite <- (mi_gid _ _ _ _ M). destruct D as (_ & E). unfold domain_new in E. rb E as b' Eb'. rb E as m Em. rb E as cells0 Ec.
    apply Ok_inj in E. subst dom. reflexivity. }
  repeat split; auto. apply Forall_forall. intros cs H. apply In_nth_error in H. destruct H as (i & Hi).
  destruct (cell_facts _ _ _ _ _ _ D Hs i cs Hi) as (c & _ & _ & _ & E & _). exact E.
Qed.

Lemma run_starts fuel cf md n s ps : run_sourced fuel cf md dom n s ps -> Forall (starts_inside g pt md) ps /\ same_cells (u_domain (s_unit s)).
Proof.
  induction 1 as [|n s ps s1 u c new s2 H IH Hsy Hso Hnew Hpr].
  - split; [constructor|]. exact domain_same.
  - destruct IH as (I1 & I2). rewrite <- (sync_cells _ _ _ _ Hsy) in I2. destruct (now_starts _ _ _ _ _ _ _ I2 Hso Hnew) as (N1 & N2).
    split; [apply Forall_app; auto|]. destruct (process_domain _ _ _ _ _ Hpr) as (u0 & c0 & E0 & Ed). rewrite Hso in E0. apply Ok_inj in E0. injection E0 as <- <-.
    rewrite Ed. exact N2.
Qed.

Lemma run_unique_built fuel cf md n s ps : run_sourced fuel cf md dom n s ps -> (total_cells (g_dims g) <= 2 ^ 32)%N ->
  Forall (fun cs : cell_state Rops => (cs_source_tally cs <= 2 ^ 32)%N) (d_cells (u_domain (s_unit s))) ->
  NoDup (map p_identifier ps) /\ NoDup (map p_random_number_seed ps).
Proof.
  intros H Ht Hc. eapply run_unique; [exact H| | |exact Hc].
  - eapply ids_of_domain; eauto.
  - eapply tallies_of_domain; eauto.
Qed.

Lemma first_source_inside md s1 u c new : prepare_cycle md (initial_sim md dom) = Ok s1 ->
  source_now md (s_source_weight s1) (s_unit s1) (s_cont s1) = Ok (u, c) -> processing c = processing (s_cont s1) ++ new ->
  Forall (starts_inside g pt md) new.
Proof.
  intros Hp Hsrc Hnew. refine (proj1 (now_starts md (s_source_weight s1) (s_unit s1) (s_cont s1) u c new _ Hsrc Hnew)).
  unfold prepare_cycle in Hp. rb Hp as w Ew. rb Hp as k Ek. apply Ok_inj in Hp. subst s1. exact domain_same.
Qed.
End Sourced.
