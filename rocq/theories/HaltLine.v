(** The bounds on the number of segments (C67). *)
From Coq Require Import NArith ZArith QArith List Bool Reals Lra Lia Psatz.
From Verif Require Import Float RealOps RngModel RngLemmas ParticleModel NuclearModel MeshTypes Balance TrackModel CycleModel GridModel MeshModel GridSpec MeshSpec MeshTheorems
  TrackSpec TrackAccount PopSpec SegmentSpec NearestLemmas FacetLemmas SegmentFacts CrossingLemmas NuclearSpec OutcomeLemmas GeomSpec GeomLemmas PlaneLemmas
  StaySpec StayLemmas StaySteps StayRun SpeedSpec SpeedFacts LifeSpec HaltSpec HaltRng HaltGap HaltSteps HaltWays.
Import ListNotations.
Local Open Scope R_scope.
Local Opaque rng_next spawn_rn_seed huge tiny.

Lemma prepared_more (td : track_data Rops) (p q : particle Rops) : prepare_particle td p = Ok q -> p_cell q = p_cell p /\
  p_direction q = p_direction p /\ p_random_number_seed q = p_random_number_seed p.
Proof. unfold prepare_particle. intros H. rb H as gr Eg. apply Ok_inj in H. subst q. destruct (fle _ _); repeat split. Qed.

Lemma children_clock td dom (p : particle Rops) e keep p' nx : seg_step td dom p e keep p' nx -> Forall (fun q : particle Rops => p_time_to_census q = p_time_to_census p') nx.
Proof.
  intros H. inversion H as [? xs p1 cs cur p2 cfuel r mat n p3 ? gr ? Ho p1' Hcs Hcur Hpick Hmat Hcol Hg Hp'|? xs p1 conn fa p2 ? Ho p1' Hconn Hfa Hev Hm|? xs p1 Ho]; subst; [|constructor|constructor].
  destruct (collision_clock _ _ _ _ _ _ Hcol) as (C1 & C2). eapply Forall_impl; [|exact C2]. intros q Hq. unfold clock in Hq, C1.
  destruct (1 <=? n)%N; cbn [p_time_to_census set_energy_group set_species]; congruence.
Qed.

Section Line.
Variables (g : grid Rops) (bc : String.string) (pt : partition) (td : track_data Rops) (dom : domain Rops) (X : R).
Hypothesis B : built g bc pt (d_mesh dom).
Hypothesis Hs : sized g.
Hypothesis Hfit : fits g.
Hypothesis Hheavy : heavy td.
Hypothesis Hdt : 0 <= td_dt td.
Hypothesis Hx : no_denser td dom X.
Hypothesis HX : 1 <= X.

Definition ready (p : particle Rops) : Prop := flying g pt p /\ 0 < p_kinetic_energy p.
Notation fine := (regular g).

(** From the start of a segment to that of the next: the particle itself, or one that it created. *)
Inductive link : particle Rops -> happening -> particle Rops -> Prop :=
| link_on : forall p e p1 nx, seg_step td dom p e true p1 nx ->
    cell_cross_section td dom (p_cell p) (p_energy_group p) = Ok (p_total_cross_section p1) -> link p (Flew p e p1) p1
| link_child : forall p e keep p1 nx c c', seg_step td dom p e keep p1 nx ->
    cell_cross_section td dom (p_cell p) (p_energy_group p) = Ok (p_total_cross_section p1) ->
    In c nx -> prepare_particle td c = Ok c' -> link p (Flew p e p1) c'.

Lemma line_links p hs q : line td dom p hs q -> match hs with [] => p = q | h :: hs => exists r, link p h r /\ line td dom r hs q end.
Proof. intros H. inversion H; subst; [reflexivity| |]; eexists; (split; [|eassumption]); [eapply link_on|eapply link_child]; eauto. Qed.

Lemma link_ready p h r : link p h r -> ready p -> fine h ->
  ready r /\ 0 <= flight h /\ flight h <= light_speed (K := Rops) * (p_time_to_census p - p_time_to_census r).
Proof.
  assert (L0 : 0 <= light_speed (K := Rops)) by (rewrite light_R; lra).
  intros H (Hf & He) (Hc & Hi). inversion H as [? e p1 nx Hst Hxs|? e keep p1 nx c ? Hst Hxs Hin Hp]; subst.
  - destruct (step_home g bc pt dom B Hs Hfit _ _ _ _ _ _ Hst Hf) as (_ & A). destruct (A Hc) as (A1 & _). specialize (A1 (or_introl eq_refl)).
    pose proof (seg_clock_exact _ _ _ _ _ _ _ Hst (proj2 (proj2 Hf)) Hheavy He) as Ec. destruct (Forall_inv Ec) as (Ea & He1).
    pose proof (step_flew g bc pt dom B Hs Hfit _ _ _ _ _ _ Hst Hf He) as Fl. destruct (flew_within _ _ He (Forall_inv Fl)) as (W1 & W2).
    split; [split; assumption|]. split; [apply sqrt_pos|]. unfold age_at_census in Ea. cbn [flight]. eapply Rle_trans; [exact W2|]. apply Req_le. f_equal.
    change (F Rops) with R in * . lra.
  - destruct (step_home g bc pt dom B Hs Hfit _ _ _ _ _ _ Hst Hf) as (_ & A). destruct (A Hc) as (_ & A1).
    pose proof (proj1 (Forall_forall _ _) A1 _ Hin) as Fc.
    pose proof (seg_clock_exact _ _ _ _ _ _ _ Hst (proj2 (proj2 Hf)) Hheavy He) as Ec. destruct (Forall_inv Ec) as (Ea & _).
    pose proof (proj2 (proj1 (Forall_forall _ _) (Forall_inv_tail Ec) _ Hin)) as Hec. cbn in Hec.
    pose proof (step_flew g bc pt dom B Hs Hfit _ _ _ _ _ _ Hst Hf He) as Fl. destruct (flew_within _ _ He (Forall_inv Fl)) as (W1 & W2).
    pose proof (proj1 (Forall_forall _ _) (children_clock _ _ _ _ _ _ _ Hst) _ Hin) as Hck. cbn in Hck.
    destruct (prepared_same _ _ _ Hp) as (E1 & _ & _ & _ & E5).
    split; [split; [exact (prepared_flies g pt _ _ _ Hdt Hp Fc)|rewrite E1; exact Hec]|]. split; [apply sqrt_pos|].
    assert (T : p_time_to_census r = p_time_to_census p1).
    { rewrite E5, Hck. destruct e as [k n|fe|]; [|inversion Hst; subst; contradiction|inversion Hst; subst; contradiction].
      cbn [in_time] in Hi. assert (Rl : Rleb (p_time_to_census p1) 0 = false) by (apply Rleb_false; exact Hi). rewrite Rl. reflexivity. }
    rewrite T. unfold age_at_census in Ea. cbn [flight]. eapply Rle_trans; [exact W2|]. apply Req_le. f_equal. change (F Rops) with R in * . lra.
Qed.

Lemma link_ways p h r c : link p h r -> ready p -> local_to_global pt (N.to_nat (p_cell p)) c -> at_facet h = true ->
  exists f c', (f < 6)%nat /\ local_to_global pt (N.to_nat (p_cell r)) c' /\ forall a,
    let before := gap g (cell_idx_to_tuple (g_dims g) c) a (p_coordinate p) (p_direction p) in
    let after := gap g (cell_idx_to_tuple (g_dims g) c') a (p_coordinate r) (p_direction r) in
    if match a, face_axis f with AX, AX | AY, AY | AZ, AZ => true | _, _ => false end
    then before <= flight h /\ after = side g a else before - flight h <= after.
Proof.
  intros H (Hf & He) L Ha. inversion H as [? e p1 nx Hst Hxs|? e keep p1 nx d ? Hst Hxs Hin Hp]; subst.
  - destruct (step_way g bc pt dom B Hs Hfit _ _ _ _ _ _ _ Hst Hf L) as (_ & A). destruct e as [k n|fe|]; try discriminate Ha.
    destruct (A eq_refl) as (f & c' & A1 & A2 & A3). exists f, c'. split; [exact A1|]. split; [exact A2|]. exact A3.
  - destruct e as [k n|fe|]; try discriminate Ha. inversion Hst; subst. contradiction.
Qed.

Lemma link_optics p h r : link p h r -> ready p ->
  (at_facet h = true \/ at_collision h = true) /\
  (at_collision h = true -> fresh r /\ forall n, paths_left p n -> n <= X * flight h) /\
  (at_collision h = false -> forall n, paths_left p n -> exists n', paths_left r n' /\ n - X * flight h <= n').
Proof.
  intros H (Hf & He). inversion H as [? e p1 nx Hst Hxs|? e keep p1 nx d ? Hst Hxs Hin Hp]; subst; pose proof (step_optics g bc pt dom B Hs Hfit _ _ _ _ _ _ X Hst Hf (Hx _ _ _ Hxs) HX) as A;
    cbv zeta in A; destruct e as [k n|fe|]; cbn [at_facet at_collision].
  - destruct A as (A1 & A2 & _). split; [auto|]. split; [intros _; split; auto|discriminate].
  - split; [auto|]. split; [discriminate|]. intros _. apply A.
  - destruct A as (_ & A). discriminate A.
  - destruct A as (A1 & _ & A3). split; [auto|]. split; [|discriminate]. intros _. split; [|exact A1].
    destruct (proj1 (Forall_forall _ _) A3 _ Hin) as (F1 & F2). destruct (prepared_same _ _ _ Hp) as (_ & _ & _ & E4 & _). destruct (prepared_more _ _ _ Hp) as (_ & _ & E).
    split; [rewrite E4, E; exact F1|rewrite E; exact F2].
  - destruct A as (-> & _). contradiction.
  - destruct A as (-> & _). contradiction.
Qed.

(** ** The distance *)

Lemma line_path hs : forall p q, line td dom p hs q -> ready p -> Forall fine hs ->
  ready q /\ 0 <= path hs /\ path hs <= light_speed (K := Rops) * (p_time_to_census p - p_time_to_census q).
Proof.
  induction hs as [|h hs IH]; intros p q H Hr Hf; apply line_links in H.
  - subst q. split; [exact Hr|]. cbn [path]. split; [lra|]. apply Req_le. set (a := p_time_to_census p). clearbody a. change (F Rops) with R in * . ring.
  - destruct H as (r & Hl & H). destruct (link_ready _ _ _ Hl Hr (Forall_inv Hf)) as (R1 & R2 & R3). destruct (IH _ _ H R1 (Forall_inv_tail Hf)) as (I1 & I2 & I3).
    split; [exact I1|]. cbn [path]. split; [lra|]. set (c := light_speed (K := Rops)) in * . clearbody c. change (F Rops) with R in * . lra.
Qed.

(** ** The collisions *)

Lemma line_collisions hs : forall p q n, line td dom p hs q -> ready p -> Forall fine hs -> paths_left p n ->
  / 2 ^ 53 * INR (collisions hs) <= X * path hs + / 2 ^ 53 - Rmin n (/ 2 ^ 53).
Proof.
  set (th := / 2 ^ 53). assert (T : 0 < th) by (unfold th; apply Rinv_0_lt_compat, pow_lt; lra). assert (Tf : forall q n, fresh q -> paths_left q n -> th <= n) by (exact fresh_paths). clearbody th.
  induction hs as [|h hs IH]; intros p q n H Hr Hf Hn; apply line_links in H.
  - unfold collisions. cbn [filter length INR path]. pose proof (Rmin_r n th). lra.
  - destruct H as (r & Hl & H). destruct (link_ready _ _ _ Hl Hr (Forall_inv Hf)) as (R1 & R2 & _). destruct (link_optics _ _ _ Hl Hr) as (_ & O1 & O2).
    destruct (paths_exist r) as (nr & Hnr). cbn [path]. unfold collisions. cbn [filter]. destruct (at_collision h).
    + destruct (O1 eq_refl) as (O3 & O4). specialize (O4 _ Hn). pose proof (IH _ _ _ H R1 (Forall_inv_tail Hf) Hnr) as I. pose proof (Tf _ _ O3 Hnr) as Hth.
      fold (collisions hs) in * . cbn [length]. rewrite S_INR. fold (collisions hs). rewrite Rmin_right in I by exact Hth. pose proof (Rmin_l n th). lra.
    + destruct (O2 eq_refl _ Hn) as (n' & O3 & O4). pose proof (IH _ _ _ H R1 (Forall_inv_tail Hf) O3) as I. fold (collisions hs).
      assert (0 <= X * flight h) by nra. assert (Rmin n th - X * flight h <= Rmin n' th); [|lra].
      apply Rmin_glb; [pose proof (Rmin_l n th); lra|pose proof (Rmin_r n th); lra].
Qed.

Lemma line_most_collisions hs p q : line td dom p hs q -> ready p -> Forall fine hs -> INR (collisions hs) <= most_collisions X (path hs).
Proof.
  intros H Hr Hf. destruct (paths_exist p) as (n & Hn). pose proof (line_collisions _ _ _ _ H Hr Hf Hn) as A. unfold most_collisions.
  assert (Pn : 0 <= n) by (exact (paths_nonneg _ _ (proj2 (proj2 (proj1 Hr))) Hn)).
  assert (T : 0 < 2 ^ 53) by (apply pow_lt; lra). set (k := 2 ^ 53) in * . clearbody k. assert (Tk : 0 < / k) by (apply Rinv_0_lt_compat; exact T).
  assert (M : 0 <= Rmin n (/ k)) by (apply Rmin_glb; lra).
  assert (B1 : / k * INR (collisions hs) <= X * path hs + / k) by lra. apply (Rmult_le_compat_l k) in B1; [|lra].
  rewrite <- Rmult_assoc, Rinv_r, Rmult_1_l in B1 by lra. rewrite Rmult_plus_distr_l, Rinv_r in B1 by lra. lra.
Qed.

(** ** The faces *)

Definition axis_is (a b : axis) : bool := match a, b with AX, AX | AY, AY | AZ, AZ => true | _, _ => false end.

Lemma line_crossings hs : forall p q c, line td dom p hs q -> ready p -> Forall fine hs -> local_to_global pt (N.to_nat (p_cell p)) c ->
  exists n : axis -> nat, crossings hs = (n AX + n AY + n AZ)%nat /\ forall a,
    INR (n a) * side g a <= path hs + INR (collisions hs) * side g a + side g a - gap g (cell_idx_to_tuple (g_dims g) c) a (p_coordinate p) (p_direction p).
Proof.
  assert (Range : forall p c a, ready p -> local_to_global pt (N.to_nat (p_cell p)) c -> 0 <= gap g (cell_idx_to_tuple (g_dims g) c) a (p_coordinate p) (p_direction p) <= side g a).
  { intros p c a (((c0 & L0 & Hin & _) & _) & _) L. unfold local_to_global in L, L0. rewrite L in L0. injection L0 as <-. apply gap_range. exact Hin. }
  induction hs as [|h hs IH]; intros p q c H Hr Hf L; apply line_links in H.
  - exists (fun _ => 0%nat). split; [reflexivity|]. intros a. unfold collisions. cbn [filter length INR path]. pose proof (Range _ _ a Hr L). lra.
  - destruct H as (r & Hl & H). destruct (link_ready _ _ _ Hl Hr (Forall_inv Hf)) as (R1 & R2 & _). cbn [path]. destruct (link_optics _ _ _ Hl Hr) as (Hkind & _).
    destruct (at_facet h) eqn:Ef.
    + destruct (link_ways _ _ _ _ Hl Hr L Ef) as (f & c' & F6 & L' & G). destruct (IH _ _ _ H R1 (Forall_inv_tail Hf) L') as (n & En & Hn).
      exists (fun a => ((if axis_is a (face_axis f) then 1 else 0) + n a)%nat). split.
      * unfold crossings in * . cbn [filter]. rewrite Ef. cbn [length]. rewrite En. destruct (face_axis f); cbn [axis_is]; lia.
      * intros a. specialize (G a). specialize (Hn a). fold (axis_is a (face_axis f)) in G. unfold collisions in * . cbn [filter].
        assert (Ec : at_collision h = false) by (destruct h as [|? [ | | ] ?]; [reflexivity|discriminate Ef|reflexivity|reflexivity]). rewrite Ec.
        rewrite plus_INR. destruct (axis_is a (face_axis f)); cbn [INR]; cbv zeta in G.
        -- destruct G as (G1 & G2). rewrite G2 in Hn. lra.
        -- lra.
    + destruct Hkind as [Hkind|Ec]; [discriminate Hkind|]. destruct (proj1 (proj1 R1)) as (c' & L' & _). destruct (IH _ _ _ H R1 (Forall_inv_tail Hf) L') as (n & En & Hn).
      exists n. split; [unfold crossings in * ; cbn [filter]; rewrite Ef; exact En|]. intros a. specialize (Hn a). unfold collisions in * . cbn [filter]. rewrite Ec. cbn [length]. rewrite S_INR.
      pose proof (Range _ _ a Hr L). pose proof (Range _ _ a R1 L'). lra.
Qed.

Lemma line_most_crossings hs p q : line td dom p hs q -> ready p -> Forall fine hs -> INR (crossings hs) <= cells_within g (path hs) + 3 * (INR (collisions hs) + 1).
Proof.
  intros H Hr Hf. destruct (proj1 (proj1 Hr)) as (c & L & Hin & _). destruct (line_crossings _ _ _ _ H Hr Hf L) as (n & En & Hn). rewrite En, !plus_INR. unfold cells_within.
  assert (A : forall a, INR (n a) <= path hs / side g a + (INR (collisions hs) + 1)).
  { intros a. specialize (Hn a). pose proof (gap_range g _ a _ (p_direction p) Hin) as Gr.
    assert (Sa : 0 < side g a) by (destruct Hs as (? & ? & ?); destruct a; assumption).
    apply Rmult_le_reg_r with (side g a); [exact Sa|]. unfold Rdiv. rewrite Rmult_plus_distr_r, (Rmult_assoc (path hs)), Rinv_l by lra. lra. }
  pose proof (A AX) as A1. pose proof (A AY) as A2. pose proof (A AZ) as A3. cbn [side] in A1, A2, A3. change (F Rops) with R in * . lra.
Qed.

(** ** All the segments *)

Lemma line_kinds hs : forall p q, line td dom p hs q -> ready p -> Forall fine hs -> length hs = (crossings hs + collisions hs)%nat.
Proof.
  induction hs as [|h hs IH]; intros p q H Hr Hf; [reflexivity|]. apply line_links in H. destruct H as (r & Hl & H).
  destruct (link_ready _ _ _ Hl Hr (Forall_inv Hf)) as (R1 & _). destruct (link_optics _ _ _ Hl Hr) as (Hk & _). specialize (IH _ _ H R1 (Forall_inv_tail Hf)).
  unfold crossings, collisions in * . cbn [filter length]. rewrite IH. destruct h as [|? [ | | ] ?]; cbn [at_facet at_collision] in * ; cbn [length]; try lia; destruct Hk; discriminate.
Qed.

Theorem line_bound hs p q : line td dom p hs q -> ready p -> Forall fine hs -> INR (length hs) <= most_segments g X (p_time_to_census p).
Proof.
  intros H Hr Hf. rewrite (line_kinds _ _ _ H Hr Hf), plus_INR. pose proof (line_most_crossings _ _ _ H Hr Hf) as A. pose proof (line_most_collisions _ _ _ H Hr Hf) as C.
  destruct (line_path _ _ _ H Hr Hf) as (Hq & P0 & P1). unfold most_segments. cbv zeta.
  assert (L0 : 0 <= light_speed (K := Rops)) by (rewrite light_R; lra). pose proof (proj1 (proj2 (proj2 (proj1 Hq)))) as Tq.
  assert (P2 : path hs <= light_speed (K := Rops) * p_time_to_census p).
  { eapply Rle_trans; [exact P1|]. apply Rmult_le_compat_l; [exact L0|]. change (F Rops) with R in * . lra. }
  clear P1 Tq L0. set (D := light_speed (K := Rops) * p_time_to_census p) in * . clearbody D. change (F Rops) with R in * .
  assert (Cm : most_collisions X (path hs) <= most_collisions X D).
  { unfold most_collisions. apply Rplus_le_compat_l, Rmult_le_compat_l; [apply pow_le; lra|]. apply Rmult_le_compat_l; lra. }
  assert (Cw : cells_within g (path hs) <= cells_within g D).
  { destruct Hs as (S1 & S2 & S3). unfold cells_within, Rdiv. repeat apply Rplus_le_compat; (apply Rmult_le_compat_r; [apply Rlt_le, Rinv_0_lt_compat; assumption|exact P2]). }
  lra.
Qed.

End Line.
