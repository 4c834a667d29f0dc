(** A whole run in exact arithmetic: the box of 2x3x4 cells, one particle created in each, ten times as many after splitting, and a time step
    so short that each of them reaches the end of the step inside of its cell (C04, C39, C59). *)
From Coq Require Import NArith ZArith QArith Qreals List Bool String Reals Lra Lia Psatz Permutation Sorted.
From Verif Require Import Float RealOps RngModel ParticleModel NuclearModel MeshTypes Balance TrackModel CycleModel GridModel MeshModel GridSpec GridLemmas
  FloodLemmas MeshFacts MeshSpec MeshTheorems WellBuilt TrackSpec TrackAccount CycleSpec CycleAccount PopSpec SortLemmas SourceLemmas PopLemmas SourceCount PopDemo SegmentSpec NearestLemmas FacetLemmas
  SegmentFacts SegmentDefined SegmentDemo CrossingLemmas NuclearSpec NuclearFacts NuclearReal GeomSpec GeomLemmas PlaneLemmas SourcePoint GeomDemo StaySpec StayLemmas StaySteps
  StayRun StayDemo.
Import ListNotations.
Local Open Scope R_scope.

(** ** Seeds *)

(** The integer behind the [k]-th draw after the state [s]. *)
Definition drawn (s : N) (k : nat) : N := round53 (Nat.iter k rng_next s).
(** The particle created with this seed is not on a face of its tetrahedron opposite to the middle of the cell, and its number of mean free
    paths is positive. *)
Definition good_seed (x : N) : bool :=
  let a := drawn (fst (spawn_rn_seed x)) in
  (negb (a 2%nat + a 3%nat =? two64) && negb (a 2%nat + a 3%nat + a 4%nat =? two64) && negb (a 2%nat + a 3%nat =? two64 + a 4%nat)
   && (0 <? a 8%nat) && (a 8%nat <? two64))%N.
Lemma good_draws x : good_seed x = true ->
  let a := drawn (fst (spawn_rn_seed x)) in
  (a 2%nat + a 3%nat <> two64)%N /\ (a 2%nat + a 3%nat + a 4%nat <> two64)%N /\ (a 2%nat + a 3%nat <> two64 + a 4%nat)%N /\
  (0 < a 8%nat)%N /\ (a 8%nat < two64)%N.
Proof.
  unfold good_seed. set (a := drawn (fst (spawn_rn_seed x))). clearbody a. cbv zeta. intros H.
  generalize (a 2%nat) (a 3%nat) (a 4%nat) (a 8%nat) H. clear. generalize two64. intros t u v w z H.
  repeat (apply andb_true_iff in H; destruct H as (H & ?)).
  repeat match goal with E : negb _ = true |- _ => apply negb_true_iff, N.eqb_neq in E | E : (_ <? _)%N = true |- _ => apply N.ltb_lt in E end.
  auto 6.
Qed.
Lemma box_seeds : forallb (fun c => good_seed (c * 2 ^ 32)%N) (nrange 0 24) = true.
Proof. vm_compute. reflexivity. Qed.

Definition W : R := IZR (Z.of_N two64).
Lemma W_pos : 0 < W. Proof. unfold W. apply IZR_lt. reflexivity. Qed.
Definition mu : R := / W.
Lemma mu_pos : 0 < mu. Proof. apply Rinv_0_lt_compat, W_pos. Qed.

Lemma step_up (k : Z) (x : R) : x * W = IZR k -> 0 <= x -> k <> 0%Z -> mu <= x.
Proof.
  intros E H0 Hk. pose proof W_pos. assert (K0 : (0 <= k)%Z) by (apply le_IZR; rewrite <- E; nra).
  assert (1 <= IZR k) by (apply IZR_le; lia). apply Rmult_le_reg_r with W; [exact W_pos|]. unfold mu. rewrite Rinv_l by lra. lra.
Qed.


Lemma center_weight (x y z : N) a b c d : (x <= two64)%N -> (y <= two64)%N -> (z <= two64)%N ->
  (x + y <> two64)%N -> (x + y + z <> two64)%N -> (x + y <> two64 + z)%N ->
  fold_barycentric (K := Rops) (IZR (Z.of_N x) / W) (IZR (Z.of_N y) / W) (IZR (Z.of_N z) / W) = (a, b, c, d) -> mu <= d.
Proof.
  intros Lx Ly Lz H1 H2 H3. unfold fold_barycentric. cbn [fadd fsub f1 flt Rops].
  set (r1 := IZR (Z.of_N x) / W). set (r2 := IZR (Z.of_N y) / W). set (r3 := IZR (Z.of_N z) / W). pose proof W_pos as HW.
  assert (E1 : r1 * W = IZR (Z.of_N x)) by (unfold r1; field; lra).
  assert (E2 : r2 * W = IZR (Z.of_N y)) by (unfold r2; field; lra).
  assert (E3 : r3 * W = IZR (Z.of_N z)) by (unfold r3; field; lra). clearbody r1 r2 r3.
  assert (EW : W = IZR (Z.of_N two64)) by reflexivity.
  destruct (Rltb 1 (r1 + r2)) eqn:F1; [apply Rltb_iff in F1|apply Rltb_false in F1].
  - destruct (Rltb 1 (1 - r2 + r3)) eqn:F2; [apply Rltb_iff in F2|apply Rltb_false in F2].
    + intros [= <- <- <- <-]. apply (step_up (Z.of_N z - Z.of_N y)); [rewrite minus_IZR, <- E2, <- E3; ring|lra|].
      intros C. assert (IZR (Z.of_N z - Z.of_N y) = 0) as C' by (rewrite C; reflexivity). rewrite minus_IZR, <- E2, <- E3 in C'. nra.
    + destruct (Rltb 1 (1 - r1 + (1 - r2) + r3)) eqn:F3; [apply Rltb_iff in F3|apply Rltb_false in F3]; intros [= <- <- <- <-].
      * apply (step_up (Z.of_N x + Z.of_N y - Z.of_N two64)); [rewrite minus_IZR, plus_IZR, <- E1, <- E2, <- EW; ring|lra|lia].
      * apply (step_up (Z.of_N x + Z.of_N y - Z.of_N two64 - Z.of_N z)); [rewrite !minus_IZR, plus_IZR, <- E1, <- E2, <- E3, <- EW; ring|lra|lia].
  - destruct (Rltb 1 (r2 + r3)) eqn:F2; [apply Rltb_iff in F2|apply Rltb_false in F2].
    + intros [= <- <- <- <-]. apply (step_up (Z.of_N y + Z.of_N z - Z.of_N two64)); [rewrite minus_IZR, plus_IZR, <- E2, <- E3, <- EW; ring|lra|].
      intros C. assert (IZR (Z.of_N y + Z.of_N z - Z.of_N two64) = 0) as C' by (rewrite C; reflexivity). rewrite minus_IZR, plus_IZR, <- E2, <- E3, <- EW in C'. nra.
    + destruct (Rltb 1 (r1 + r2 + r3)) eqn:F3; [apply Rltb_iff in F3|apply Rltb_false in F3]; intros [= <- <- <- <-].
      * apply (step_up (Z.of_N two64 - Z.of_N x - Z.of_N y)); [rewrite !minus_IZR, <- E1, <- E2, <- EW; ring|lra|lia].
      * apply (step_up (Z.of_N two64 - Z.of_N x - Z.of_N y - Z.of_N z)); [rewrite !minus_IZR, <- E1, <- E2, <- E3, <- EW; ring|lra|lia].
Qed.

(** ** Points that are not close to a face *)
Definition deep (g : grid Rops) (t : N * N * N) (e : R) (r : vec Rops) : Prop := forall f, (f < 6)%nat -> beyond g t f r <= - e.

Lemma deep_in g t e r : 0 <= e -> deep g t e r -> in_cell g t r.
Proof.
  intros He H. destruct t as [[x y] z]. unfold in_cell.
  pose proof (H 0%nat ltac:(lia)). pose proof (H 1%nat ltac:(lia)). pose proof (H 2%nat ltac:(lia)).
  pose proof (H 3%nat ltac:(lia)). pose proof (H 4%nat ltac:(lia)). pose proof (H 5%nat ltac:(lia)). unfold beyond in * . lra.
Qed.

Lemma between_planes (n k : N) (h x : R) : 0 < h -> real_of k * h < x < (real_of k + 1) * h -> x <> real_of n * h.
Proof.
  intros Hh (A & B) ->. assert (A' : real_of k < real_of n) by nra. assert (B' : real_of n < real_of k + 1) by nra.
  unfold real_of in * . cbn [fof_N Rops] in * . rewrite <- plus_IZR in B'. apply lt_IZR in A', B'. lia.
Qed.

Lemma deep_off_faces g t e r : sized g -> 0 < e -> deep g t e r -> off_faces g r.
Proof.
  intros (Hx & Hy & Hz) He H. destruct t as [[x y] z].
  pose proof (H 0%nat ltac:(lia)). pose proof (H 1%nat ltac:(lia)). pose proof (H 2%nat ltac:(lia)).
  pose proof (H 3%nat ltac:(lia)). pose proof (H 4%nat ltac:(lia)). pose proof (H 5%nat ltac:(lia)). unfold beyond in * .
  split; [|split]; intros (n & E); revert E.
  - apply between_planes with x; [exact Hx|lra].
  - apply between_planes with y; [exact Hy|lra].
  - apply between_planes with z; [exact Hz|lra].
Qed.

Lemma dot_outward (u : vec Rops) f : unit_vec u -> (f < 6)%nat -> dot u (outward f) <= 1.
Proof.
  intros Hu Hf. unfold unit_vec, dot in * . assert (vx u <= 1 /\ - 1 <= vx u /\ vy u <= 1 /\ - 1 <= vy u /\ vz u <= 1 /\ - 1 <= vz u).
  { set (a := vx u : R) in * . set (b := vy u : R) in * . set (c := vz u : R) in * . clearbody a b c. repeat split; nra. }
  do 6 (destruct f as [|f]; [cbn [outward vx vy vz]; lra|]). lia.
Qed.

Lemma deep_along g t e d r u : unit_vec u -> 0 <= d -> deep g t e r -> deep g t (e - d) (along r u d).
Proof.
  intros Hu Hd H f Hf. rewrite beyond_along. pose proof (H f Hf). pose proof (dot_outward u f Hu Hf). nra.
Qed.

Lemma mixed_deep (g : grid Rops) t q0 q1 q2 a b c d : in_cell g t q0 -> in_cell g t q1 -> in_cell g t q2 -> sized g ->
  0 <= a -> 0 <= b -> 0 <= c -> mu <= d -> a + b + c + d = 1 -> 2 <= g_dx g -> 2 <= g_dy g -> 2 <= g_dz g ->
  deep g t mu (vadd (vadd (vadd (vscale q0 a) (vscale q1 b)) (vscale q2 c)) (vscale (middle_of g t) d)).
Proof.
  destruct t as [[x y] z]. intros H0 H1 H2 (Sx & Sy & Sz) Ha Hb Hc Hd Hs Lx Ly Lz. unfold in_cell, middle_of, grid_point in * . pose proof mu_pos as Hm.
  assert (G : forall lo h u0 u1 u2 um, 2 <= h -> lo <= u0 <= lo + h -> lo <= u1 <= lo + h -> lo <= u2 <= lo + h -> um = lo + h / 2 ->
    lo + mu <= a * u0 + b * u1 + c * u2 + d * um <= lo + h - mu).
  { intros lo h u0 u1 u2 um Hh U0 U1 U2 ->. 
    assert (A1 : a * lo <= a * u0 <= a * (lo + h)) by nra. assert (A2 : b * lo <= b * u1 <= b * (lo + h)) by nra.
    assert (A3 : c * lo <= c * u2 <= c * (lo + h)) by nra.
    assert (S1 : a * lo + b * lo + c * lo + d * lo = lo) by (transitivity ((a + b + c + d) * lo); [ring|rewrite Hs; ring]).
    assert (S2 : a * (lo + h) + b * (lo + h) + c * (lo + h) + d * (lo + h) = lo + h) by (transitivity ((a + b + c + d) * (lo + h)); [ring|rewrite Hs; ring]).
    assert (D : mu <= d * (h / 2)) by nra.
    assert (S3 : d * (lo + h / 2) = d * lo + d * (h / 2)) by ring. assert (S4 : d * (lo + h / 2) = d * (lo + h) - d * (h / 2)) by field. lra. }
  destruct H0 as (X0 & Y0 & Z0), H1 as (X1 & Y1 & Z1), H2 as (X2 & Y2 & Z2).
  set (X := real_of x) in * . set (Y := real_of y) in * . set (Z := real_of z) in * .
  assert (GX := G (X * g_dx g) (g_dx g) (vx q0) (vx q1) (vx q2) ((X + / 2) * g_dx g) Lx ltac:(lra) ltac:(lra) ltac:(lra) ltac:(field)).
  assert (GY := G (Y * g_dy g) (g_dy g) (vy q0) (vy q1) (vy q2) ((Y + / 2) * g_dy g) Ly ltac:(lra) ltac:(lra) ltac:(lra) ltac:(field)).
  assert (GZ := G (Z * g_dz g) (g_dz g) (vz q0) (vz q1) (vz q2) ((Z + / 2) * g_dz g) Lz ltac:(lra) ltac:(lra) ltac:(lra) ltac:(field)).
  intros f Hf. unfold beyond, vadd, vscale. fold X Y Z. clearbody X Y Z.
  do 6 (destruct f as [|f]; [cbn [vx vy vz fadd fmul Rops]; lra|]). lia.
Qed.

(** ** The problem *)
Definition quiet_dt : R := / IZR (10 ^ 40).
Lemma quiet_dt_small : 0 < quiet_dt /\ quiet_dt * 30000000000 < mu / 4.
Proof.
  assert (H : 0 < IZR (10 ^ 40)) by (apply IZR_lt; reflexivity). split; [apply Rinv_0_lt_compat; exact H|].
  unfold quiet_dt, mu. pose proof W_pos. apply Rmult_lt_reg_r with (IZR (10 ^ 40) * W); [nra|].
  replace (/ IZR (10 ^ 40) * 30000000000 * (IZR (10 ^ 40) * W)) with (30000000000 * W) by (field; lra).
  replace (/ W / 4 * (IZR (10 ^ 40) * W)) with (IZR (10 ^ 40) / 4) by (field; lra).
  replace (30000000000 * W) with (IZR (30000000000 * Z.of_N two64)) by (rewrite mult_IZR; reflexivity).
  assert (IZR (30000000000 * Z.of_N two64 * 4) < IZR (10 ^ 40)) by (apply IZR_lt; reflexivity). rewrite mult_IZR in H1. lra.
Qed.

Definition quiet_nd : nuclear_data Rops := mkNuclear (K := Rops) 3 [] [(1 : R); (5 : R); (10 : R); (20 : R)].
Definition quiet_td : track_data Rops := mkTrackData (K := Rops) quiet_dt quiet_nd [mkMaterial (K := Rops) "fuel" (12 : R) []].
Definition quiet_md : mcdata Rops :=
  mkMcData (K := Rops) (mkSimParams (K := Rops) 240 3 1 (1 : R) (20 : R) (0 : R) true true true) (mkExecInfo Sequential 1 0 1)
    quiet_td [("fuel"%string, tiny_mat)].

Lemma ln_below (x : R) : 0 < x -> ln x <= x - 1.
Proof.
  intros H. pose proof (exp_ineq1_le (ln x)) as E. rewrite exp_ln in E by exact H. lra.
Qed.

Section Quiet.
Variables (pt : partition) (dom : domain Rops).
Hypothesis D : built_domain box "octant" pt box_geoms box_mats dom.

(** Far enough from the faces, with some time and some paths left, a usual energy. *)
Definition calm (p : particle Rops) : Prop :=
  (exists c, local_to_global pt (N.to_nat (p_cell p)) c /\ deep box (cell_idx_to_tuple (g_dims box) c) mu (p_coordinate p)) /\
  unit_vec (p_direction p) /\ 0 <= p_time_to_census p <= quiet_dt /\ mu <= p_num_mean_free_paths p /\ p_num_segments p = 0 /\
  1 <= p_kinetic_energy p <= 20 /\ is_valid p = true /\ (p_cell p < 24)%N.

Lemma calm_same p q : same_but_weight p q -> calm p -> calm q.
Proof. unfold same_but_weight. intros <-. auto. Qed.

Lemma box_sides : 2 <= g_dx box /\ 2 <= g_dy box /\ 2 <= g_dz box.
Proof. rewrite box_x, box_y, box_z. lra. Qed.

Lemma draw_is (p : particle Rops) : next_draw p = IZR (Z.of_N (round53 (rng_next (p_random_number_seed p)))) / W.
Proof. reflexivity. Qed.

Lemma next_drawn (p : particle Rops) s k : p_random_number_seed p = Nat.iter k rng_next s -> next_draw p = IZR (Z.of_N (drawn s (S k))) / W.
Proof. intros E. rewrite draw_is, E. reflexivity. Qed.

Lemma drawn_le s k : (drawn s (S k) <= two64)%N.
Proof. unfold drawn. cbn [Nat.iter]. apply RngLemmas.round53_le, RngLemmas.rng_next_lt. Qed.

Lemma sourced_calm w d i x p c : d_mesh d = d_mesh dom -> d_global_domain d = 0%N -> (i < List.length (d_cells dom))%nat ->
  local_to_global pt i c -> good_seed x = true ->
  source_particle quiet_md w d (N.of_nat i) (g_dx box * g_dy box * g_dz box) x = Ok p -> calm p.
Proof.
  intros Em Eg Hi L Hg E. pose proof (domain_mesh _ _ _ _ _ _ D) as B.
  destruct (particle_starts _ _ _ _ _ _ D box_sized quiet_md w d i x p Em Eg Hi E) as ((c' & t1 & t2 & L' & Hin & Hu & T1 & T2 & He & Ht & _) & Hc).
  assert (c' = c) by (rewrite Hc, Nnat.Nat2N.id in L'; unfold local_to_global in L, L'; congruence). subst c'.
  unfold source_particle in E. destruct (spawn_rn_seed x) as [s x'] eqn:Ex. rewrite Em in E. set (p0 := set_identifier _ _) in E.
  pose proof (good_draws x Hg) as (G1 & G2 & G3 & G4 & G5). rewrite Ex in G1, G2, G3, G4, G5. cbn [fst] in G1, G2, G3, G4, G5.
  unfold generate_coordinate_3dg in E. rewrite (mesh_position _ _ _ _ B i c L) in E. cbn [rbind] in E. set (t := cell_idx_to_tuple (g_dims box) c) in * .
  rewrite draw_next in E. set (p1 := set_random_number_seed p0 _) in E. rb E as [r p5] E5. rb E5 as fc Ef.
  rewrite draw_next in E5. set (p2 := set_random_number_seed p1 _) in E5. rewrite draw_next in E5. set (p3 := set_random_number_seed p2 _) in E5.
  rewrite draw_next in E5. set (p4 := set_random_number_seed p3 _) in E5.
  destruct (fold_barycentric _ _ _) as [[[a b] e] f] eqn:Efold. destruct fc as [[q0 q1] q2]. apply Ok_inj in E5.
  assert (Er : r = vadd (vadd (vadd (vscale q0 a) (vscale q1 b)) (vscale q2 e)) (vscale (middle_of box t) f)) by congruence.
  assert (E4 : p5 = p4) by congruence. clear E5. subst p5.
  assert (Hf : mu <= f /\ 0 <= a /\ 0 <= b /\ 0 <= e /\ a + b + e + f = 1).
  { destruct (fold_weights _ _ _ _ _ _ _ (draw_unit p1) (draw_unit p2) (draw_unit p3) Efold) as (Wa & Wb & We & Wf & Ws).
    split; [|auto]. rewrite (next_drawn p1 s 1 eq_refl), (next_drawn p2 s 2 eq_refl), (next_drawn p3 s 3 eq_refl) in Efold.
    eapply (center_weight (drawn s 2) (drawn s 3) (drawn s 4)); [apply drawn_le|apply drawn_le|apply drawn_le|exact G1|exact G2|exact G3|exact Efold]. }
  destruct Hf as (Hf & Wa & Wb & We & Ws).
  assert (Hq : in_cell box t q0 /\ in_cell box t q1 /\ in_cell box t q2).
  { assert (P : forall n k which cur pts, (k + n = 24)%nat -> (0 < n)%nat ->
      pick_facet n (d_mesh dom) (N.of_nat i) (N.of_nat k) (middle_of box t) which cur pts = Ok (q0, q1, q2) -> in_cell box t q0 /\ in_cell box t q1 /\ in_cell box t q2).
    { clear - B L. induction n as [|n IH]; intros k which cur pts Hk Hn H; [lia|]. cbn [pick_facet] in H.
      destruct (facets_alike _ _ _ _ _ _ B box_sized L k ltac:(lia)) as (fc & Efc & _ & Hfc). rewrite Efc in H. cbn [rbind] in H.
      destruct (fle which _); [apply Ok_inj in H; subst fc; exact Hfc|]. destruct n as [|n]; [cbn [pick_facet] in H; apply Ok_inj in H; subst fc; exact Hfc|].
      rewrite <- Nnat.Nat2N.inj_succ in H. eapply (IH (S k)); [lia|lia|exact H]. }
    apply (P 24%nat 0%nat _ _ _ eq_refl ltac:(lia) Ef). }
  destruct Hq as (Q0 & Q1 & Q2). destruct box_sides as (S1 & S2 & S3).
  assert (Hdeep : deep box t mu r) by (rewrite Er; apply mixed_deep; auto using box_sized).
  set (p6 := set_weight _ _) in E.
  assert (F6 : p_coordinate (sample_isotropic p6) = r /\ p_num_segments (sample_isotropic p6) = 0 /\ is_valid (sample_isotropic p6) = true /\
     p_random_number_seed (sample_isotropic p6) = Nat.iter 6 rng_next s) by abstract (repeat split).
  set (p7 := sample_isotropic p6) in * . clearbody p7. destruct F6 as (F1 & F2 & F3 & F4).
  rewrite draw_next in E. unfold sample_num_mfp in E. rewrite draw_next in E. rewrite draw_next in E.
  match type of E with context [fmul (fneg f1) (fln (next_draw ?q))] => set (p8 := q) in * end.
  assert (F8 : p_random_number_seed p8 = Nat.iter 7 rng_next s) by abstract (unfold p8; cbn [p_random_number_seed set_kinetic_energy set_random_number_seed]; rewrite F4; reflexivity).
  assert (Hn : mu <= (fmul (fneg f1) (fln (next_draw p8)) : F Rops)).
  { rewrite (next_drawn p8 s 7 F8).
    cbn [fmul fneg f1 fln Rops]. set (k := Z.of_N (drawn s 8)). assert (Hk : (1 <= k <= Z.of_N two64 - 1)%Z) by (unfold k; lia). clearbody k.
    pose proof W_pos as HW. assert (K1 : 1 <= IZR k) by (apply IZR_le; lia). assert (K2 : IZR k <= W - 1).
    { unfold W. rewrite <- minus_IZR. apply IZR_le. lia. }
    assert (P : 0 < IZR k / W) by (apply Rmult_lt_0_compat; [lra|apply Rinv_0_lt_compat; exact HW]).
    pose proof (ln_below (IZR k / W) P) as Hl. assert (Q : IZR k / W <= 1 - mu).
    { unfold mu. apply Rmult_le_reg_r with W; [exact HW|]. unfold Rdiv. rewrite Rmult_assoc, Rinv_l by lra. rewrite Rmult_minus_distr_r, Rinv_l by lra. lra. }
    lra. }
  assert (F9 : p_coordinate p = r /\ p_num_segments p = 0 /\ is_valid p = true /\ p_num_mean_free_paths p = (fmul (fneg f1) (fln (next_draw p8)) : F Rops)).
  { abstract (apply Ok_inj in E; subst p; unfold p8; repeat split; assumption). }
  destruct F9 as (A1 & A2 & A3 & A4). split; [exists c; rewrite Hc, Nnat.Nat2N.id, A1; auto|]. split; [exact Hu|]. destruct quiet_dt_small as (Q & _).
  split; [rewrite Ht; change (0 <= quiet_dt * t2 <= quiet_dt); nra|]. split; [rewrite A4; exact Hn|]. split; [exact A2|].
  split; [rewrite He; change (1 <= t1 * (20 - 1) + 1 <= 20); lra|]. split; [exact A3|].
  rewrite Hc. rewrite (domain_size _ _ _ _ _ _ D) in Hi. change (N.to_nat (total_cells (g_dims box))) with 24%nat in Hi. lia.
Qed.
End Quiet.
