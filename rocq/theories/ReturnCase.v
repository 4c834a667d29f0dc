(** The program without an input file, on a box of 2x3x4 cells, for one short time step on four threads (C68): one particle starts in each cell and they all fly on to the
    end of the step. *)
From Coq Require Import NArith ZArith QArith Qreals String List Bool Reals Lra Lia Psatz.
From Flocq Require Import Core.Raux.
From Verif Require Import Float RealOps RngModel ParticleModel NuclearModel MeshTypes Balance TrackModel CycleModel GridModel MeshModel GridSpec MeshFacts MeshSpec MeshTheorems TrackSpec TrackAccount CycleSpec
  ScheduleSpec ScheduleFacts RangeSpec RunAgree PopSpec SegmentSpec SegmentFacts NuclearSpec NuclearFacts NuclearReal SourceLemmas PopLemmas SourceCount CrossingLemmas
  GeomSpec GeomLemmas PlaneLemmas SourcePoint InitReal WellBuilt ParamModel ParamSpec SetUpSpec IntegrityLemmas SetUpReal ParamDemo GeomDemo SafeSpec SafeRun SafeBuilt SafeReal
  StaySpec StayLemmas StaySteps StayRun QuietRun QuietSteps SpeedSpec SpeedFacts HaltSpec HaltGap HaltSteps HaltWays HaltLine HaltRounds ReturnSpec ReturnRounds ReturnRun ReturnProgram.
Import ListNotations.
Local Open Scope R_scope.
Local Opaque rng_next spawn_rn_seed huge tiny.

(** ** Particles that fly on *)
Section Calm.
Variables (g : grid Rops) (bc : String.string) (pt : partition) (geoms : list (geometry_params Rops)) (mats : list (material Rops)) (dom : domain Rops).
Variables (md : mcdata Rops) (X : R).
Notation td := (mc_track md).
Hypothesis D : built_domain g bc pt geoms mats dom.
Hypothesis Hs : sized g.
Hypothesis Hfit : fits g.
Hypothesis Hsides : 2 <= g_dx g /\ 2 <= g_dy g /\ 2 <= g_dz g.
Hypothesis Hh : heavy td.
Hypothesis Hdt : 0 < td_dt td.
Hypothesis Hshort : 30000000000 * td_dt td * X < mu.
Hypothesis HX : 1 <= X.
Hypothesis He0 : 0 < sp_e_min (mc_params md) <= sp_e_max (mc_params md).

Definition calm (p : particle Rops) : Prop :=
  (exists c, local_to_global pt (N.to_nat (p_cell p)) c /\ deep g (cell_idx_to_tuple (g_dims g) c) mu (p_coordinate p)) /\
  unit_vec (p_direction p) /\ 0 <= p_time_to_census p <= td_dt td /\ mu <= p_num_mean_free_paths p /\ 0 < p_kinetic_energy p.

Lemma calm_same p q : same_but_weight p q -> calm p -> calm q.
Proof. unfold same_but_weight. intros <-. auto. Qed.

Lemma sourced_calm w d i x p c : d_mesh d = d_mesh dom -> d_global_domain d = 0%N -> (i < List.length (d_cells dom))%nat ->
  local_to_global pt i c -> good_seed x = true ->
  source_particle md w d (N.of_nat i) (g_dx g * g_dy g * g_dz g) x = Ok p -> calm p.
Proof.
  intros Em Eg Hi L Hg E. pose proof (domain_mesh _ _ _ _ _ _ D) as B.
  destruct (particle_starts _ _ _ _ _ _ D Hs md w d i x p Em Eg Hi E) as ((c' & t1 & t2 & L' & Hin & Hu & T1 & T2 & He & Ht & _) & Hc).
  assert (c' = c) by (rewrite Hc, Nnat.Nat2N.id in L'; unfold local_to_global in L, L'; congruence). subst c'.
  unfold source_particle in E. destruct (spawn_rn_seed x) as [s x'] eqn:Ex. rewrite Em in E. set (p0 := set_identifier _ _) in E.
  pose proof (good_draws x Hg) as (G1 & G2 & G3 & G4 & G5). rewrite Ex in G1, G2, G3, G4, G5. cbn [fst] in G1, G2, G3, G4, G5.
  unfold generate_coordinate_3dg in E. rewrite (mesh_position _ _ _ _ B i c L) in E. cbn [rbind] in E. set (t := cell_idx_to_tuple (g_dims g) c) in * .
  rewrite draw_next in E. set (p1 := set_random_number_seed p0 _) in E. rb E as [r p5] E5. rb E5 as fc Ef.
  rewrite draw_next in E5. set (p2 := set_random_number_seed p1 _) in E5. rewrite draw_next in E5. set (p3 := set_random_number_seed p2 _) in E5.
  rewrite draw_next in E5. set (p4 := set_random_number_seed p3 _) in E5.
  destruct (fold_barycentric _ _ _) as [[[a b] e] f] eqn:Efold. destruct fc as [[q0 q1] q2]. apply Ok_inj in E5.
  assert (Er : r = vadd (vadd (vadd (vscale q0 a) (vscale q1 b)) (vscale q2 e)) (vscale (middle_of g t) f)) by congruence.
  assert (E4 : p5 = p4) by congruence. clear E5. subst p5.
  assert (Hf : mu <= f /\ 0 <= a /\ 0 <= b /\ 0 <= e /\ a + b + e + f = 1).
  { destruct (fold_weights _ _ _ _ _ _ _ (draw_unit p1) (draw_unit p2) (draw_unit p3) Efold) as (Wa & Wb & We & Wf & Ws).
    split; [|auto]. rewrite (next_drawn p1 s 1 eq_refl), (next_drawn p2 s 2 eq_refl), (next_drawn p3 s 3 eq_refl) in Efold.
    eapply (center_weight (drawn s 2) (drawn s 3) (drawn s 4)); [apply drawn_le|apply drawn_le|apply drawn_le|exact G1|exact G2|exact G3|exact Efold]. }
  destruct Hf as (Hf & Wa & Wb & We & Ws).
  assert (Hq : in_cell g t q0 /\ in_cell g t q1 /\ in_cell g t q2).
  { assert (P : forall n k which cur pts, (k + n = 24)%nat -> (0 < n)%nat ->
      pick_facet n (d_mesh dom) (N.of_nat i) (N.of_nat k) (middle_of g t) which cur pts = Ok (q0, q1, q2) -> in_cell g t q0 /\ in_cell g t q1 /\ in_cell g t q2).
    { clear - B L Hs. induction n as [|n IH]; intros k which cur pts Hk Hn H; [lia|]. cbn [pick_facet] in H.
      destruct (facets_alike _ _ _ _ _ _ B Hs L k ltac:(lia)) as (fc & Efc & _ & Hfc). rewrite Efc in H. cbn [rbind] in H.
      destruct (fle which _); [apply Ok_inj in H; subst fc; exact Hfc|]. destruct n as [|n]; [cbn [pick_facet] in H; apply Ok_inj in H; subst fc; exact Hfc|].
      rewrite <- Nnat.Nat2N.inj_succ in H. eapply (IH (S k)); [lia|lia|exact H]. }
    apply (P 24%nat 0%nat _ _ _ eq_refl ltac:(lia) Ef). }
  destruct Hq as (Q0 & Q1 & Q2). destruct Hsides as (S1 & S2 & S3).
  assert (Hdeep : deep g t mu r) by (rewrite Er; apply mixed_deep; auto).
  set (p6 := set_weight _ _) in E.
  assert (F6 : p_coordinate (sample_isotropic p6) = r /\ p_random_number_seed (sample_isotropic p6) = Nat.iter 6 rng_next s) by abstract (repeat split).
  set (p7 := sample_isotropic p6) in * . clearbody p7. destruct F6 as (F1 & F4).
  rewrite draw_next in E. unfold sample_num_mfp in E. rewrite draw_next in E. rewrite draw_next in E.
  match type of E with context [fmul (fneg f1) (fln (next_draw ?q))] => set (p8 := q) in * end.
  assert (F8 : p_random_number_seed p8 = Nat.iter 7 rng_next s) by abstract (unfold p8; cbn [p_random_number_seed set_kinetic_energy set_random_number_seed]; rewrite F4; reflexivity).
  assert (Hn : mu <= (fmul (fneg f1) (fln (next_draw p8)) : F Rops)).
  { rewrite (next_drawn p8 s 7 F8).
    cbn [fmul fneg f1 fln Rops]. set (k := Z.of_N (drawn s 8)). assert (Hk : (1 <= k <= Z.of_N two64 - 1)%Z) by (unfold k; lia). clearbody k.
    pose proof W_pos as HW. assert (K1 : 1 <= IZR k) by (apply IZR_le; lia). assert (K2 : IZR k <= W - 1).
    { unfold W. rewrite <- minus_IZR. apply IZR_le. lia. }
    assert (P : 0 < IZR k / W) by (apply Rmult_lt_0_compat; [lra|apply Rinv_0_lt_compat; exact HW]).
    pose proof (ln_below (IZR k / W) P) as Hl. assert (Q : IZR k / W <= 1 - mu).
    { unfold mu. apply Rmult_le_reg_r with W; [exact HW|]. unfold Rdiv. rewrite Rmult_assoc, Rinv_l by lra. rewrite Rmult_minus_distr_r, Rinv_l by lra. lra. }
    lra. }
  assert (F9 : p_coordinate p = r /\ p_num_mean_free_paths p = (fmul (fneg f1) (fln (next_draw p8)) : F Rops)).
  { abstract (apply Ok_inj in E; subst p; unfold p8; split; [exact F1|reflexivity]). }
  destruct F9 as (A1 & A4). split; [exists c; rewrite Hc, Nnat.Nat2N.id, A1; auto|]. split; [exact Hu|].
  split; [rewrite Ht; set (u := td_dt td : R) in *; clearbody u; change (0 <= u * t2 <= u); nra|]. split; [rewrite A4; exact Hn|].
  rewrite He. cbn [fadd fmul fsub Rops]. destruct He0 as (E1 & E2). change (F Rops) with R in * . set (lo := sp_e_min (mc_params md) : R) in * . set (hi := sp_e_max (mc_params md) : R) in * . clearbody lo hi. nra.
Qed.

(** One particle in each cell. *)
Lemma cells_calm w rates d : d_mesh d = d_mesh dom -> d_global_domain d = 0%N ->
  (forall cs n, In cs (d_cells dom) -> cell_n_particles md w rates cs = Ok n -> n = 1%N) ->
  (forall c, (c < total_cells (g_dims g))%N -> (c * 2 ^ 32 < two64)%N /\ good_seed (c * 2 ^ 32) = true) ->
  forall cells i cells' n ps, (forall j cs, nth_error cells j = Some cs -> nth_error (d_cells dom) (i + j) = Some cs) ->
  source_cells md w rates d (N.of_nat i) cells = Ok (cells', n, ps) -> Forall calm ps /\ List.length ps = List.length cells.
Proof.
  intros Em Eg Hn Hg. induction cells as [|cs cells IH]; intros i cells' n ps Hc H; cbn [source_cells] in H.
  - apply Ok_inj in H. injection H as <- <- <-. repeat split; constructor.
  - rb H as k Ek. rb H as ps1 E1. rb H as [[cells1 n1] ps2] E2. apply Ok_inj in H. injection H as <- <- <-.
    pose proof (Hc 0%nat cs eq_refl) as Hi. rewrite Nat.add_0_r in Hi.
    destruct (cell_facts _ _ _ _ _ _ D Hs i cs Hi) as (c & L & Lc & Eid & Ev & Et & _).
    pose proof (Hn cs k (nth_error_In _ _ Hi) Ek) as ->.
    destruct (Hg c Lc) as (Lt & Hgd). rewrite Et, Eid in E1. unfold source_seeds in E1. change (N.to_nat 1) with 1%nat in E1. cbn [nrange map] in E1. rewrite N.add_0_l, N.mod_small in E1 by exact Lt.
    cbn [rmap] in E1. rb E1 as p Ep. apply Ok_inj in E1. subst ps1.
    rewrite <- Nnat.Nat2N.inj_succ in E2. destruct (IH (S i) _ _ _ ltac:(intros j cs' Hj; rewrite Nat.add_succ_l, <- Nat.add_succ_r; apply Hc; exact Hj) E2) as (I1 & I2).
    split; [|cbn [app List.length]; rewrite I2; reflexivity]. cbn [app]. constructor; [|exact I1].
    rewrite Ev in Ep. eapply sourced_calm; [exact Em|exact Eg|apply nth_error_Some; rewrite Hi; discriminate|exact L|exact Hgd|exact Ep].
Qed.

Lemma calm_prepared p q : calm p -> prepare_particle td p = Ok q -> calm q.
Proof.
  intros (Hc & Hu & Ht & Hn & He) H. unfold prepare_particle in H. cbv zeta in H. rb H as gr Eg. apply Ok_inj in H. subst q.
  set (p1 := if fle (p_time_to_census p) f0 then _ else p). unfold p1. cbn [fle f0 Rops]. unfold Rleb. destruct (Rle_dec (p_time_to_census p) 0) as [H|H].
  - split; [exact Hc|]. split; [exact Hu|]. split; [|split; [exact Hn|exact He]]. cbn [p_time_to_census set_energy_group set_age set_time_to_census fadd Rops]. change (F Rops) with R in * . lra.
  - split; [exact Hc|]. split; [exact Hu|]. split; [exact Ht|]. split; [exact Hn|exact He].
Qed.

Lemma calm_lines d p : d_mesh d = d_mesh dom -> no_denser td d X -> calm p -> starts_regular g td d p.
Proof.
  intros Em Nd Hc p' Hp. pose proof (calm_prepared p p' Hc Hp) as Hq.
  assert (B : built g bc pt (d_mesh d)) by (rewrite Em; exact (domain_mesh _ _ _ _ _ _ D)).
  destruct Hq as ((c & L & Hd) & Hu & Ht & Hn & He). pose proof mu_pos as Hm.
  assert (Ho : off_faces g (p_coordinate p')) by exact (deep_off_faces _ _ _ _ Hs Hm Hd).
  assert (Fl : flying g pt p').
  { split; [|split; [exact Hu|split; [apply Ht|apply Rle_trans with (2 := Hn); lra]]]. exists c. split; [exact L|]. split; [exact (deep_in _ _ _ _ (Rlt_le _ _ Hm) Hd)|apply off_faces_stays; exact Ho]. }
  split; [exact Ho|]. intros hs q H.
  assert (No : forall e keep p1 nx, seg_step td d p' e keep p1 nx -> cell_cross_section td d (p_cell p') (p_energy_group p') = Ok (p_total_cross_section p1) -> keep = false /\ nx = []).
  { intros e keep p1 nx St Hx. pose proof (step_flew g bc pt d B Hs Hfit _ _ _ _ _ _ St Fl He) as Fw. destruct (flew_within _ _ He (Forall_inv Fw)) as (W1 & W2).
    destruct (seg_clock _ _ _ _ _ _ _ St (proj2 (proj2 Fl))) as (Cl & _). destruct (Forall_inv Cl) as ((T2 & _) & _).
    destruct (Forall_inv (seg_clock_exact _ _ _ _ _ _ _ St (proj2 (proj2 Fl)) Hh He)) as (Ea & _). unfold age_at_census in Ea.
    assert (Lf : X * flight (Flew p' e p1) < mu).
    { apply Rle_lt_trans with (2 := Hshort). cbn [flight]. rewrite Rmult_comm. apply Rmult_le_compat_r; [lra|]. eapply Rle_trans; [exact W2|]. rewrite light_R. change (F Rops) with R in * .
      apply Rle_trans with (29979200000 * td_dt td); [apply Rmult_le_compat_l; lra|]. apply Rmult_le_compat_r; [apply Rlt_le; exact Hdt|lra]. }
    assert (W0 : 0 <= flight (Flew p' e p1)) by apply sqrt_pos.
    assert (Lf1 : 0 <= flight (Flew p' e p1) < mu) by (split; [exact W0|]; apply Rle_lt_trans with (2 := Lf); rewrite <- (Rmult_1_l (flight _)) at 1; apply Rmult_le_compat_r; [exact W0|exact HX]).
    pose proof (step_optics g bc pt d B Hs Hfit _ _ _ _ _ _ X St Fl (Nd _ _ _ Hx) HX) as Op. cbv zeta in Op.
    destruct (step_way g bc pt d B Hs Hfit _ _ _ _ _ _ _ St Fl L) as (_ & Wy).
    destruct e as [k n|fe|]; [| |destruct Op; auto].
    - exfalso. destruct Op as (Op & _). specialize (Op (p_num_mean_free_paths p')). change (F Rops) with R in * . assert (p_num_mean_free_paths p' <= X * flight (Flew p' (SegCollision k n) p1)); [|lra].
      apply Op. unfold paths_left. left. split; [lra|reflexivity].
    - split; [|apply Op]. destruct keep; [|reflexivity]. exfalso. destruct (Wy eq_refl) as (f & c' & Hf & _ & G). specialize (G (face_axis f)). cbv zeta in G.
      assert (Hg : mu <= gap g (cell_idx_to_tuple (g_dims g) c) (face_axis f) (p_coordinate p') (p_direction p')).
      { unfold gap. pose proof (Hd (up_face (face_axis f))) as D1. pose proof (Hd (down_face (face_axis f))) as D2.
        assert (U : (up_face (face_axis f) < 6)%nat /\ (down_face (face_axis f) < 6)%nat) by (destruct (face_axis f); cbn; lia). specialize (D1 (proj1 U)). specialize (D2 (proj2 U)).
        destruct (Rlt_dec _ _); change (F Rops) with R in * ; lra. }
      destruct (face_axis f); destruct G as (G & _); lra. }
  inversion H as [|? e p1 nx hs' ? St Hx Hl|? e keep p1 nx c0 c' hs' ? St Hx Hin Hpc Hl]; subst; [constructor| |].
  - destruct (No _ _ _ _ St Hx) as (C & _). discriminate C.
  - destruct (No _ _ _ _ St Hx) as (_ & C). rewrite C in Hin. contradiction Hin.
Qed.
End Calm.

(** ** The reactions of the problem *)
Section Chosen.
Variables (P : reaction Rops -> Prop) (Q : polynomial Rops -> Prop).
Lemma chosen_poly (xs : list (string * polynomial Rops)) name q : Forall (fun e => Q (snd e)) xs -> map_index xs name = Ok q -> Q q.
Proof.
  unfold map_index. induction xs as [|(k & v) xs IH]; intros H E; [discriminate E|]. cbn [map_get] in E. destruct (String.eqb k name); [|apply IH; [exact (Forall_inv_tail H)|exact E]].
  cbn [unwrap] in E. apply Ok_inj in E. subst q. exact (Forall_inv H).
Qed.
Lemma isotopes_chosen xs mp (nu : F Rops) : Forall (fun e => Q (snd e)) xs -> forall n (nd nd' : nuclear_data Rops) l, add_isotopes n nd xs mp nu = Ok (nd', l) ->
  (forall t q, Q q -> P (reaction_new (K := Rops) t nu (nd_energies nd) q (ExcludeBuilt.asked mp t))) ->
  Forall (Forall P) (nd_isotopes nd) -> Forall (Forall P) (nd_isotopes nd') /\ nd_energies nd' = nd_energies nd.
Proof.
  intros HQ. induction n as [|n IH]; intros nd nd' l H HP HF; cbn [add_isotopes] in H.
  - apply Ok_inj in H. injection H as <- _. auto.
  - rb H as [nd1 gid] E1. rb H as [nd2 l2] E2. apply Ok_inj in H. injection H as <- _.
    assert (G : Forall (Forall P) (nd_isotopes nd1) /\ nd_energies nd1 = nd_energies nd).
    { unfold add_isotope in E1. rb E1 as ff F1. rb E1 as sf F2. rb E1 as af F3. apply Ok_inj in E1. injection E1 as <- _.
      cbn [nd_isotopes nd_energies]. split; [|reflexivity]. apply Forall_app. split; [exact HF|]. constructor; [|constructor].
      pose proof (chosen_poly _ _ _ HQ F1). pose proof (chosen_poly _ _ _ HQ F2). pose proof (chosen_poly _ _ _ HQ F3).
      apply Forall_map, Forall_forall. intros i _. destruct (i mod 3)%N as [|[p|p|]]; [apply (HP Scatter)|apply (HP Absorption)|apply (HP Absorption)|apply (HP Fission)]; assumption. }
    destruct G as (G1 & Ee). destruct (IH _ _ _ E2) as (G2 & Ee2); [rewrite Ee; exact HP|exact G1|]. split; [exact G2|congruence].
Qed.
Lemma reactions_chosen xs nus : Forall (fun e => Q (snd e)) xs -> forall mps (nd nd' : nuclear_data Rops) mats, init_materials mps nd xs nus = Ok (nd', mats) ->
  (forall mp nu t q, In mp mps -> Q q -> P (reaction_new (K := Rops) t nu (nd_energies nd) q (ExcludeBuilt.asked mp t))) ->
  Forall (Forall P) (nd_isotopes nd) -> Forall (Forall P) (nd_isotopes nd').
Proof.
  intros HQ. induction mps as [|mp mps IH]; intros nd nd' mats H HP HF; cbn [init_materials] in H.
  - apply Ok_inj in H. injection H as <- _. exact HF.
  - rb H as [nd1 iso] E1. rb H as [nd2 mats2] E2. apply Ok_inj in H. injection H as <- _.
    assert (G : Forall (Forall P) (nd_isotopes nd1) /\ nd_energies nd1 = nd_energies nd).
    { destruct (N.to_nat (mp_n_isotopes mp)) as [|k]; [apply Ok_inj in E1; injection E1 as <- _; auto|].
      rb E1 as nu En. apply (isotopes_chosen _ _ _ HQ _ _ _ _ E1); [|exact HF]. intros t q Hq. apply HP; [left; reflexivity|exact Hq]. }
    destruct G as (G1 & Ee). eapply IH; [exact E2| |exact G1]. intros. rewrite Ee. apply HP; [right; assumption|assumption].
Qed.
End Chosen.

(** The flat polynomial of the default problem: a reaction has in every group what is asked of it. *)
Definition is_flat (q : polynomial Rops) : Prop := q = mkPoly (K := Rops) (0 : R) (0 : R) (0 : R) (0 : R) (1 : R).
Lemma flat_values (es : list (F Rops)) : forall n : R, exists v : R, 0 < v /\
  Forall (fun x : R => x = v) (fst (reaction_values (mkPoly (K := Rops) (0 : R) (0 : R) (0 : R) (0 : R) (1 : R)) es n)) /\
  (snd (reaction_values (mkPoly (K := Rops) (0 : R) (0 : R) (0 : R) (0 : R) (1 : R)) es n) = n \/ snd (reaction_values (mkPoly (K := Rops) (0 : R) (0 : R) (0 : R) (0 : R) (1 : R)) es n) = v).
Proof.
  set (q := mkPoly (K := Rops) (0 : R) (0 : R) (0 : R) (0 : R) (1 : R)). set (v := fpow10 (f := Rops) (1 : R)). intros n. exists v. split; [apply pow10_pos|]. revert n.
  assert (Ev : forall x : F Rops, fpow10 (poly_val q x) = v).
  { intros x. unfold v. f_equal. unfold poly_val, q. cbn [aa bb cc dd ee fadd fmul Rops]. change (F Rops) with R in * . match goal with |- @eq _ ?a ?b => change (@eq R a b) end. ring. }
  induction es as [|e0 es IH]; intros n; [cbn; auto|]. destruct es as [|e1 es]; [cbn; auto|].
  rewrite reaction_values_cons. cbv zeta. rewrite Ev.
  match goal with |- context [reaction_values q (e1 :: es) ?m] => specialize (IH m); destruct (reaction_values q (e1 :: es) m) as [l k] end.
  cbn [fst snd] in * . destruct IH as (I1 & I2). split; [constructor; [reflexivity|exact I1]|].
  destruct I2 as [I2|I2]; [|right; exact I2]. rewrite I2. destruct (_ && _)%bool; [right|left]; reflexivity.
Qed.
Lemma flat_reaction t (nu x hi : R) (es : list (F Rops)) q : is_flat q -> (2 <= List.length es)%nat -> nth_error es (List.length es - 1) = Some hi -> 1 <= hi ->
  Forall (fun y : R => y = x) (r_cross_section (reaction_new (K := Rops) t nu es q x)).
Proof.
  unfold is_flat. intros -> Hl He Hh. unfold reaction_new. destruct (flat_values es 0) as (v & Hv & A & B).
  pose proof (normal_positive (mkPoly (K := Rops) (0 : R) (0 : R) (0 : R) (0 : R) (1 : R)) es 0 hi (Rle_refl 0) Hl He Hh) as C.
  change (@f0 Rops) with 0 in * . destruct (reaction_values (K := Rops) _ es 0) as [l n]. cbn [fst snd] in * . cbn [r_cross_section].
  apply Forall_map. eapply Forall_impl; [|exact A]. cbv beta. intros y ->. cbn [fmul fdiv Rops]. change (F Rops) with R in * .
  destruct B as [B|B]; [lra|]. rewrite B. field. lra.
Qed.

(** ** The problem *)
Definition small_dt : R := quiet_dt / 3.
Lemma small_dt_short : 0 < small_dt /\ 30000000000 * small_dt * 9 < mu.
Proof. unfold small_dt. destruct quiet_dt_small as (A & B). split; lra. Qed.
Definition small_cli : cli Rops := mkCli None None None (Some (small_dt : F Rops)) true false false None None None (Some 240%N) None (Some 4%N) false None (Some 1%N) (Some 2%N) (Some 3%N) (Some 4%N) None.
Definition small_params : params Rops := supply_defaults (mkParams (from_cli small_cli) [] [] []).
Definition small_grid : grid Rops := grid_new (K := Rops) (dims_of (pa_sim small_params)) (si_lx (pa_sim small_params)) (si_ly (pa_sim small_params)) (si_lz (pa_sim small_params)).

Lemma small_sane : sane_sizes (from_cli small_cli).
Proof.
  unfold sane_sizes. split; [vm_compute; auto|]. split; [vm_compute; auto|]. split; [vm_compute; reflexivity|].
  split; [exact hundred_ok|]. split; [exact hundred_ok|]. split; [exact hundred_ok|]. split; [vm_compute; discriminate|]. split; [vm_compute; reflexivity|].
  split; [reflexivity|]. split; [vm_compute; reflexivity|]. split; [|split]; apply draw_below_1; vm_compute; reflexivity.
Qed.
Lemma small_physical : physical small_params.
Proof. apply default_physical. exact (proj1 small_dt_short). Qed.
Lemma small_reacts : Forall (fun e : string * material_params Rops => reacts (snd e)) (pa_mats small_params).
Proof.
  constructor; [|constructor]. unfold reacts, normal_total, weight_sum, present. cbn. unfold Q2R. cbn. split; [lra|]. split; [lia|]. lra.
Qed.
Lemma small_sides : g_dx small_grid = 50 /\ g_dy small_grid = 100 / 3 /\ g_dz small_grid = 25.
Proof. unfold small_grid. cbn. unfold Q2R. cbn. repeat split; lra. Qed.

Lemma exec_of (p : params Rops) md : init_mcdata p = Ok md -> exec_info_new (pa_sim p) = Ok (mc_exec md).
Proof. unfold init_mcdata. intros H. rb H as ei Eei. rb H as [nd0 mats0] E2. apply Ok_inj in H. apply (f_equal mc_exec) in H. cbn [mc_exec] in H. congruence. Qed.

Section Small.
Variables (md0 : mcdata Rops) (pt : partition) (dom : domain Rops).
Hypothesis Hi : init_mcdata small_params = Ok md0.
Hypothesis Hn : well_named small_params.
Hypothesis D : built_domain small_grid "reflect" pt (pa_geom small_params) (td_mats (mc_track md0)) dom.
Let md := set_threads 4 md0.
Let x0 : R := 50 * (100 / 3) * 25 * 10000000000 * small_dt.

Lemma small_md : mc_params md = mc_params md0 /\ mc_track md = mc_track md0 /\ td_dt (mc_track md) = small_dt /\ mc_params md0 = cycle_params (pa_sim small_params).
Proof.
  destruct (threads_same 4 md0) as (T1 & T2 & _). destruct (initialised _ _ Hi) as (nd & Ep & Edt & _). unfold md. rewrite T1, T2. split; [reflexivity|]. split; [reflexivity|]. split; [exact Edt|exact Ep].
Qed.
Lemma small_exec : mc_exec md = mkExecInfo Rayon 4 (si_chunk_size (pa_sim small_params)) 1.
Proof.
  pose proof (exec_of _ _ Hi) as E. change (exec_info_new (pa_sim small_params)) with (Ok (mkExecInfo Rayon 4 (si_chunk_size (pa_sim small_params)) 1)) in E. apply Ok_inj in E.
  unfold md, set_threads. rewrite <- E. reflexivity.
Qed.
Lemma small_isotopes : Forall (Forall (fun r : reaction Rops => Forall (fun x : R => 0 <= x <= 1) (r_cross_section r))) (nd_isotopes (td_nuclear (mc_track md0))).
Proof.
  destruct (initialised _ _ Hi) as (nd & _ & _ & En & _ & Em). rewrite En.
  eapply (reactions_chosen _ is_flat); [| exact Em | |constructor].
  - constructor; [reflexivity|constructor].
  - intros mp nu t q [<-|[]] Hq. eapply Forall_impl; [|eapply flat_reaction; [exact Hq| |exact (energies_end (K := Rops) _ _ _)|]].
    + cbv beta. intros x ->. unfold ExcludeBuilt.asked. destruct t; cbn; unfold Q2R; cbn; lra.
    + cbn [nuclear_new nd_energies]. pose proof (energies_count (K := Rops) (si_n_groups (pa_sim small_params)) (si_e_min (pa_sim small_params)) (si_e_max (pa_sim small_params))) as C.
      pose proof (ph_groups _ small_physical). lia.
    + pose proof (ph_energies _ small_physical). lra.
Qed.
Lemma Rsum_at_most (l : list R) (b : R) : Forall (fun x => x <= b) l -> Rsum l <= INR (List.length l) * b.
Proof.
  induction 1 as [|x l Hx _ IH]; [cbn; lra|]. cbn [Rsum fold_right]. change (List.length (x :: l)) with (S (List.length l)). rewrite S_INR. unfold Rsum in IH. lra.
Qed.
Lemma rmap_len {A B} (f : A -> result B) l ys : rmap f l = Ok ys -> List.length ys = List.length l.
Proof.
  revert ys. induction l as [|x l IH]; intros ys H; cbn [rmap] in H; [apply Ok_inj in H; subst ys; reflexivity|]. rb H as y Ey. rb H as ys' E. apply Ok_inj in H. subst ys. cbn [List.length]. rewrite (IH _ E). reflexivity.
Qed.

Lemma small_denser : no_denser (mc_track md) dom 9.
Proof.
  intros cell group xs H. pose proof H as H'. unfold cell_cross_section in H'. rb H' as cs Ecs.
  destruct (problem_answers small_params md0 4 "reflect" pt dom small_physical Hi small_sane D small_reacts cell cs group xs Ecs H) as (A & _). split; [lra|]. clear A H.
  destruct (cell_volumes small_params md0 "reflect" pt dom small_sane D cs (vec_get_in _ _ _ Ecs)) as (_ & Nd).
  destruct (problem_materials small_params md0 4 small_physical Hi small_reacts) as (nd & En & _ & _ & _ & HM). fold md in En, HM.
  unfold weighted_macroscopic_cross_section in H'. rb H' as mat Emat. rb H' as l El. apply Ok_inj in H'. subst xs.
  rewrite Forall_forall in HM. destruct (HM mat (vec_get_in _ _ _ Emat)) as (e & nus & [<-|[]] & (_ & _ & Hlen & HI)). change (N.to_nat (mp_n_isotopes (snd _))) with 10%nat in Hlen.
  rewrite Forall_forall in HI. pose proof small_isotopes as HS. rewrite Forall_forall in HS.
  assert (Hl : Forall (fun x : R => x <= 9 / 10) l).
  { apply Forall_forall. intros x Hx. destruct (rmap_In _ _ _ El _ Hx) as (iso & Hiso & E). destruct (HI iso Hiso) as (Fr & rs & nu & _ & Ers & (Hlr & _)).
    unfold macroscopic_total_cross_section in E. destruct (_ || _)%bool; [apply Ok_inj in E; subst x; cbn [flit Rops]; unfold Q2R; cbn; lra|]. rb E as micro Emi. apply Ok_inj in E. subst x.
    rewrite Fr, Nd. cbn [fmul fdiv f1 fof_N Rops]. change (mp_n_isotopes (snd _)) with 10%N. change (IZR (Z.of_N 10)) with 10.
    unfold get_total_cross_section in Emi. rewrite En in Emi. rb Emi as rs' Ers'. assert (rs' = rs) by (apply CrossingLemmas.vec_get_nth in Ers'; congruence). subst rs'. rb Emi as l' El'. apply Ok_inj in Emi. subst micro.
    rewrite fsum_Rsum. assert (Hs : Rsum l' <= INR (List.length l') * 1).
    { apply Rsum_at_most. apply Forall_forall. intros z Hz. destruct (rmap_In _ _ _ El' _ Hz) as (r & Hr & Ez). destruct small_md as (_ & Et & _). rewrite Et in En. rewrite <- En in Ers.
      specialize (HS rs (nth_error_In _ _ Ers)). rewrite Forall_forall in HS. specialize (HS r Hr). rewrite Forall_forall in HS. apply (HS z). eapply vec_get_in; eauto. }
    rewrite (rmap_len _ _ _ El'), Hlr in Hs. change (N.to_nat (mp_n_reactions (snd _))) with 9%nat in Hs. cbn [INR] in Hs. change (F Rops) with R in * . lra. }
  rewrite fsum_Rsum. pose proof (Rsum_at_most l _ Hl) as Hs. pose proof (rmap_len _ _ _ El) as Ln. rewrite Hlen in Ln. change (F Rops) with R in * . rewrite Ln in Hs. cbn [INR] in Hs. lra.
Qed.

Lemma x0_pos : 0 < x0. Proof. unfold x0. pose proof (proj1 small_dt_short). nra. Qed.
Lemma small_emission cs x : In cs (d_cells dom) -> emits md cs x -> x = x0.
Proof.
  intros Hcs Hx. assert (He0 : emits md0 cs x).
  { unfold emits in * . destruct (threads_same 4 md0) as (_ & T2 & T3 & _). fold md in T2, T3. rewrite T2, T3 in Hx. exact Hx. }
  destruct (material_source _ _ Hi Hn cs x He0) as (mp & [<-|[]] & ->). destruct (cell_volumes small_params md0 _ pt dom small_sane D cs Hcs) as (V & _). fold small_grid in V.
  destruct small_sides as (Sx & Sy & Sz). rewrite V, Sx, Sy, Sz. unfold x0. change (si_dt (pa_sim small_params)) with small_dt. cbn [fmul Rops snd mp_source_rate source_material flit].
  unfold Q2R. cbn [Qnum Qden]. match goal with |- @eq _ ?a ?b => change (@eq R a b) end. rewrite Rinv_1. ring.
Qed.
Lemma small_sized : sized small_grid. Proof. exact (problem_sized small_params small_sane). Qed.
Lemma small_size : List.length (d_cells dom) = 24%nat.
Proof. exact (domain_size _ _ _ _ _ _ D). Qed.
Lemma small_emitted : Forall2 (emits md) (d_cells dom) (repeat x0 24).
Proof.
  destruct (problem_emitted small_params md0 4 _ pt dom small_physical Hi Hn small_sane D) as (xs & F2 & _). fold md in F2. rewrite <- small_size.
  assert (G : forall cells ys, (forall cs, In cs cells -> In cs (d_cells dom)) -> Forall2 (emits md) cells ys -> ys = repeat x0 (List.length cells)).
  { induction cells as [|cs cells IH]; intros ys Hin H; inversion H as [|? y ? ys' Hy H']; subst; [reflexivity|]. cbn [List.length repeat]. f_equal; [|apply IH; [intros z Hz; apply Hin; right; exact Hz|exact H']].
    apply (small_emission cs); [apply Hin; left; reflexivity|exact Hy]. }
  rewrite <- (G _ _ (fun cs H => H) F2). exact F2.
Qed.

Lemma small_source s1 u0 c0 : cycle_sync md 0 (initial_sim md dom) = Ok s1 -> source_now md (s_source_weight s1) (s_unit s1) (s_cont s1) = Ok (u0, c0) ->
  Forall (calm small_grid pt md) (processing c0) /\ List.length (processing c0) = 24%nat /\ Forall (fun p : particle Rops => p_weight p = x0) (processing c0) /\ extra_particles (s_cont s1) = [] /\ s_source_weight s1 = x0.
Proof.
  intros Hp Hs. destruct (prepared _ _ _ _ Hp small_emitted) as (Ed & Ew).
  assert (Ew' : s_source_weight s1 = x0).
  { rewrite Ew. destruct small_md as (-> & _ & _ & ->). change (sp_n_particles (cycle_params (pa_sim small_params))) with 240%N. change (IZR (Z.of_N 240)) with 240.
    assert (E : Rsum (repeat x0 24) = 24 * x0) by (cbn [repeat Rsum fold_right]; ring). rewrite E. match goal with |- @eq _ ?a ?b => change (@eq R a b) end. field. }
  assert (Ec : s_cont s1 = mkContainer [] [] []).
  { change (prepare_cycle md (initial_sim md dom) = Ok s1) in Hp. unfold prepare_cycle in Hp. rb Hp as w Ew0. rb Hp as k Ek. apply Ok_inj in Hp. subst s1. reflexivity. }
  pose proof Hs as Hs'. unfold source_now in Hs. rb Hs as rates Er. rb Hs as [[cells k] new] Ecs. apply Ok_inj in Hs. injection Hs as <- <-. cbn [processing].
  rewrite Ew', Ed in Ecs. rewrite Ec. cbn [processing app extra_particles].
  destruct small_md as (E1 & E2 & E3 & E4). destruct small_dt_short as (T1 & T2). destruct small_sides as (Sx & Sy & Sz).
  destruct (cells_calm small_grid "reflect" pt (pa_geom small_params) (td_mats (mc_track md0)) dom md D small_sized) with (w := x0 : F Rops) (rates := rates) (d := dom) (cells := d_cells dom) (i := 0%nat) (cells' := cells) (n := k) (ps := new) as (C1 & C2).
  - rewrite Sx, Sy, Sz. lra.
  - rewrite E3. exact T1.
  - rewrite E1, E4. cbn. unfold Q2R. cbn. lra.
  - reflexivity.
  - exact (proj1 (proj2 (domain_same _ _ _ _ _ _ D small_sized))).
  - intros cs n Hcs H. unfold cell_n_particles in H. rb H as rate Erate. destruct (rates_nth _ _ _ _ Er Erate) as (mat & mp & M1 & M2 & ->).
    assert (He : emits md cs (fmul (fmul (cs_volume cs) (mp_source_rate mp)) (td_dt (mc_track md)))) by (exists mat, mp; auto).
    rewrite (small_emission cs _ Hcs He) in H. pose proof x0_pos. cbn [fto_usize ffloor fdiv Rops] in H. replace (x0 / x0) with (IZR 1) in H by (field; lra).
    rewrite Zfloor_IZR, Rto_usize_Z in H by lia. cbn [unwrap] in H. apply Ok_inj in H. subst n. reflexivity.
  - intros c Hc. change (total_cells (g_dims small_grid)) with 24%N in Hc. split; [unfold two64; lia|]. exact (proj2 (seeds_good c Hc)).
  - intros j cs Hj. exact Hj.
  - exact Ecs.
  - split; [exact C1|]. split; [rewrite C2; exact small_size|]. split; [|split; [reflexivity|exact Ew']].
    clear - Ecs. change (u_domain (s_unit (initial_sim md dom))) with dom in Ecs. revert cells k new Ecs. generalize 0%N as i. generalize (d_cells dom) at 1 as l. induction l as [|cs l IH]; intros i cells k new H; cbn [source_cells] in H.
    + apply Ok_inj in H. injection H as <- <- <-. constructor.
    + rb H as n1 En1. rb H as ps1 Ep. rb H as [[cells1 n2] ps2] E2. apply Ok_inj in H. injection H as <- <- <-. apply Forall_app. split; [|exact (IH _ _ _ _ E2)].
      apply Forall_forall. intros p Hp. destruct (rmap_In _ _ _ Ep _ Hp) as (x & _ & E). exact (source_weighed _ _ _ _ _ _ _ E).
Qed.

Lemma small_policy : run_ok md /\ loop_policy md.
Proof. apply (problem_policy small_params md0 4 Hi small_sane). left. reflexivity. Qed.
Lemma small_has : has_source md dom.
Proof.
  pose proof small_emitted as F2. pose proof small_size as L. destruct (d_cells dom) as [|cs l] eqn:Ec; [discriminate L|]. inversion F2 as [|? x ? ? Hx _]; subst. exists cs, x0. split; [rewrite Ec; left; reflexivity|].
  split; [exact Hx|exact x0_pos].
Qed.
Lemma small_sane_problem : sane (K := Rops) (fun x => 0 <= x) md dom.
Proof.
  destruct (problem_indexed small_params md0 4 "reflect" pt dom small_physical Hi Hn D) as (I1 & I2). constructor; [exact I1|exact I2|].
  exact (problem_values small_params md0 4 "reflect" pt dom small_physical Hi Hn small_sane D small_has).
Qed.

Lemma small_regular fuel cf n u c : (2 <= cf)%nat -> about_to_track fuel cf md dom n u c -> Forall (starts_regular small_grid (mc_track md) (u_domain u)) (processing c).
Proof.
  intros Hcf (Hlt & s & s1 & Hst & Hsy & Hpop). destruct small_md as (E1 & E2 & E3 & E4). rewrite E1, E4 in Hlt. change (sp_n_steps (cycle_params (pa_sim small_params))) with 1%N in Hlt.
  assert (En : n = 0%N) by lia. subst n.
  assert (Es : s = initial_sim md dom).
  { remember 0%N as z eqn:Ez in Hst. remember (Ok s) as r eqn:Er in Hst. destruct Hst as [|m ? ? ? ? ? ?|m ? ? ?|m ? ? Hr]; [symmetry; apply Ok_inj; exact Er| | |]; exfalso; lia. }
  subst s. destruct small_dt_short as (T1 & T2). destruct small_sides as (Sx & Sy & Sz).
  pose proof (initial_between small_grid "reflect" pt (pa_geom small_params) (td_mats (mc_track md0)) dom (in_range small_params) md D small_sized small_sane_problem) as Hb.
  assert (Hdt : 0 <= td_dt (mc_track md)) by (rewrite E3; lra).
  assert (Hlt' : (0 < sp_n_steps (mc_params md))%N) by (rewrite E1, E4; reflexivity).
  destruct (phase_ready small_grid "reflect" pt (pa_geom small_params) (td_mats (mc_track md0)) dom (in_range small_params) md fuel cf D small_sized Hdt Hcf 0 _ _ _ _ Hlt' Hst Hb Hsy Hpop) as (Al & _).
  pose proof Hpop as Hpop'. unfold population_phase in Hpop'. rb Hpop' as [u0 c0] Hsrc. clear Hpop'. destruct (small_source s1 u0 c0 Hsy Hsrc) as (Hcalm & _ & _ & Hex & _).
  assert (Hc : Forall (calm small_grid pt md) (processing c)).
  { eapply (population_from (calm small_grid pt md) md s1 u0 c0); [exact (calm_same small_grid pt md)|exact Hsrc|exact Hpop|exact Hex|exact Hcalm]. }
  eapply Forall_impl; [|exact Hc]. intros p Hp. eapply (calm_lines small_grid "reflect" pt (pa_geom small_params) (td_mats (mc_track md0)) dom md 9 D small_sized).
  - exact (problem_fits small_params small_sane).
  - exact (problem_heavy small_params md0 4 small_physical Hi small_reacts).
  - rewrite E3. exact T1.
  - rewrite E3. exact T2.
  - lra.
  - exact (proj1 (proj1 Al)).
  - exact (alike_denser small_grid dom md 9 small_denser _ Al).
  - exact Hp.
Qed.

(** Two hundred and forty particles are tracked. *)
Lemma small_starts fuel cf : exists n u c, about_to_track fuel cf md dom n u c /\ (24 <= List.length (processing c))%nat.
Proof.
  destruct small_md as (E1 & E2 & E3 & E4).
  pose proof (initial_ok (K := Rops) (fun x => 0 <= x) (in_range small_params) md dom small_sane_problem) as Hb.
  destruct (sync_ok (K := Rops) _ (in_range small_params) md (proj2 small_policy) 0 _ Hb ltac:(lia)) as (s1 & Hsy & HR).
  destruct (SafeRun.population_ok (K := Rops) _ real_sign_laws (in_range small_params) md (problem_range small_params md0 4 small_physical Hi small_reacts) s1 HR) as (u & c & Hpop & _).
  exists 0%N, u, c. split.
  - split; [rewrite E1, E4; reflexivity|]. exists (initial_sim md dom), s1. split; [constructor|]. auto.
  - pose proof Hpop as H. unfold population_phase in H. rb H as [u0 c0] Hsrc. destruct (small_source s1 u0 c0 Hsy Hsrc) as (_ & Hl & Hw & Hex & Ew).
    assert (He0 : extra_particles c0 = []).
    { unfold source_now in Hsrc. rb Hsrc as rates Er. rb Hsrc as [[cells k] new] Ec. injection Hsrc; intros; subst. exact Hex. }
    rb H as f Hf. assert (Ef : f = (240 / 24 : R)).
    { unfold compute_split_factor in Hf. rewrite Hl, E1, E4 in Hf. change (sp_load_balance _) with true in Hf. change (sp_n_particles _) with 240%N in Hf.
      assert (Eu : ei_n_units (mc_exec md) = 1%N) by exact (f_equal ei_n_units small_exec). rewrite Eu in Hf.
      change (negb (N.of_nat 24 =? 0)%N) with true in Hf. cbv iota in Hf. cbn [fto_usize fceil fdiv fof_N Rops] in Hf.
      change (IZR (Z.of_N 1)) with 1 in Hf. unfold Rdiv at 1 in Hf. rewrite Rinv_1, Rmult_1_r, Zceil_IZR, Rto_usize_Z in Hf by (vm_compute; split; [discriminate|reflexivity]).
      apply Ok_inj in Hf. symmetry. exact Hf. }
    assert (Ef1 : flt f f1 = false) by (rewrite Ef; apply Rltb_false; cbn; lra). assert (Ef2 : flt f1 f = true) by (rewrite Ef; apply Rltb_iff; cbn; lra).
    rewrite Ef1, Ef2 in H. rb H as [c1 b1] Hsp. apply Ok_inj in H. injection H as <- <-.
    destruct (split_population_outcome _ _ _ _ _ _ _ Hsp) as (qs & ll & S & L1 & L2 & -> & _).
    rewrite flat_map_app, app_length. apply Nat.le_trans with (List.length (flat_map (low_weight_roulette (sp_low_weight_cutoff (mc_params md)) (s_source_weight s1)) qs)); [|lia].
    rewrite <- Hl, <- L1. assert (Hq : Forall (fun p : particle Rops => p_weight p = x0 / 10) qs).
    { clear - S L1 L2 Hw Ef. revert qs ll S L1 L2. induction (processing c0) as [|p l IH]; intros qs ll S L1 L2; destruct qs as [|q qs], ll as [|x ll]; try discriminate L1; try discriminate L2; [constructor|].
      cbn [combine] in S. inversion S as [|? ? ? ? Hsp S']; subst. constructor.
      - destruct Hsp as (Hall & _). pose proof (proj2 (Forall_inv Hall)) as Eq. cbn [fst] in Eq. rewrite Eq, (Forall_inv Hw). match goal with |- @eq _ ?a ?b => change (@eq R a b) end. cbn [fdiv Rops]. field.
      - eapply IH; [exact (Forall_inv_tail Hw)|exact S'|cbn in L1; lia|cbn in L2; lia]. }
    rewrite Ew, E1, E4. pose proof x0_pos as Hx. clear - Hq Hx. induction Hq as [|q qs H _ IH]; cbn [flat_map List.length]; [lia|]. rewrite app_length. unfold low_weight_roulette at 1.
    replace (fle (p_weight q) _) with false; [cbn [List.length]; lia|]. symmetry. apply Rleb_false. rewrite H. cbn. unfold Q2R. cbn. change (F Rops) with R in * . lra.
Qed.
End Small.

(** The hypotheses of the theorem on programs hold of it, whatever the machine reads from files. *)
Lemma small_case real yaml (Hy : forall text b, yaml text = Some b -> distinct_keys b) read order : any_order order ->
  get_parameters real yaml read small_cli = Ok (inl small_params) /\ sane_sizes (pa_sim small_params) /\ physical small_params /\
  geometry_everywhere (pa_sim small_params) (pa_geom small_params) /\ requested (si_boundary_condition (pa_sim small_params)) 0 <> None /\
  Forall (fun e : string * material_params Rops => reacts (snd e)) (pa_mats small_params) /\
  exists md dom, set_up real yaml read order 4 small_cli = Ok (Some (md, dom)) /\ has_source md dom /\ ei_policy (mc_exec md) = Rayon /\
    (forall fuel cf, (2 <= cf)%nat -> forall n u q, about_to_track fuel cf md dom n u q -> Forall (starts_regular small_grid (mc_track md) (u_domain u)) (processing q)) /\
    (forall fuel cf, exists n u q, about_to_track fuel cf md dom n u q /\ (24 <= List.length (processing q))%nat).
Proof.
  intros Ho. pose proof (default_parameters real yaml read small_cli eq_refl) as Ep. fold small_params in Ep.
  assert (Hg : geometry_everywhere (pa_sim small_params) (pa_geom small_params)) by exact (default_everywhere (pa_sim small_params) small_sane).
  assert (Hb : requested (si_boundary_condition (pa_sim small_params)) 0 <> None) by discriminate.
  split; [exact Ep|]. split; [exact small_sane|]. split; [exact small_physical|]. split; [exact Hg|]. split; [exact Hb|]. split; [exact small_reacts|].
  destruct (program_set_up real yaml Hy read order 4 small_cli small_params Ho Ep small_sane small_physical Hg Hb) as (md0 & dom & pt & Hi & W & Es & D).
  exists (set_threads 4 md0), dom. split; [exact Es|]. split; [exact (small_has md0 pt dom Hi W D)|]. split; [rewrite (small_exec md0 Hi); reflexivity|]. split.
  - intros fuel cf Hcf n u q. exact (small_regular md0 pt dom Hi W D fuel cf n u q Hcf).
  - intros fuel cf. exact (small_starts md0 pt dom Hi W D fuel cf).
Qed.
