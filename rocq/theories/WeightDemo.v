(** The cases of the claims about weights and about the scalar flux. *)
From Coq Require Import NArith ZArith QArith Qreals String List Bool Lia Reals Lra Psatz Permutation.
From Verif Require Import Float RealOps RngModel ParticleModel NuclearModel MeshTypes Balance TrackModel CycleModel GridModel MeshModel GridSpec MeshSpec MeshTheorems WellBuilt
  TrackAccount CycleAccount PopSpec PopDemo SourceLemmas SegmentSpec SegmentFacts GeomSpec GeomDemo SourcePoint StaySpec StayRun StayDemo ScheduleSpec RangeSpec QuietRun QuietSteps QuietTrack SpectrumDemo
  WeightSpec WeightFacts WeightRun FluxLog FluxRun.
Import ListNotations.
Local Open Scope R_scope.

Lemma quiet_bounded : energies_bounded quiet_md.
Proof.
  exists (fun e : R => 0 <= e <= 20). constructor; cbn [mc_params quiet_md sp_e_min sp_e_max mc_track td_mats quiet_td fmul fadd fsub fdiv f1 flit Rops flt].
  - intros x Hx. pose proof (sample_unit x Hx) as U. set (r := fsample (f := Rops) x) in * . clearbody r. change (F Rops) with R in * . nra.
  - intros e x mat He Hx [<-|[]]. pose proof (sample_unit x Hx) as U. cbn [mat_mass]. set (r := fsample (f := Rops) x) in * . clearbody r. change (F Rops) with R in * .
    assert (0 <= r * (1 / 12) <= 1) by lra. nra.
  - intros x Hx. pose proof (sample_unit x Hx) as U. set (r := fsample (f := Rops) x) in * . clearbody r. change (F Rops) with R in * .
    replace (Q2R (20 # 1)) with 20 by (unfold Q2R; cbn; lra). unfold ftwo. cbn [flit Rops]. replace (Q2R (2 # 1)) with 2 by (unfold Q2R; cbn; lra).
    assert (0 <= (r + 1) / 2 <= 1) by lra. set (q := (r + 1) / 2) in * . clearbody q. nra.
  - intros e el He Hl. unfold last_energy, energies in Hl. cbn in Hl. injection Hl as <-. apply Rltb_false. tauto.
Qed.

Lemma quiet_sound pt dom : built_domain box "octant" pt box_geoms box_mats dom -> sound_problem quiet_md dom.
Proof.
  intros D. destruct (built_domain_parts _ _ _ _ _ _ D) as (B & _ & Lc & _). constructor; [reflexivity|reflexivity|].
  intros conn fa c Hc Hf Hev Hcell. apply In_nth_error in Hc. destruct Hc as (i & Ei). apply In_nth_error in Hf. destruct Hf as (k & Ek).
  destruct (facets_exist _ _ _ _ B) as (_ & Hl & _). destruct (Hl i) as (c0 & Li); [apply nth_error_Some; congruence|].
  assert (Fa : facet_at (d_mesh dom) i k fa) by (exists conn; auto).
  destruct (adjacency_back _ _ _ _ _ _ _ _ B Li Fa) as (j & k' & fa' & Ea & (cc' & Ej & _) & _).
  rewrite Ea in Hcell. cbn [loc_cell] in Hcell. injection Hcell as <-. unfold n_cells.
  assert (j < List.length (me_conn (d_mesh dom)))%nat by (apply nth_error_Some; congruence). lia.
Qed.

Lemma quiet_emits pt dom : built_domain box "octant" pt box_geoms box_mats dom ->
  exists xs, Forall2 (emits quiet_md) (d_cells dom) xs /\ Forall (fun x => 0 <= x) xs /\ 0 < Rsum xs /\ List.length xs = 24%nat.
Proof.
  intros D. destruct (built_domain_parts _ _ _ _ _ _ D) as (B & _ & Lc & Hm). destruct (built_complete _ _ _ _ B) as (_ & Ln). change (N.to_nat (total_cells (g_dims box))) with 24%nat in Ln.
  set (v := 250 * quiet_dt). pose proof (proj1 quiet_dt_small) as Hq. assert (Hv : 0 < v) by (unfold v; lra). exists (repeat v 24).
  split; [|split; [apply Forall_forall; intros x Hx; apply repeat_spec in Hx; lra|split; [cbn [repeat Rsum fold_right]; lra|reflexivity]]].
  rewrite <- Ln, <- Lc. assert (G : forall l, (forall cs, In cs l -> emits quiet_md cs v) -> Forall2 (emits quiet_md) l (repeat v (List.length l))).
  { induction l as [|cs l IH]; intros H; cbn [List.length repeat]; constructor; [apply H; left; reflexivity|apply IH; intros x Hx; apply H; right; exact Hx]. }
  apply G. intros cs Hin. pose proof Hm as Hm'. rewrite Forall_forall in Hm'. specialize (Hm' cs Hin).
  apply In_nth_error in Hin. destruct Hin as (i & Hi). destruct (cell_facts _ _ _ _ _ _ D box_sized i cs Hi) as (c & _ & _ & _ & Evol & _).
  exists (mkMaterial (K := Rops) "fuel" (12 : R) []), tiny_mat. split; [|split; [reflexivity|]].
  - assert (E0 : N.to_nat (cs_material cs) = 0%nat) by (change (N.of_nat (List.length box_mats)) with 1%N in Hm'; lia). rewrite E0. reflexivity.
  - rewrite Evol. assert (Ev : g_dx box * g_dy box * g_dz box = 250) by (rewrite box_x, box_y, box_z; lra). rewrite Ev. unfold v.
    change (@eq R (250 * quiet_dt) (250 * 1 * quiet_dt)). ring.
Qed.

Lemma quiet_whole : exists pt dom s1 s2 s3, built_domain box "octant" pt box_geoms box_mats dom /\
  core_loop 1 0 quiet_md (initial_sim quiet_md dom) (Ok s3) /\ run_log 1 0 quiet_md dom 0 (initial_sim quiet_md dom) [] /\
  cycle_sync quiet_md 0 (initial_sim quiet_md dom) = Ok s1 /\ cycle_process 1 0 quiet_md s1 (Ok s2) /\ cycle_sync quiet_md 1 s2 = Ok s3.
Proof.
  destruct quiet_ends as (pt & dom & s & D & H & _). pose proof H as H0. remember (Ok s) as r0 eqn:Er0 in H. destruct H as [r Hpol HR|]; [|discriminate Er0].
  change (sp_n_steps (mc_params quiet_md)) with (N.succ 0) in HR, Er0. rb Er0 as s2 E. subst r.
  remember (N.succ 0) as m eqn:Em in HR. remember (Ok s2) as r eqn:Er in HR. destruct HR as [|n s0 s1 r HR Hsync Hproc|n s0 HR Hsync|n r HR Hr]; [discriminate Em| |discriminate Er|subst r; destruct Hr; discriminate].
  apply N.succ_inj in Em. subst n r. inversion HR as [E|? ? ? ? ? ? ? E|? ? ? ? E|? ? ? ? E]; try lia. subst s0.
  exists pt, dom, s1, s2, s. split; [exact D|]. split; [exact H0|]. split; [constructor|]. split; [exact Hsync|]. split; [exact Hproc|exact Er0].
Qed.
