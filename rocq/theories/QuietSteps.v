(** The steps of the run of QuietRun.v (C04, C39, C59). *)
From Coq Require Import NArith ZArith QArith Qreals List Bool String Reals Lra Lia Psatz Permutation Sorted.
From Flocq Require Import Core.Raux.
From Verif Require Import Float RealOps RngModel ParticleModel NuclearModel MeshTypes Balance TrackModel CycleModel GridModel MeshModel GridSpec GridLemmas
  FloodLemmas MeshFacts MeshSpec MeshTheorems WellBuilt TrackSpec TrackAccount CycleSpec CycleAccount PopSpec SortLemmas SourceLemmas PopLemmas SourceCount PopDemo SegmentSpec NearestLemmas FacetLemmas
  SegmentFacts SegmentDefined SegmentDemo CrossingLemmas NuclearSpec NuclearFacts NuclearReal GeomSpec GeomLemmas PlaneLemmas SourcePoint GeomDemo StaySpec StayLemmas StaySteps
  StayRun StayDemo QuietRun.
Import ListNotations.
Local Open Scope R_scope.

(** ** The source *)

Lemma seeds_good c : (c < 24)%N -> source_seeds (N.to_nat 1) 0 (c * 2 ^ 32) = [(c * 2 ^ 32)%N] /\ good_seed (c * 2 ^ 32) = true.
Proof.
  intros Hc. split.
  - unfold source_seeds. change (N.to_nat 1) with 1%nat. cbn [nrange map]. rewrite N.add_0_l. f_equal. apply N.mod_small. unfold two64. lia.
  - pose proof box_seeds as H. rewrite forallb_forall in H. apply H. apply SourceLemmas.In_nrange. lia.
Qed.

Lemma quiet_rates : source_rates quiet_md = Ok [(1 : R)].
Proof. reflexivity. Qed.

Lemma quiet_count (cs : cell_state Rops) n : cs_volume cs = (250 : R) -> cell_n_particles quiet_md (250 * quiet_dt : R) [(1 : R)] cs = Ok n -> n = 1%N.
Proof.
  intros Ev H. unfold cell_n_particles in H. rb H as rate Er. rewrite Ev in H.
  assert (Hr : rate = 1).
  { unfold vec_get in Er. destruct (N.to_nat (cs_material cs)) as [|[|k]]; cbn [nth_error unwrap] in Er; try discriminate Er. symmetry. apply Ok_inj in Er. exact Er. }
  subst rate. change (td_dt (mc_track quiet_md)) with quiet_dt in H. cbn [fto_usize ffloor fdiv fmul Rops] in H. pose proof (proj1 quiet_dt_small) as Hq.
  replace (250 * 1 * quiet_dt / (250 * quiet_dt)) with (IZR 1) in H by (field; lra). rewrite Zfloor_IZR, Rto_usize_Z in H by (vm_compute; split; [discriminate|reflexivity]).
  apply Ok_inj in H. symmetry. exact H.
Qed.

Lemma source_weighed (md : mcdata Rops) w d i v x p : source_particle md w d i v x = Ok p -> p_weight p = w.
Proof.
  unfold source_particle. destruct (spawn_rn_seed x) as [s x']. intros H. rb H as [r p1] E.
  rewrite !draw_next in H. apply Ok_inj in H. subst p. unfold sample_num_mfp. rewrite draw_next. reflexivity.
Qed.

Section Quiet.
Variables (pt : partition) (dom : domain Rops).
Hypothesis D : built_domain box "octant" pt box_geoms box_mats dom.

Lemma cells_calm d : d_mesh d = d_mesh dom -> d_global_domain d = 0%N -> forall cells i cells' n ps,
  (forall j cs, nth_error cells j = Some cs -> nth_error (d_cells dom) (i + j) = Some cs) ->
  source_cells quiet_md (250 * quiet_dt : R) [(1 : R)] d (N.of_nat i) cells = Ok (cells', n, ps) ->
  Forall (calm pt) ps /\ List.length ps = List.length cells /\ Forall (fun p : particle Rops => 0 < p_weight p) ps /\
  Forall2 (fun a b : cell_state Rops => cs_material a = cs_material b /\ cs_source_tally b = (cs_source_tally a + 1)%N) cells cells'.
Proof.
  intros Em Eg. induction cells as [|cs cells IH]; intros i cells' n ps Hc H; cbn [source_cells] in H.
  - apply Ok_inj in H. injection H as <- <- <-. repeat split; constructor.
  - rb H as k Ek. rb H as ps1 E1. rb H as [[cells1 n1] ps2] E2. apply Ok_inj in H. injection H as <- <- <-.
    pose proof (Hc 0%nat cs eq_refl) as Hi. rewrite Nat.add_0_r in Hi.
    destruct (cell_facts _ _ _ _ _ _ D box_sized i cs Hi) as (c & L & Lc & Eid & Ev & Et & _).
    assert (Ev' : cs_volume cs = (250 : R)) by (rewrite Ev, box_x, box_y, box_z; lra).
    pose proof (quiet_count _ _ Ev' Ek) as ->. change (total_cells (g_dims box)) with 24%N in Lc.
    destruct (seeds_good c Lc) as (Es & Hg). rewrite Et, Eid, Es in E1. cbn [rmap] in E1. rb E1 as p Ep. apply Ok_inj in E1. subst ps1.
    rewrite <- Nnat.Nat2N.inj_succ in E2. destruct (IH (S i) _ _ _ ltac:(intros j cs' Hj; rewrite Nat.add_succ_l, <- Nat.add_succ_r; apply Hc; exact Hj) E2) as (I1 & I2 & I3 & I4).
    split; [|split; [cbn [app List.length]; rewrite I2; reflexivity|split; [cbn [app]; constructor; [|exact I3]|constructor; [split; reflexivity|exact I4]]]].
    2: { rewrite (source_weighed _ _ _ _ _ _ _ Ep). pose proof (proj1 quiet_dt_small). lra. }
    cbn [app]. constructor; [|exact I1].
    rewrite Ev in Ep. eapply (sourced_calm pt dom D); [exact Em|exact Eg|apply nth_error_Some; rewrite Hi; discriminate|exact L|exact Hg|exact Ep].
Qed.

(** The domain after the source. *)
Definition sourced_domain (d : domain Rops) : Prop :=
  d_mesh d = d_mesh dom /\ List.length (d_cells d) = 24%nat /\ Forall (fun cs : cell_state Rops => cs_material cs = 0%N /\ cs_source_tally cs = 1%N) (d_cells d).

Lemma quiet_source : exists s1 u0 c0, cycle_sync quiet_md 0 (initial_sim quiet_md dom) = Ok s1 /\
  source_now quiet_md (s_source_weight s1) (s_unit s1) (s_cont s1) = Ok (u0, c0) /\
  s_cont s1 = mkContainer [] [] [] /\ 
  (m_cache (u_mem (s_unit s1)) = repeat f0 72 /\ m_flux (u_mem (s_unit s1)) = repeat f0 72) /\
  (forall k, bget (u_balance (s_unit s1)) k = if tallied_event_eq_dec k EStart then 0%N else 0%N) /\
  List.length (processing c0) = 24%nat /\ Forall (calm pt) (processing c0) /\ Forall (fun p : particle Rops => 0 < p_weight p) (processing c0) /\
  sourced_domain (u_domain u0).
Proof.
  pose proof (built_domain_parts _ _ _ _ _ _ D) as (B & _ & Lc & Hm).
  destruct (built_complete _ _ _ _ B) as (Cg & Ln). change (N.to_nat (total_cells (g_dims box))) with 24%nat in Ln.
  set (v := g_dx box * g_dy box * g_dz box). assert (Ev : v = 250) by (unfold v; rewrite box_x, box_y, box_z; lra).
  pose proof (proj1 quiet_dt_small) as Hq.
  assert (Hk : materials_known quiet_md) by (constructor; [eexists; reflexivity|constructor]).
  assert (Hx : Forall2 (emits quiet_md) (d_cells dom) (repeat (v * 1 * quiet_dt) 24)).
  { rewrite <- Ln, <- Lc. assert (G : forall l, (forall cs, In cs l -> emits quiet_md cs (v * 1 * quiet_dt : R)) -> Forall2 (emits quiet_md) l (repeat (v * 1 * quiet_dt) (List.length l))).
    { induction l as [|cs l IH]; intros H; cbn [List.length repeat]; constructor; [apply H; left; reflexivity|apply IH; intros x Hx; apply H; right; exact Hx]. }
    apply G. intros cs Hin. pose proof Hm as Hm'. rewrite Forall_forall in Hm'. specialize (Hm' cs Hin). cbn [List.length box_mats] in Hm'.
    apply In_nth_error in Hin. destruct Hin as (i & Hi). destruct (cell_facts _ _ _ _ _ _ D box_sized i cs Hi) as (c & _ & _ & _ & Evol & _).
    exists (mkMaterial (K := Rops) "fuel" (12 : R) []), tiny_mat. split; [|split; [reflexivity|]].
    - assert (E0 : N.to_nat (cs_material cs) = 0%nat) by (change (N.of_nat (List.length box_mats)) with 1%N in Hm'; lia). rewrite E0. reflexivity.
    - rewrite Evol. reflexivity. }
  destruct (prepare_defined quiet_md (initial_sim quiet_md dom) _ Hk Hx) as (s1 & Hp & Ec & Eb); [reflexivity|].
  assert (P1 : Forall (fun x => 0 <= x) (repeat (v * 1 * quiet_dt) 24)) by (apply Forall_forall; intros x Hin; apply repeat_spec in Hin; subst x; rewrite Ev; nra).
  assert (P2 : Rsum (repeat (v * 1 * quiet_dt) 24) = 24 * (250 * quiet_dt)) by (rewrite Ev; cbn [repeat Rsum fold_right]; ring).
  assert (P3 : (0 < sp_n_particles (mc_params quiet_md) < 2 ^ 64)%N) by (split; reflexivity).
  destruct (source_defined _ _ _ _ Hp Hx P1 ltac:(rewrite P2; nra) P3 Hk (proj1 Cg) (eq_sym Lc)) as (u & c & Hs).
  destruct (prepared _ _ _ _ Hp Hx) as (Ed & Ew). exists s1, u, c. split; [exact Hp|]. split; [exact Hs|]. split; [exact Ec|].
  assert (Ew' : s_source_weight s1 = (250 * quiet_dt : R)).
  { rewrite Ew, P2. cbn [mc_params quiet_md sp_n_particles]. change (@eq R (24 * (250 * quiet_dt) / (240 / 10)) (250 * quiet_dt)). field. }
  split; [|split].
  - unfold prepare_cycle in Hp. rb Hp as w Ew0. rb Hp as k Ek. apply Ok_inj in Hp. subst s1. cbn [s_unit u_mem m_cache m_flux initial_sim].
    replace (N.to_nat (N.of_nat (List.length (d_cells dom)) * sp_n_groups (mc_params quiet_md))) with 72%nat by (rewrite Lc, Ln; reflexivity). split; reflexivity.
  - intros k. rewrite Eb. destruct k; reflexivity.
  - unfold source_now in Hs. rb Hs as rates Er. rb Hs as [[cells k] new] Ecs. apply Ok_inj in Hs. injection Hs as <- <-. cbn [processing u_domain set_cells].
    rewrite quiet_rates in Er. apply Ok_inj in Er. subst rates. rewrite Ew', Ed in Ecs. rewrite Ec. cbn [swap_processing_processed initial_sim s_cont processing processed app].
    destruct (cells_calm dom eq_refl (proj1 (proj2 (domain_same _ _ _ _ _ _ D box_sized))) _ 0%nat _ _ _ ltac:(intros j cs Hj; exact Hj) Ecs) as (C1 & C2 & C3 & C4).
    split; [exact (eq_trans C2 (eq_trans Lc Ln))|]. split; [exact C1|]. split; [exact C3|].
    split; [cbn [d_mesh]; rewrite Ed; reflexivity|]. cbn [d_cells]. assert (C5 : List.length (d_cells dom) = List.length cells) by (clear - C4; induction C4; cbn; congruence). split; [exact (eq_trans (eq_sym C5) (eq_trans Lc Ln))|]. change (Forall (fun cs : cell_state Rops => cs_material cs = 0%N /\ cs_source_tally cs = 1%N) cells).
    pose proof (tallies_of_domain _ _ _ _ _ _ D box_sized) as Ht.
    clear - C4 Hm Ht. change (N.of_nat (List.length box_mats)) with 1%N in Hm. change (u_domain (s_unit (initial_sim quiet_md dom))) with dom in C4.
    induction C4 as [|a b la lb (E1 & E2) _ IH]; constructor; [|apply IH; [exact (Forall_inv_tail Hm)|exact (Forall_inv_tail Ht)]].
    pose proof (Forall_inv Hm) as H1. pose proof (Forall_inv Ht) as H2. cbv beta in H1, H2. rewrite E2, H2. lia.
Qed.
End Quiet.
