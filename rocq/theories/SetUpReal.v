(** The set-up of a run succeeds for accepted parameters, in exact arithmetic (C42, C43). *)
From Coq Require Import NArith ZArith QArith Qreals List Bool Reals Lra Lia Psatz String Permutation.
From Flocq Require Import Core.
From Verif Require Import Float RealOps RngModel RngLemmas ParticleModel NuclearModel MeshTypes Balance TrackModel CycleModel GridModel AssignModel MeshModel
  GridSpec GridLemmas MeshSpec GeomSpec SegmentFacts PopLemmas InitReal TrackAccount MaterialFacts WellBuilt ParamModel ParamSpec SetUpSpec BlockLemmas ParamLemmas IntegrityLemmas.
Import ListNotations.
Local Open Scope R_scope.

Lemma ceil_small (x : R) : 0 <= x <= 4 -> exists n, fto_usize (f := Rops) (fceil (f := Rops) x) = Some n /\ (n <= 4)%N.
Proof.
  intros [H0 H1]. cbn [fto_usize fceil Rops]. assert (A : (0 <= Zceil x <= 4)%Z).
  { split; [|apply Zceil_glb; exact H1]. apply le_IZR. apply Rle_trans with x; [exact H0|apply Zceil_ub]. }
  rewrite Rto_usize_Z by lia. eexists. split; [reflexivity|]. lia.
Qed.

Lemma fold_max_le l : forall n b, (n <= b)%N -> Forall (fun x => (x <= b)%N) l -> (fold_left N.max l n <= b)%N.
Proof. induction l as [|a l IH]; intros n b Hn H; [exact Hn|]. cbn [fold_left]. apply IH; [pose proof (Forall_inv H) as Ha; cbn beta in Ha; lia|exact (Forall_inv_tail H)]. Qed.

Lemma containers_ok (p : params Rops) ei : integrity p -> nu_bars_small p -> (4 * si_n_particles (pa_sim p) < two64)%N -> ei_n_units ei = 1%N ->
  ei_policy ei = Sequential \/ ei_policy ei = Rayon -> init_containers p ei = Ok tt.
Proof.
  intros (Hn & Hg & Hm) Hb H4 Eu Hp. unfold init_containers. rewrite Eu. cbn [N.eqb]. change (1 =? 0)%N with false. cbn [rbind]. rewrite N.div_1_r.
  assert (E : exists nus, rmap (fun e : string * material_params Rops => do nu <- map_index (pa_xs p) (mp_fission_cross_section (snd e)) ; unwrap (fto_usize (fceil (xp_nu_bar nu)))) (pa_mats p) = Ok nus /\
     Forall (fun x => (x <= 4)%N) nus /\ List.length nus = List.length (pa_mats p)).
  { revert Hm. generalize (pa_mats p) as l. induction l as [|e l IH]; intros Hm; cbn [rmap]; [eexists; split; [reflexivity|]; split; [constructor|reflexivity]|].
    destruct (Forall_inv Hm) as (_ & _ & Hf). destruct (known_get _ _ Hf) as (x & Ex). unfold map_index at 1. rewrite Ex. cbn [unwrap rbind].
    assert (Hx : 0 <= (xp_nu_bar x : R) <= 4). { unfold nu_bars_small in Hb. rewrite Forall_forall in Hb. apply (Hb (mp_fission_cross_section (snd e), x)). apply map_get_In. exact Ex. }
    destruct (ceil_small _ Hx) as (n & En & Hle). change (F Rops) with R in * . rewrite En. cbn [unwrap rbind].
    destruct (IH (Forall_inv_tail Hm)) as (nus & Er & Hl & Hlen). rewrite Er. cbn [rbind]. eexists. split; [reflexivity|]. split; [constructor; assumption|cbn [List.length]; congruence]. }
  destruct E as (nus & -> & Hl & Hlen). cbn [rbind]. destruct nus as [|n nus].
  { exfalso. destruct (pa_geom p) as [|g gs]; [congruence|]. destruct (Forall_inv Hg) as (_ & v & Hv). destruct (pa_mats p); [contradiction|discriminate]. }
  cbn [unwrap rbind]. assert (Hmost : (fold_left N.max nus n <= 4)%N) by (apply fold_max_le; [exact (Forall_inv Hl)|exact (Forall_inv_tail Hl)]).
  set (most := fold_left N.max nus n) in * . set (np := si_n_particles (pa_sim p)) in * . clearbody most np.
  assert (H10 : (np / 10 <= np)%N) by (apply N.div_le_upper_bound; lia). set (d := (np / 10)%N) in * . clearbody d.
  assert (B1 : (np + d <? two64)%N = true) by (apply N.ltb_lt; lia). assert (B2 : (np * N.max most 2 <? two64)%N = true).
  { apply N.ltb_lt. apply N.le_lt_trans with (np * 4)%N; [apply N.mul_le_mono_l; lia|lia]. }
  rewrite B1, B2. cbn [andb rassert rbind]. destruct Hp as [-> | ->]; reflexivity.
Qed.

Lemma unknown_boundary_init {K : FloatOps} order d (lx ly lz : F K) seed bc0 bc geoms mats dom :
  init_mcunits order d lx ly lz seed bc0 geoms mats = Ok dom -> requested bc 0 = None -> init_mcunits order d lx ly lz seed bc geoms mats = Panic.
Proof.
  intros H Hn. unfold init_mcunits in * . rb H as dom0 E0. clear H. unfold init_mesh in * . rb E0 as s1 E1. rb E0 as centers E2. rb E0 as p E3.
  rewrite E1. cbn [rbind]. rewrite E2. cbn [rbind]. rewrite E3. cbn [rbind]. unfold domain_new. unfold requested in Hn. unfold get_boundary_conditions.
  destruct (bc =? "reflect")%string; [discriminate|]. destruct (bc =? "escape")%string; [discriminate|]. destruct (bc =? "octant")%string; [discriminate|]. reflexivity.
Qed.

Section SetUp.
Context (real : string -> option (F Rops)) (yaml : string -> option block) (Hy : forall text b, yaml text = Some b -> distinct_keys b).

Lemma set_up_cases read order threads c (p : params Rops) : any_order order -> get_parameters real yaml read c = Ok (inl p) ->
  sane_sizes (pa_sim p) -> nu_bars_small p -> geometry_everywhere (pa_sim p) (pa_geom p) ->
  if match requested (si_boundary_condition (pa_sim p)) 0 with None => true | Some _ => false end then set_up real yaml read order threads c = Panic
  else exists md dom pt, init_mcdata p = Ok md /\ map mat_name (td_mats (mc_track md)) = map fst (pa_mats p) /\
    set_up real yaml read order threads c = Ok (Some (set_threads threads md, dom)) /\
    built_domain (grid_new (K := Rops) (dims_of (pa_sim p)) (si_lx (pa_sim p)) (si_ly (pa_sim p)) (si_lz (pa_sim p))) (si_boundary_condition (pa_sim p)) pt (pa_geom p) (td_mats (mc_track md)) dom.
Proof.
  intros Ho Eg (Hpos & Hsm & Htot & Bx & By & Bz & H10 & H4 & Hu & Hseed & Hc) Hnu Hev.
  destruct (accepted_means real yaml Hy read c p Eg) as (_ & _ & _ & _ & W & I).
  unfold set_up. rewrite Eg. cbn [rbind]. cbv zeta.
  set (s := pa_sim p) in * .
  assert (T : (si_nx s * si_ny s * si_nz s)%N = total_cells (dims_of s)) by reflexivity. rewrite T.
  assert (Hxy : (si_nx s * si_ny s < two64)%N).
  { destruct Hsm as (S1 & S2 & _). cbn [dims_of nx ny nz] in S1, S2. apply N.lt_le_trans with (2 ^ 31 * 2 ^ 31)%N; [apply N.mul_lt_mono; assumption|]. vm_compute. discriminate. }
  assert (Ht0 : total_cells (dims_of s) <> 0%N).
  { destruct Hpos as (P1 & P2 & P3). unfold total_cells in * . set (a := nx _) in * . set (b := ny _) in * . set (d := nz _) in * . clearbody a b d. clear - P1 P2 P3.
    apply N.neq_mul_0. split; [apply N.neq_mul_0|]; lia. }
  apply N.ltb_lt in Hxy. apply N.ltb_lt in Htot. apply N.eqb_neq in Ht0. rewrite Hxy, Htot, Ht0. cbn [andb negb rassert rbind].
  assert (Hten : (si_n_particles s / total_cells (dims_of s) <? 10)%N = false) by (apply N.ltb_ge; exact H10). rewrite Hten.
  destruct (accepted_initialises p I W) as (md & Emd & Nm & Hf & Hfind). { fold s. rewrite Hu. discriminate. }
  rewrite Emd. cbn [rbind].
  assert (Hei : ei_n_units (mc_exec md) = 1%N /\ (ei_policy (mc_exec md) = Sequential \/ ei_policy (mc_exec md) = Rayon)).
  { unfold init_mcdata in Emd. fold s in Emd. rb Emd as ei E1. rb Emd as [nd mats] E2. apply Ok_inj in Emd. subst md. cbn [mc_exec].
    unfold exec_info_new in E1. rewrite Hu in E1. change (1 =? 1)%N with true in E1. cbn [negb] in E1. destruct (negb (si_n_rayon_threads s =? 1)%N); apply Ok_inj in E1; subst ei; auto. }
  rewrite (containers_ok p (mc_exec md) I Hnu H4 (proj1 Hei) (proj2 Hei)). cbn [rbind].
  assert (Hev' : material_everywhere (dims_of s) (si_lx s) (si_ly s) (si_lz s) (pa_geom p) (td_mats (mc_track md))).
  { intros t Ht. destruct (Hfind (middle_of (grid_new (K := Rops) (dims_of s) (si_lx s) (si_ly s) (si_lz s)) t)) as (name & En & D). exists name. split; [exact En|].
    destruct (find_material_spec (pa_geom p) (middle_of (grid_new (K := Rops) (dims_of s) (si_lx s) (si_ly s) (si_lz s)) t)) as (name' & En' & D').
    { destruct I as (_ & Ig & _). eapply Forall_impl; [|exact Ig]. intros g (Hs & _). exact Hs. }
    rewrite En in En'. apply Ok_inj in En'. subst name'. destruct D' as [(g & Fc & ->)|(Hno & _)].
    - rewrite Forall_forall in Hf. apply Hf. clear - Fc. induction Fc; [left; reflexivity|right; assumption].
    - exfalso. specialize (Hev t Ht). rewrite Exists_exists in Hev. destruct Hev as (g & Hin & Hc'). rewrite Forall_forall in Hno. exact (Hno g Hin Hc'). }
  change (mkDims (si_nx s) (si_ny s) (si_nz s)) with (dims_of s).
  assert (Hi : forall bc, requested bc 0 <> None -> exists pt dom, init_mcunits (K := Rops) order (dims_of s) (si_lx s) (si_ly s) (si_lz s) (si_seed s) bc (pa_geom p) (td_mats (mc_track md)) = Ok dom /\
    built_domain (grid_new (K := Rops) (dims_of s) (si_lx s) (si_ly s) (si_lz s)) bc pt (pa_geom p) (td_mats (mc_track md)) dom) by (intros bc Hbc; apply init_succeeds; assumption).
  destruct (requested (si_boundary_condition s) 0) as [ev|] eqn:Eb.
  - destruct (Hi (si_boundary_condition s)) as (pt & dom & Ed & Bd); [congruence|]. rewrite Ed. cbn [rbind]. exists md, dom, pt. auto.
  - destruct (Hi "reflect"%string) as (pt & dom & Ed & _); [discriminate|]. rewrite (unknown_boundary_init _ _ _ _ _ _ _ _ _ _ _ Ed Eb). reflexivity.
Qed.

Lemma set_up_succeeds read order threads c (p : params Rops) : any_order order -> get_parameters real yaml read c = Ok (inl p) ->
  sane_sizes (pa_sim p) -> nu_bars_small p -> geometry_everywhere (pa_sim p) (pa_geom p) -> requested (si_boundary_condition (pa_sim p)) 0 <> None ->
  exists md dom pt, init_mcdata p = Ok md /\ map mat_name (td_mats (mc_track md)) = map fst (pa_mats p) /\
    set_up real yaml read order threads c = Ok (Some (set_threads threads md, dom)) /\
    built_domain (grid_new (K := Rops) (dims_of (pa_sim p)) (si_lx (pa_sim p)) (si_ly (pa_sim p)) (si_lz (pa_sim p))) (si_boundary_condition (pa_sim p)) pt (pa_geom p) (td_mats (mc_track md)) dom.
Proof. intros Ho Eg Hs Hn Hv Hb. pose proof (set_up_cases read order threads c p Ho Eg Hs Hn Hv) as H. destruct (requested _ 0); [exact H|congruence]. Qed.
Lemma set_up_unknown read order threads c (p : params Rops) : any_order order -> get_parameters real yaml read c = Ok (inl p) ->
  sane_sizes (pa_sim p) -> nu_bars_small p -> geometry_everywhere (pa_sim p) (pa_geom p) ->
  (set_up real yaml read order threads c = Panic <-> requested (si_boundary_condition (pa_sim p)) 0 = None).
Proof.
  intros Ho Eg Hs Hn Hv. pose proof (set_up_cases read order threads c p Ho Eg Hs Hn Hv) as H. destruct (requested _ 0); [|tauto].
  destruct H as (md & dom & pt & _ & _ & E & _). rewrite E. split; discriminate.
Qed.

Lemma default_everywhere (s : simulation_params Rops) : sane_sizes s -> geometry_everywhere s [source_geometry s].
Proof.
  intros (_ & _ & _ & Bx & By & Bz & _) [[x y] z] (Hx & Hy' & Hz). apply Exists_cons_hd. cbn [dims_of nx ny nz] in Hx, Hy', Hz.
  pose proof (coordinate (si_lx s) _ _ Bx Hx) as Cx. pose proof (coordinate (si_ly s) _ _ By Hy') as Cy. pose proof (coordinate (si_lz s) _ _ Bz Hz) as Cz.
  unfold contains, source_geometry. cbn [gp_shape gp_x_min gp_x_max gp_y_min gp_y_max gp_z_min gp_z_max].
  unfold middle_of, grid_point, grid_new. cbn [vx vy vz g_dx g_dy g_dz fdiv fof_N Rops fle dims_of nx ny nz f0]. unfold real_of in * .
  repeat split; apply Rleb_iff; apply Rlt_le; apply Cx || apply Cy || apply Cz.
Qed.

(** Without an input file, the only questions left are about sizes. *)
Lemma default_set_up read order threads c : any_order order -> cl_input_file c = None -> sane_sizes (from_cli c) ->
  exists md dom pt, set_up real yaml read order threads c = Ok (Some (md, dom)) /\
    built_domain (grid_new (K := Rops) (dims_of (from_cli c)) (si_lx (from_cli c)) (si_ly (from_cli c)) (si_lz (from_cli c))) "reflect" pt [source_geometry (from_cli c)] (td_mats (mc_track md)) dom /\
    Forall (fun cs => exists m, nth_error (td_mats (mc_track md)) (N.to_nat (cs_material cs)) = Some m /\ mat_name m = "source_material"%string) (d_cells dom).
Proof.
  intros Ho Hn Hs. set (s := from_cli c) in * .
  assert (Eover : cli_over c s = s).
  { unfold s, from_cli, cli_over, or_default. destruct (cl_energy_spectrum c), (cl_cross_sections_out c); reflexivity. }
  pose (p := supply_defaults (mkParams s [] [] [])).
  assert (Hi : integrity p).
  { apply (defaults_integrity (mkParams s [] [] [])); [reflexivity|constructor|]. intros name m []. }
  assert (Eg : get_parameters real yaml read c = Ok (inl p)).
  { rewrite get_parameters_unfold. unfold input_pieces. rewrite Hn. cbn [rev parse_blocks rbind pa_sim]. cbv zeta. fold s.
    change (set_sim (mkParams s [] [] []) (cli_over c s)) with (mkParams (cli_over c s) [] [] []). rewrite Eover. fold p. apply check_integrity_nil in Hi. rewrite Hi. reflexivity. }
  assert (Hev : geometry_everywhere (pa_sim p) (pa_geom p)) by (apply (default_everywhere s); exact Hs).
  destruct (set_up_succeeds read order threads c p Ho Eg Hs) as (md & dom & pt & _ & Nm & E & B).
  - constructor; [|constructor]. cbn [snd]. unfold flat_cross_section, xs_default. cbn [xp_nu_bar flit Rops]. unfold Q2R. cbn. lra.
  - exact Hev.
  - discriminate.
  - assert (Et : mc_track (set_threads threads md) = mc_track md) by (unfold set_threads; destruct (ei_policy (mc_exec md)); reflexivity).
    exists (set_threads threads md), dom, pt. rewrite Et. split; [exact E|]. split; [exact B|].
    pose proof (built_domain_parts _ _ _ _ _ _ B) as (_ & _ & _ & Hm). change (map fst (pa_mats p)) with ["source_material"%string] in Nm.
    destruct (td_mats (mc_track md)) as [|m [|]]; try discriminate Nm. injection Nm as Nm. eapply Forall_impl; [|exact Hm]. cbv beta. intros cs Hl. exists m. cbn [List.length] in Hl.
    replace (N.to_nat (cs_material cs)) with O by lia. auto.
Qed.
End SetUp.
