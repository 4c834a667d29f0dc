(** What the parameters exclude does not happen in a run of the program, in exact arithmetic (C66). *)
From Coq Require Import NArith ZArith QArith Qreals String List Bool Reals Lra Lia Permutation.
From Verif Require Import Float RealOps RngModel ParticleModel NuclearModel MeshTypes Balance TrackModel CycleModel GridModel AssignModel MeshModel GridSpec MeshSpec
  TrackAccount SegmentFacts GeomSpec InitReal MaterialFacts WellBuilt ParamModel ParamSpec SetUpSpec ParamLemmas IntegrityLemmas SetUpReal ParamDemo SafeSpec SafeBuilt SafeReal ExcludeSpec ExcludeFacts ExcludeBuilt.
Import ListNotations.
Local Open Scope R_scope.

Lemma box_sized (d : dims) (lx ly lz : R) : positive d -> box_ok lx -> box_ok ly -> box_ok lz -> sized (grid_new (K := Rops) d lx ly lz).
Proof.
  intros (Px & Py & Pz) Bx By Bz. unfold sized, grid_new. cbn [g_dx g_dy g_dz fdiv fof_N Rops].
  destruct Bx, By, Bz. split; [|split]; apply Rdiv_lt_0_compat; try assumption; apply (IZR_lt 0); lia.
Qed.

Section Program.
Context (real : string -> option (F Rops)) (yaml : string -> option block) (Hy : forall text b, yaml text = Some b -> distinct_keys b).

Lemma program_excludes read order threads (c : cli Rops) (p : params Rops) fuel cf s : any_order order -> get_parameters real yaml read c = Ok (inl p) ->
  sane_sizes (pa_sim p) -> physical p -> geometry_everywhere (pa_sim p) (pa_geom p) -> requested (si_boundary_condition (pa_sim p)) 0 <> None ->
  program real yaml fuel cf read order threads c (Ok (Some s)) ->
  (si_boundary_condition (pa_sim p) = "reflect"%string -> Forall (fun b => bget b EEscape = 0%N) (all_rows s)) /\
  (forall k, Forall (fun e : string * material_params Rops => ratio_of k (snd e) = (0 : R)) (pa_mats p) ->
     forall ev, In ev (tells_of k) -> Forall (fun b => bget b ev = 0%N) (all_rows s)).
Proof.
  intros Ho Ep Hs Hp Hg Hb H. destruct (program_set_up real yaml Hy read order threads c p Ho Ep Hs Hp Hg Hb) as (md & dom & pt & Hi & _ & Es & D).
  remember (Ok (Some s)) as r0 eqn:Er in H. destruct H as [md' dom' r Es' HR|E|E|E]; [|discriminate Er|discriminate Er|discriminate Er].
  rewrite Es in Es'. apply Ok_inj in Es'. injection Es' as <- <-. rb Er as s' E. apply Ok_inj in Er. injection Er as <-. subst r. split.
  - intros Ebc. eapply run_closed; [|exact HR]. eapply reflecting_closed. rewrite Ebc in D. exact D.
  - intros k Hk ev Hev. eapply (run_excluded _ _ _ _ _ k (proj1 zero_real) (proj2 zero_real)); [|exact HR|exact Hev].
    eapply parameters_exclude; [exact Hi|exact Hp|exact D| |exact Hk]. destruct Hs as (P & _ & _ & Bx & By & Bz & _). apply box_sized; assumption.
Qed.

(** Without an input file nothing escapes. *)
Lemma default_closed read order threads (c : cli Rops) fuel cf s : any_order order -> cl_input_file c = None -> sane_sizes (from_cli c) -> 0 < (si_dt (from_cli c) : R) ->
  program real yaml fuel cf read order threads c (Ok (Some s)) -> Forall (fun b => bget b EEscape = 0%N) (all_rows s).
Proof.
  intros Ho Hn Hs Hdt H. pose proof (default_parameters real yaml read c Hn) as Ep. pose proof (default_physical c Hdt) as Hp.
  refine (proj1 (program_excludes read order threads c _ fuel cf s Ho Ep _ _ _ _ H) _); [exact Hs|exact Hp|apply (default_everywhere (from_cli c)); exact Hs|discriminate|reflexivity].
Qed.
End Program.

(** ** A case: the default problem without fission *)
Definition no_fission_material : material_params Rops :=
  mkMatParams (K := Rops) "source_material" (flit (1000 # 1)) f1 10 9 (flit (10000000000 # 1)) "flat" "flat" "flat" f1 f1 (0 : R).
Definition no_fission : params Rops :=
  let p := supply_defaults (mkParams (from_cli plain_cli) [] [] []) in mkParams (pa_sim p) (pa_geom p) [("source_material"%string, no_fission_material)] (pa_xs p).

Lemma no_fission_physical : physical no_fission.
Proof.
  constructor; cbn -[from_cli Q2R Rle Rlt].
  - unfold from_cli, simulation_default, plain_cli. cbn. unfold Q2R. cbn. lra.
  - cbn. lia.
  - unfold from_cli, simulation_default. cbn [si_e_min si_e_max flit Rops]. unfold Q2R. cbn. lra.
  - constructor; [|constructor]. cbn. unfold Q2R. cbn. lra.
  - constructor; [|constructor]. cbn. unfold Q2R. cbn. lra.
  - constructor; [|constructor]. cbn. unfold Q2R. cbn. lra.
  - constructor; [|constructor]. cbn. unfold Q2R. cbn. lra.
  - constructor; [|constructor]. cbn. unfold Q2R. cbn. lra.
Qed.

Lemma no_fission_case : exists md pt dom, init_mcdata no_fission = Ok md /\ physical no_fission /\
  built_domain (grid_new (K := Rops) (dims_of (pa_sim no_fission)) (si_lx (pa_sim no_fission)) (si_ly (pa_sim no_fission)) (si_lz (pa_sim no_fission))) "reflect" pt (pa_geom no_fission) (td_mats (mc_track md)) dom /\
  sized (grid_new (K := Rops) (dims_of (pa_sim no_fission)) (si_lx (pa_sim no_fission)) (si_ly (pa_sim no_fission)) (si_lz (pa_sim no_fission))) /\
  Forall (fun e : string * material_params Rops => ratio_of Fission (snd e) = (0 : R)) (pa_mats no_fission).
Proof.
  assert (Hs : sane_sizes (pa_sim no_fission)) by exact plain_sane.
  assert (I : integrity no_fission).
  { split; [discriminate|]. split.
    - apply Forall_cons; [|apply Forall_nil]. split; [discriminate|]. eexists; left; reflexivity.
    - apply Forall_cons; [|apply Forall_nil]. unfold material_sound. cbn. split; [|split]; eexists; left; reflexivity. }
  assert (W : well_named no_fission).
  { unfold well_named, distinct_keys. cbn. repeat split; repeat constructor; cbn; intuition discriminate. }
  destruct (accepted_initialises no_fission I W) as (md & Emd & Nm & Hf & Hfind); [discriminate|].
  pose proof (default_everywhere (pa_sim no_fission) Hs) as Hev.
  assert (Hev' : material_everywhere (dims_of (pa_sim no_fission)) (si_lx (pa_sim no_fission)) (si_ly (pa_sim no_fission)) (si_lz (pa_sim no_fission)) (pa_geom no_fission) (td_mats (mc_track md))).
  { intros t Ht. destruct (Hfind (middle_of (grid_new (K := Rops) (dims_of (pa_sim no_fission)) (si_lx (pa_sim no_fission)) (si_ly (pa_sim no_fission)) (si_lz (pa_sim no_fission))) t)) as (name & En & _).
    exists name. split; [exact En|].
    destruct (find_material_spec (pa_geom no_fission) (middle_of (grid_new (K := Rops) (dims_of (pa_sim no_fission)) (si_lx (pa_sim no_fission)) (si_ly (pa_sim no_fission)) (si_lz (pa_sim no_fission))) t)) as (name' & En' & D').
    { destruct I as (_ & Ig & _). eapply Forall_impl; [|exact Ig]. intros g (Hsh & _). exact Hsh. }
    rewrite En in En'. apply Ok_inj in En'. subst name'. destruct D' as [(g & Fc & ->)|(Hno & _)].
    - rewrite Forall_forall in Hf. apply Hf. clear - Fc. induction Fc; [left; reflexivity|right; assumption].
    - exfalso. specialize (Hev t Ht). rewrite Exists_exists in Hev. destruct Hev as (g & Hin & Hc'). rewrite Forall_forall in Hno. exact (Hno g Hin Hc'). }
  pose proof Hs as (P & Sm & _ & Bx & By & Bz & _ & _ & _ & Hseed & Hc).
  destruct (init_succeeds (fun l => l) (dims_of (pa_sim no_fission)) (si_lx (pa_sim no_fission)) (si_ly (pa_sim no_fission)) (si_lz (pa_sim no_fission)) (si_seed (pa_sim no_fission)) "reflect" (pa_geom no_fission) (td_mats (mc_track md))
    (fun l => Permutation_refl l) P Sm Bx By Bz Hseed Hc ltac:(discriminate) Hev') as (pt & dom & _ & D).
  exists md, pt, dom. split; [exact Emd|]. split; [exact no_fission_physical|]. split; [exact D|]. split; [apply box_sized; assumption|]. constructor; [reflexivity|constructor].
Qed.
