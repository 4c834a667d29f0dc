(** Concrete cases for the claims about parameters. *)
From Coq Require Import NArith ZArith QArith Qreals List Bool Reals Lra Lia String Ascii Permutation.
From Verif Require Import Float RealOps RngModel ParticleModel NuclearModel MeshTypes GridModel AssignModel MeshModel GridSpec MeshSpec GeomSpec GeomDemo
  ParamModel ParamSpec SetUpSpec BlockLemmas ParamLemmas IntegrityLemmas SetUpReal.
Import ListNotations.
Local Open Scope N_scope.

(** ** A file *)
Definition lines (l : list string) : string := String.concat (String lf EmptyString) l.
Definition demo_pieces : list string :=
  [ "a comment";
    lines ["Simulation:"; "nx: 2"; "nSteps: 7"];
    lines ["Geometry:"; "material: wall"; "shape: brick"];
    lines ["Geometry:"; "shape: sphere"; "material: fuel"];
    lines ["Material:"; "name: fuel"; "fissionCrossSection: f"; "scatteringCrossSection: f"; "absorptionCrossSection: f"];
    lines ["Material:"; "name: wall"; "fissionCrossSection: f"; "scatteringCrossSection: f"; "absorptionCrossSection: f"];
    lines ["Material:"; "name: wall"; "nIsotopes: 3"; "fissionCrossSection: g"];
    lines ["CrossSection:"; "name: f"; "A: 1"];
    lines ["Simulation:"; "nx: 3"; "ny: 4"; "dt: 1"] ]%string.
Definition demo_blocks : list (string * block) :=
  [ (lines ["nx: 2"; "nSteps: 7"], [("nx", "2"); ("nSteps", "7")]);
    (lines ["material: wall"; "shape: brick"], [("material", "wall"); ("shape", "brick")]);
    (lines ["shape: sphere"; "material: fuel"], [("shape", "sphere"); ("material", "fuel")]);
    (lines ["name: fuel"; "fissionCrossSection: f"; "scatteringCrossSection: f"; "absorptionCrossSection: f"],
     [("name", "fuel"); ("fissionCrossSection", "f"); ("scatteringCrossSection", "f"); ("absorptionCrossSection", "f")]);
    (lines ["name: wall"; "fissionCrossSection: f"; "scatteringCrossSection: f"; "absorptionCrossSection: f"],
     [("name", "wall"); ("fissionCrossSection", "f"); ("scatteringCrossSection", "f"); ("absorptionCrossSection", "f")]);
    (lines ["name: wall"; "nIsotopes: 3"; "fissionCrossSection: g"], [("name", "wall"); ("nIsotopes", "3"); ("fissionCrossSection", "g")]);
    (lines ["name: f"; "A: 1"], [("name", "f"); ("A", "1")]);
    (lines ["nx: 3"; "ny: 4"; "dt: 1"], [("nx", "3"); ("ny", "4"); ("dt", "1")]);
    (lines ["boundaryCondition: periodic"], [("boundaryCondition", "periodic")]) ]%string.
Definition demo_yaml (text : string) : option block := map_get demo_blocks text.
(** The same with the pairs in the opposite order. *)
Definition demo_yaml' (text : string) : option block := match demo_yaml text with Some b => Some (rev b) | None => None end.
Definition demo_read (name : string) : option string := if (name =? "demo")%string then Some (file_text demo_pieces) else None.

Lemma demo_in text b : demo_yaml text = Some b -> In b (map snd demo_blocks).
Proof. intros H. apply map_get_In in H. apply in_map_iff. exists (text, b). auto. Qed.
Lemma demo_distinct text b : demo_yaml text = Some b -> distinct_keys b.
Proof.
  intros H. apply demo_in in H. cbn [map snd demo_blocks In] in H.
  repeat (destruct H as [<-|H]; [unfold distinct_keys; cbn [map fst]; repeat constructor; cbn [In]; intuition discriminate|]). contradiction.
Qed.
Lemma demo_switches text b : demo_yaml text = Some b -> switches_given b.
Proof.
  intros H. apply demo_in in H. cbn [map snd demo_blocks In] in H.
  repeat (destruct H as [<-|H]; [unfold switches_given; repeat constructor; cbn [fst snd In]; intuition discriminate|]). contradiction.
Qed.
Lemma demo_same : same_blocks demo_yaml demo_yaml'.
Proof.
  intros text. unfold demo_yaml'. destruct (demo_yaml text) as [b|] eqn:E; [|exact I]. split; [eapply demo_distinct; exact E|apply Permutation_rev].
Qed.

Section Demo.
Context {K : FloatOps} (a : F K).
Definition demo_real (s : string) : option (F K) := if (s =? "1")%string then Some a else None.
Definition demo_cli (file : option string) : cli K :=
  mkCli file None (Some "xs.csv"%string) None true false false None None None None None (Some 4) false None None None None (Some 9) None.

Lemma demo_params : exists p, get_parameters demo_real demo_yaml demo_read (demo_cli (Some "demo"%string)) = Ok (inl p) /\
  si_nx (pa_sim p) = 2 /\ si_ny (pa_sim p) = 4 /\ si_nz (pa_sim p) = 9 /\ si_n_steps (pa_sim p) = 7 /\ si_dt (pa_sim p) = a /\ si_cross_sections_out (pa_sim p) = "xs.csv"%string /\
  map gp_material_name (pa_geom p) = ["fuel"; "wall"]%string /\
  option_map mp_n_isotopes (map_get (pa_mats p) "wall"%string) = Some 10.
Proof. eexists. split; [vm_compute; reflexivity|]. vm_compute. repeat split. Qed.

(** The names of the third material are wrong when it is the only one. *)
Definition demo_bad : params K :=
  mkParams simulation_default [geometry_default] [("m", mkMatParams "m" f1 f1 1 1 f1 "x" "x" "y" f1 f1 f1)]%string [("x", flat_cross_section)]%string.
Lemma demo_bad_errors : check_integrity demo_bad = [UndefinedGeometry; MissingMaterial ""; MissingCrossSection "m:y"]%string.
Proof. vm_compute. reflexivity. Qed.
End Demo.

Lemma demo_pieces_plain : demo_pieces <> [] /\ Forall no_blank_line demo_pieces /\ Forall starts_text (tl demo_pieces).
Proof.
  split; [discriminate|]. split; [unfold demo_pieces; repeat (constructor; [vm_compute; repeat split; intuition discriminate|]); constructor|].
  unfold demo_pieces. cbn [tl]. repeat (constructor; [vm_compute; discriminate|]); constructor.
Qed.

(** ** Default sizes *)
Definition plain_cli : cli Rops := mkCli None None None None false false false None None None None None None false None None None None None None.
Lemma hundred_ok : box_ok (Q2R (100 # 1)).
Proof. unfold box_ok, Q2R. cbn [Qnum Qden]. rewrite Rinv_1, Rmult_1_r. split; [lra|]. apply IZR_lt. reflexivity. Qed.
Lemma plain_sane : sane_sizes (from_cli plain_cli).
Proof.
  unfold sane_sizes. split; [vm_compute; auto|]. split; [vm_compute; auto|]. split; [vm_compute; reflexivity|].
  split; [exact hundred_ok|]. split; [exact hundred_ok|]. split; [exact hundred_ok|]. split; [vm_compute; discriminate|]. split; [vm_compute; reflexivity|].
  split; [reflexivity|]. split; [vm_compute; reflexivity|]. split; [|split]; apply draw_below_1; vm_compute; reflexivity.
Qed.

(** A file that only sets an unknown boundary condition. *)
Definition odd_read (name : string) : option string := Some (lines ["Simulation:"; "boundaryCondition: periodic"]%string).
Definition odd_cli : cli Rops := mkCli (Some "odd"%string) None None None false false false None None None None None None false None None None None None None.
Lemma odd_params : exists p, get_parameters (K := Rops) (demo_real (1%R : F Rops)) demo_yaml odd_read odd_cli = Ok (inl p) /\
  si_boundary_condition (pa_sim p) = "periodic"%string /\ sane_sizes (pa_sim p) /\ nu_bars_small p /\ geometry_everywhere (pa_sim p) (pa_geom p).
Proof.
  pose (p := supply_defaults (with_boundary (mkParams (from_cli odd_cli) [] [] []) "periodic")). exists p.
  split; [reflexivity|]. split; [reflexivity|]. assert (Hs : sane_sizes (pa_sim p)) by exact plain_sane. split; [exact Hs|]. split.
  - constructor; [|constructor]. cbn [snd]. unfold flat_cross_section, xs_default. cbn [xp_nu_bar flit Rops]. unfold Q2R. cbn. lra.
  - exact (default_everywhere (pa_sim p) Hs).
Qed.

Lemma plain_params : exists p, get_parameters (K := Rops) (demo_real (1%R : F Rops)) demo_yaml odd_read plain_cli = Ok (inl p) /\
  si_boundary_condition (pa_sim p) = "reflect"%string /\ sane_sizes (pa_sim p) /\ nu_bars_small p /\ geometry_everywhere (pa_sim p) (pa_geom p).
Proof.
  pose (p := supply_defaults (mkParams (from_cli plain_cli) [] [] [])). exists p.
  split; [reflexivity|]. split; [reflexivity|]. assert (Hs : sane_sizes (pa_sim p)) by exact plain_sane. split; [exact Hs|]. split.
  - constructor; [|constructor]. cbn [snd]. unfold flat_cross_section, xs_default. cbn [xp_nu_bar flit Rops]. unfold Q2R. cbn. lra.
  - exact (default_everywhere (pa_sim p) Hs).
Qed.

(** ** Order of the pairs of a bad block *)
Lemma panic_or_error : exists b b' : block, distinct_keys b /\ Permutation b b' /\
  forall (K : FloatOps) (real : string -> option (F K)) s, update_simulation real s b = Panic /\ update_simulation real s b' = Ok (s, false).
Proof.
  exists [("loadBalance", ""); ("dx", "1")]%string, [("dx", "1"); ("loadBalance", "")]%string. split; [|split].
  - unfold distinct_keys. cbn. repeat constructor; cbn; intuition discriminate.
  - apply perm_swap.
  - intros K real s. destruct s. split; reflexivity.
Qed.
