(** A small problem, computed with binary32 arithmetic: one cubic cell or two, one material, a few
    particles.  The problem of Demo.v in single precision. *)
From Coq Require Import NArith ZArith QArith List String.
From Verif Require Import Float ParticleModel NuclearModel MeshTypes Balance TrackModel CycleModel Ieee SingleModel GridModel
  AssignModel MeshModel SeqRun.
Import ListNotations.
Local Open Scope N_scope.

(** One brick that holds the whole problem. *)
Definition single_geometry : geometry_params K32 :=
  mkGeomParams "fuel" Brick f0 f0 f0 f0 f0 f0 f0 (flit (100 # 1)) (flit (100 # 1)) (flit (100 # 1)).
(** A flat cross-section. *)
Definition single_poly : polynomial K32 := mkPoly f0 f0 f0 f0 f1.
(** One isotope, three reactions (scatter, fission, absorption). *)
Definition single_material : material_params K32 :=
  mkMatParams "fuel" (flit (12 # 1)) (flit (2 # 10)) 1 3 (flit (10000000000 # 1)) "flat" "flat" "flat" f1 f1 f1.
Definition single_nuclear : result (nuclear_data K32 * list (material K32)) :=
  init_materials [single_material] (nuclear_new 3 (flit (1 # 1000)) (flit (20 # 1)))
    [("flat"%string, single_poly)] [("flat"%string, flit (24 # 10))].

Definition single_params (n_particles n_steps : N) : sim_params K32 :=
  mkSimParams n_particles 3 n_steps (flit (1 # 1000)) (flit (20 # 1)) (flit (1 # 1000)) true true false.

Definition single_data (policy : exec_policy) (n_particles n_steps : N) : result (mcdata K32) :=
  do (nd, mats) <- single_nuclear ;
  Ok (mkMcData (single_params n_particles n_steps) (mkExecInfo policy 2 0 1)
               (mkTrackData (flit (1 # 100000000)) nd mats) [("fuel"%string, single_material)]).

Definition single_domain (d : dims) (bc : string) : result (domain K32) :=
  do (nd, mats) <- single_nuclear ;
  init_mcunits (fun l => l) d (flit (10 # 1)) (flit (10 # 1)) (flit (10 # 1)) 1029384756 bc [single_geometry] mats.

(** The run of a problem under the sequential policy. *)
Definition single_run (d : dims) (bc : string) (n_particles n_steps : N) : result (sim K32) :=
  do md <- single_data Sequential n_particles n_steps ;
  do dom <- single_domain d bc ;
  seq_core_loop 20 200 20 md (initial_sim md dom).

Definition single_view (r : result (sim K32)) : option (list (N * list N) * list N) :=
  match r with
  | Ok s => Some (map (fun rp => (rp_cycle rp, map (bget (rp_balance rp))
                     [EStart; ESource; ESplit; EProduce; EAbsorb; ECensus; EEscape; EOverRr; EWeightRr; EFission;
                      ECollision; EScatter; ENumSegments; EEnd])) (s_reports s), rs_spectrum (s_results s))
  | _ => None
  end.

(** The run is the one of f64 (DemoRun.v): the same reports. *)
Lemma single_seen : single_view (single_run (mkDims 1 1 1) "octant" 10 2)
  = Some ([(0, [0; 1; 9; 21; 10; 11; 2; 0; 0; 8; 33; 15; 51; 11]);
           (1, [11; 1; 0; 26; 11; 1; 11; 5; 0; 10; 38; 17; 66; 1])], [0; 0; 12; 0]).
Proof. vm_compute. reflexivity. Qed.

Lemma single_run_inv d bc n steps v : single_view (single_run d bc n steps) = Some v ->
  exists md dom s, run_steps 200 20 md (initial_sim md dom) steps (Ok s) /\ sp_n_steps (mc_params md) = steps /\
  exists s', core_loop 200 20 md (initial_sim md dom) (Ok s') /\ single_view (Ok s') = Some v.
Proof.
  intros H. unfold single_run in H.
  destruct (single_data Sequential n steps) as [md| |] eqn:Ed; try discriminate.
  destruct (single_domain d bc) as [dom| |] eqn:Em; try discriminate.
  cbn [rbind] in H.
  destruct (seq_core_loop 20 200 20 md (initial_sim md dom)) as [s| |] eqn:E; try discriminate.
  assert (P : ei_policy (mc_exec md) = Sequential /\ sp_n_steps (mc_params md) = steps).
  { unfold single_data in Ed. destruct single_nuclear as [[nd mats]| |]; try discriminate. injection Ed as <-. split; reflexivity. }
  destruct P as (P & St). clear Ed Em. apply (seq_core_loop_sound 20) in E; [|exact P]. exists md, dom.
  assert (R : exists s1, run_steps 200 20 md (initial_sim md dom) steps (Ok s1)).
  { clear H. inversion E as [r Hp Hr E0|]; subst. destruct r as [s1| |]; try discriminate. exists s1. exact Hr. }
  destruct R as (s1 & R). exists s1. split; [exact R|]. split; [exact St|]. exists s. split; [exact E|exact H].
Qed.
Lemma single_exists : exists md dom s, run_steps 200 20 md (initial_sim md dom) 2 (Ok s) /\ sp_n_steps (mc_params md) = 2 /\
  exists s', core_loop 200 20 md (initial_sim md dom) (Ok s') /\
    single_view (Ok s') = Some ([(0, [0; 1; 9; 21; 10; 11; 2; 0; 0; 8; 33; 15; 51; 11]); (1, [11; 1; 0; 26; 11; 1; 11; 5; 0; 10; 38; 17; 66; 1])], [0; 0; 12; 0]).
Proof. exact (single_run_inv _ _ _ _ _ single_seen). Qed.
