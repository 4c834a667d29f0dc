(** A small problem, computed with binary64 arithmetic: one cubic cell or two, one material, a few
    particles.  It serves as the concrete case of the theorems about runs. *)
From Coq Require Import NArith ZArith QArith List String.
From Verif Require Import Float ParticleModel NuclearModel MeshTypes Balance TrackModel CycleModel Ieee GridModel
  AssignModel MeshModel SeqRun.
Import ListNotations.
Local Open Scope N_scope.

(** One brick that holds the whole problem. *)
Definition demo_geometry : geometry_params K64 :=
  mkGeomParams "fuel" Brick f0 f0 f0 f0 f0 f0 f0 (flit (100 # 1)) (flit (100 # 1)) (flit (100 # 1)).
(** A flat cross-section. *)
Definition demo_poly : polynomial K64 := mkPoly f0 f0 f0 f0 f1.
(** One isotope, three reactions (scatter, fission, absorption). *)
Definition demo_material : material_params K64 :=
  mkMatParams "fuel" (flit (12 # 1)) (flit (2 # 10)) 1 3 (flit (10000000000 # 1)) "flat" "flat" "flat" f1 f1 f1.
Definition demo_nuclear : result (nuclear_data K64 * list (material K64)) :=
  init_materials [demo_material] (nuclear_new 3 (flit (1 # 1000)) (flit (20 # 1)))
    [("flat"%string, demo_poly)] [("flat"%string, flit (24 # 10))].

Definition demo_params (n_particles n_steps : N) : sim_params K64 :=
  mkSimParams n_particles 3 n_steps (flit (1 # 1000)) (flit (20 # 1)) (flit (1 # 1000)) true true false.

Definition demo_data (policy : exec_policy) (n_particles n_steps : N) : result (mcdata K64) :=
  do (nd, mats) <- demo_nuclear ;
  Ok (mkMcData (demo_params n_particles n_steps) (mkExecInfo policy 2 0 1)
               (mkTrackData (flit (1 # 100000000)) nd mats) [("fuel"%string, demo_material)]).

Definition demo_domain (d : dims) (bc : string) : result (domain K64) :=
  do (nd, mats) <- demo_nuclear ;
  init_mcunits (fun l => l) d (flit (10 # 1)) (flit (10 # 1)) (flit (10 # 1)) 1029384756 bc [demo_geometry] mats.

(** The run of a problem under the sequential policy. *)
Definition demo_run (d : dims) (bc : string) (n_particles n_steps : N) : result (sim K64) :=
  do md <- demo_data Sequential n_particles n_steps ;
  do dom <- demo_domain d bc ;
  seq_core_loop 20 200 20 md (initial_sim md dom).

Definition demo_view (r : result (sim K64)) : option (list (N * list N) * list N) :=
  match r with
  | Ok s => Some (map (fun rp => (rp_cycle rp, map (bget (rp_balance rp))
                     [EStart; ESource; ESplit; EProduce; EAbsorb; ECensus; EEscape; EOverRr; EWeightRr; EFission;
                      ECollision; EScatter; ENumSegments; EEnd])) (s_reports s), rs_spectrum (s_results s))
  | _ => None
  end.
