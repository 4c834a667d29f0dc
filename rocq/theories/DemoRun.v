(** Two concrete runs, computed with binary64 arithmetic.

    The first one has one cell, octant boundary conditions and two cycles, with splitting, roulette,
    all three reactions, reflections and escapes; the second one has two cells. *)
From Coq Require Import NArith ZArith QArith List String.
From Verif Require Import Float ParticleModel NuclearModel MeshTypes Balance TrackModel CycleModel Ieee GridModel
  AssignModel MeshModel SeqRun Demo.
Import ListNotations.
Local Open Scope N_scope.

Lemma demo_seen : demo_view (demo_run (mkDims 1 1 1) "octant" 10 2)
  = Some ([(0, [0; 1; 9; 21; 10; 11; 2; 0; 0; 8; 33; 15; 51; 11]);
           (1, [11; 1; 0; 26; 11; 1; 11; 5; 0; 10; 38; 17; 66; 1])], [0; 0; 12; 0]).
Proof. vm_compute. reflexivity. Qed.

Lemma demo_seen2 : demo_view (demo_run (mkDims 2 1 1) "octant" 21 1)
  = Some ([(0, [0; 2; 18; 21; 10; 21; 2; 0; 0; 8; 33; 15; 63; 21])], [0; 0; 21; 0]).
Proof. vm_compute. reflexivity. Qed.

Lemma demo_run_inv d bc n steps v : demo_view (demo_run d bc n steps) = Some v ->
  exists md dom s, demo_data Sequential n steps = Ok md /\ demo_domain d bc = Ok dom /\
    core_loop 200 20 md (initial_sim md dom) (Ok s) /\ demo_view (Ok s) = Some v.
Proof.
  intros H. unfold demo_run in H.
  destruct (demo_data Sequential n steps) as [md| |] eqn:Ed; try discriminate.
  destruct (demo_domain d bc) as [dom| |] eqn:Em; try discriminate.
  cbn [rbind] in H.
  destruct (seq_core_loop 20 200 20 md (initial_sim md dom)) as [s| |] eqn:E; try discriminate.
  exists md, dom, s. split; [reflexivity|]. split; [reflexivity|]. split; [|exact H].
  apply (seq_core_loop_sound 20); [|exact E].
  unfold demo_data in Ed. destruct demo_nuclear as [[nd mats]| |]; try discriminate.
  injection Ed as <-. reflexivity.
Qed.

(** The run of the first problem exists and prints these two lines. *)
Lemma demo_exists : exists md dom s,
  demo_data Sequential 10 2 = Ok md /\ demo_domain (mkDims 1 1 1) "octant" = Ok dom /\
  core_loop 200 20 md (initial_sim md dom) (Ok s) /\
  demo_view (Ok s) = Some ([(0, [0; 1; 9; 21; 10; 11; 2; 0; 0; 8; 33; 15; 51; 11]);
           (1, [11; 1; 0; 26; 11; 1; 11; 5; 0; 10; 38; 17; 66; 1])], [0; 0; 12; 0]).
Proof. apply demo_run_inv. exact demo_seen. Qed.

Lemma demo_exists2 : exists md dom s,
  demo_data Sequential 21 1 = Ok md /\ demo_domain (mkDims 2 1 1) "octant" = Ok dom /\
  core_loop 200 20 md (initial_sim md dom) (Ok s) /\
  demo_view (Ok s) = Some ([(0, [0; 2; 18; 21; 10; 21; 2; 0; 0; 8; 33; 15; 63; 21])], [0; 0; 21; 0]).
Proof. apply demo_run_inv. exact demo_seen2. Qed.
