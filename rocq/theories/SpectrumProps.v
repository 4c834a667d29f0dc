(** C61: the file of the energy spectrum. *)
From Coq Require Import Arith NArith Reals String Ascii List Bool Lia Lra.
From Verif Require Import Float RealOps ParticleModel NuclearModel MeshTypes Balance TrackModel CycleModel ParamModel CsvModel CycleFacts NuclearSpec GeomSpec GeomDemo Ieee
  QuietRun XsTableSpec XsTableText SpectrumModel SpectrumSpec SpectrumFacts SpectrumDemo.
Import ListNotations.
Local Open Scope N_scope.

(** A particle left at the end of a cycle has the group of its energy. *)
Theorem c61_group_current : forall (K : FloatOps) fuel cf (md : mcdata K) d n s, run_steps fuel cf md (initial_sim md d) n (Ok s) -> n <= sp_n_steps (mc_params md) ->
  Forall (fun p => get_energy_groups (td_nuclear (mc_track md)) (p_kinetic_energy p) = Ok (p_energy_group p)) (processed (s_cont s)).
Proof. exact @kept_grouped. Qed.
Print Assumptions c61_group_current.

(** With the data that the initialisation builds, there is one more boundary than groups, and counting is on exactly when a name is given. *)
Theorem c61_built : forall (K : FloatOps) (p : params K) md threads, init_mcdata p = Ok md ->
  List.length (nd_energies (td_nuclear (mc_track (set_threads threads md)))) = S (N.to_nat (sp_n_groups (mc_params (set_threads threads md)))) /\
  sp_spectrum (mc_params (set_threads threads md)) = negb (si_energy_spectrum (pa_sim p) =? "")%string.
Proof. exact @built_spectrum. Qed.
Print Assumptions c61_built.

(** At the end of a run the file is written exactly when a name is given, and writing it never panics.  It has a line for each group and one more; each line shows
    its number, the boundary with that number, and how many of the particles left at the end of the cycles have an energy in that group. *)
Theorem c61_file : forall (K : FloatOps) (show15 : F K -> string), (forall x, word (show15 x)) -> forall fuel cf (p : params K) md d s,
  List.length (nd_energies (td_nuclear (mc_track md))) = S (N.to_nat (sp_n_groups (mc_params md))) ->
  sp_spectrum (mc_params md) = negb (si_energy_spectrum (pa_sim p) =? "")%string ->
  core_loop fuel cf md (initial_sim md d) (Ok s) ->
  (si_energy_spectrum (pa_sim p) = ""%string -> spectrum_file show15 p md s = Ok None) /\
  (si_energy_spectrum (pa_sim p) <> ""%string -> exists text lines,
    spectrum_file show15 p md s = Ok (Some ((si_energy_spectrum (pa_sim p) ++ ".dat")%string, text)) /\
    split_on is_eol text = (spectrum_header :: spectrum_rule :: lines ++ [""%string])%list /\ cells_of spectrum_header = ["energy level index"; "energy level"; "count"]%string /\
    List.length lines = S (N.to_nat (sp_n_groups (mc_params md))) /\
    exists s0 ks, run_kept fuel cf md d (sp_n_steps (mc_params md)) s0 ks /\ cycle_sync md (sp_n_steps (mc_params md)) s0 = Ok s /\
    forall g l, nth_error lines g = Some l -> exists e n, nth_error (nd_energies (td_nuclear (mc_track md))) g = Some e /\
      counted (fun q => get_energy_groups (td_nuclear (mc_track md)) (p_kinetic_energy q) = Ok (N.of_nat g)) (concat ks) n /\
      cells_of l = [show_N (N.of_nat g); show15 e; show_N n]).
Proof. exact @file_at_end. Qed.
Print Assumptions c61_file.

(** A run of two cycles, and its file. *)
Example c61_file_case : exists (md : mcdata K64) d s text, core_loop 200 20 md (initial_sim md d) (Ok s) /\
  List.length (nd_energies (td_nuclear (mc_track md))) = S (N.to_nat (sp_n_groups (mc_params md))) /\
  sp_spectrum (mc_params md) = negb (si_energy_spectrum (pa_sim named) =? "")%string /\
  spectrum_file (K := K64) (fun _ => "0.5"%string) named md s = Ok (Some ("levels.dat"%string, text)) /\
  text = String.concat "" (map (fun l => l ++ newline)%string
    ["energy level index |         energy level |         count";
     "-------------------|----------------------|--------------";
     "                 0 |                  0.5 |             0";
     "                 1 |                  0.5 |             0";
     "                 2 |                  0.5 |            12";
     "                 3 |                  0.5 |             0"])%string.
Proof. exact demo_file. Qed.

(** In exact arithmetic the count of a line is that of the particles whose energy lies from its boundary to the next one; the first line also has those below
    all boundaries, and the last line has those above all of them. *)
Theorem c61_levels : forall fuel cf (md : mcdata Rops) d s', core_loop fuel cf md (initial_sim md d) (Ok s') -> sp_spectrum (mc_params md) = true ->
  (2 <= List.length (nd_energies (td_nuclear (mc_track md))))%nat -> increasing (fun x : R => x) (nd_energies (td_nuclear (mc_track md))) ->
  exists s ks, run_kept fuel cf md d (sp_n_steps (mc_params md)) s ks /\ cycle_sync md (sp_n_steps (mc_params md)) s = Ok s' /\
    forall g n, nth_error (rs_spectrum (s_results s')) g = Some n ->
      counted (fun p : particle Rops => on_level (nd_energies (td_nuclear (mc_track md))) g (p_kinetic_energy p)) (concat ks) n.
Proof. exact run_levels. Qed.
Print Assumptions c61_levels.

(** A run of one cycle with at least 24 particles at its end. *)
Example c61_levels_case : exists pt dom s, built_domain box "octant" pt box_geoms box_mats dom /\ core_loop 1 0 quiet_md (initial_sim quiet_md dom) (Ok s) /\
  24 <= nsum (rs_spectrum (s_results s)) /\ sp_spectrum (mc_params quiet_md) = true /\ (2 <= List.length (nd_energies (td_nuclear (mc_track quiet_md))))%nat /\
  increasing (fun x : R => x) (nd_energies (td_nuclear (mc_track quiet_md))).
Proof.
  destruct quiet_ends as (pt & dom & s & H1 & H2 & H3). exists pt, dom, s. split; [exact H1|]. split; [exact H2|]. split; [exact H3|].
  split; [reflexivity|]. split; [cbn; lia|exact quiet_increasing].
Qed.
