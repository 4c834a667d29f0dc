(** The cases of the claims about the energy spectrum. *)
From Coq Require Import Arith NArith ZArith QArith Reals String List Bool Lia Lra Sorted.
From Verif Require Import Float RealOps ParticleModel NuclearModel MeshTypes Balance TrackModel CycleModel ParamModel GridModel MeshModel Ieee
  TrackAccount CycleAccount CycleFacts PopSpec PopDemo SegmentFacts GeomSpec StaySpec GeomDemo NuclearSpec NuclearFacts Demo DemoRun QuietRun QuietTrack
  XsTableFacts SpectrumModel SpectrumSpec SpectrumFacts.
Import ListNotations.
Local Open Scope N_scope.

Lemma add_defined {K : FloatOps} : forall (ps : list (particle K)) sp, Forall (fun p => (N.to_nat (p_energy_group p) < List.length sp)%nat) ps ->
  exists sp', rfold spectrum_add ps sp = Ok sp'.
Proof.
  induction ps as [|p ps IH]; intros sp H; [exists sp; reflexivity|]. cbn [rfold]. unfold spectrum_add at 1.
  destruct (vec_get_in sp (p_energy_group p) (Forall_inv H)) as (x & E & _). rewrite E. cbn [rbind]. apply IH. rewrite length_list_set. exact (Forall_inv_tail H).
Qed.

Lemma logged_runs fuel cf (md : mcdata Rops) d n s hs : run_log fuel cf md d n s hs -> run_steps fuel cf md (initial_sim md d) n (Ok s).
Proof. induction 1 as [|? ? ? ? ? ? ? ? ? ? ? _ IH E _ _ _ P _]; [constructor|]. exact (rs_succ _ _ _ _ _ _ _ _ IH E P). Qed.

Lemma quiet_increasing : increasing (fun x : R => x) (nd_energies (td_nuclear (mc_track quiet_md))).
Proof. repeat constructor; lra. Qed.

(** The quiet run, to its end. *)
Lemma quiet_ends : exists pt dom s, built_domain box "octant" pt box_geoms box_mats dom /\ core_loop 1 0 quiet_md (initial_sim quiet_md dom) (Ok s) /\
  24 <= nsum (rs_spectrum (s_results s)).
Proof.
  destruct box_init as (pt & dom & _ & D). destruct (quiet_run 0 0 pt dom D) as (s & hs & Hlog & _ & _ & Hn & _ & Hm & _).
  pose proof (logged_runs _ _ _ _ _ _ _ Hlog) as Hr. pose proof (run_steps_settled _ _ _ _ _ _ Hr _ eq_refl ltac:(vm_compute; discriminate)) as St.
  pose proof (kept_grouped _ _ _ _ _ _ Hr ltac:(vm_compute; discriminate)) as G.
  assert (Es : List.length (rs_spectrum (s_results s)) = 4%nat).
  { inversion Hlog as [|n s0 hs0 s1 u0 c0 born u c hs' s2 H0 Hsync _ _ _ P _]; subst.
    assert (n = 0) by lia. subst n. inversion H0; subst; [|lia]. rewrite (process_results _ _ _ _ _ P). unfold cycle_sync in Hsync. cbn [N.eqb] in Hsync.
    apply prepare_reports in Hsync as (-> & _). reflexivity. }
  assert (Hf : exists s3, finish_cycle quiet_md 1 s = Ok s3).
  { unfold finish_cycle. cbn [mc_exec quiet_md ei_policy]. unfold update_stats. cbn [mc_params quiet_md sp_standard rbind]. unfold update_spectrum. cbn [mc_params quiet_md sp_spectrum].
    rewrite (se_processing _ _ _ _ St). cbn [rfold rbind rs_spectrum].
    destruct (add_defined (processed (s_cont s)) (rs_spectrum (s_results s))) as (sp' & ->); [|eexists; reflexivity].
    rewrite Es. revert G. apply Forall_impl. intros p Hp. unfold grouped in Hp.
    destruct (lookup_total (td_nuclear (mc_track quiet_md)) (p_kinetic_energy p) ltac:(cbn; lia)) as (g & E & Hg). rewrite Hp in E. injection E as ->. exact Hg. }
  destruct Hf as (s3 & Hf). destruct (finish_cycle_parts _ _ _ _ Hf) as (_ & _ & F3 & _).
  destruct (prepare_defined quiet_md s3 (map (fun cs : cell_state Rops => (cs_volume cs * 1 * quiet_dt)%R) (d_cells (u_domain (s_unit s3))))) as (s4 & Hp & _).
  - constructor; [eexists; reflexivity|constructor].
  - rewrite F3. clear - Hm. induction Hm as [|cs l E _ IH]; cbn [map]; constructor; [|exact IH].
    exists (mkMaterial (K := Rops) "fuel" (12 : R)%R []), tiny_mat. rewrite E. split; [reflexivity|]. split; reflexivity.
  - reflexivity.
  - assert (Hs : cycle_sync quiet_md 1 s = Ok s4).
    { unfold cycle_sync. change (1 =? 0) with false. cbv iota. rewrite Hf. cbn [rbind]. change (1 =? sp_n_steps (mc_params quiet_md) + 1) with false. cbv iota. exact Hp. }
    exists pt, dom, s4. split; [exact D|]. split.
    + rewrite <- Hs. change (cycle_sync quiet_md 1 s) with (do s0 <- Ok s ; cycle_sync quiet_md (sp_n_steps (mc_params quiet_md)) s0).
      apply cl_run; [left; reflexivity|exact Hr].
    + apply prepare_reports in Hp as (-> & _). destruct (finish_spectrum _ _ _ _ Hf eq_refl) as (_ & _ & ->). rewrite app_length. lia.
Qed.

(** The parameters of the run of Demo.v, as far as the file is concerned. *)
Definition named : params K64 :=
  let '(mkSimulation inp spe xso bc lb csv dbg np cs nt bt nu ns nx ny nz seed dt lx ly lz e0 e1 ng lw co) := simulation_default (K := K64) in
  mkParams (mkSimulation inp "levels"%string xso bc lb csv dbg np cs nt bt nu ns nx ny nz seed dt lx ly lz e0 e1 ng lw co) [] [] [].

Lemma demo_file : exists md d s text, core_loop 200 20 md (initial_sim md d) (Ok s) /\
  List.length (nd_energies (td_nuclear (mc_track md))) = S (N.to_nat (sp_n_groups (mc_params md))) /\
  sp_spectrum (mc_params md) = negb (si_energy_spectrum (pa_sim named) =? "")%string /\
  spectrum_file (K := K64) (fun _ => "0.5"%string) named md s = Ok (Some ("levels.dat"%string, text)) /\
  text = String.concat "" (map (fun l => l ++ CsvModel.newline)%string
    ["energy level index |         energy level |         count";
     "-------------------|----------------------|--------------";
     "                 0 |                  0.5 |             0";
     "                 1 |                  0.5 |             0";
     "                 2 |                  0.5 |            12";
     "                 3 |                  0.5 |             0"])%string.
Proof.
  destruct demo_exists as (md & d & s & Ed & _ & H & V). unfold demo_view in V. injection V as _ V.
  assert (Q : List.length (nd_energies (td_nuclear (mc_track md))) = 4%nat /\ sp_n_groups (mc_params md) = 3 /\ sp_spectrum (mc_params md) = true).
  { unfold demo_data in Ed. destruct demo_nuclear as [[nd mats]| |] eqn:En; try discriminate Ed. injection Ed as <-.
    destruct (init_materials_mix _ _ _ _ _ _ En) as (_ & Ee & _). cbn [mc_track td_nuclear mc_params demo_params sp_n_groups sp_spectrum]. rewrite Ee, new_energies_length. auto. }
  destruct Q as (Q1 & Q2 & Q3). do 4 eexists. split; [exact H|]. split; [rewrite Q1, Q2; reflexivity|]. split; [rewrite Q3; reflexivity|]. split; [|reflexivity].
  unfold spectrum_file. rewrite V. destruct (nd_energies (td_nuclear (mc_track md))) as [|e0 [|e1 [|e2 [|e3 [|e4 l]]]]]; try discriminate Q1. reflexivity.
Qed.
