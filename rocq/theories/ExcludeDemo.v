(** The cases of the claim that what the problem excludes does not happen. *)
From Coq Require Import NArith ZArith QArith String List Bool.
From Verif Require Import Float ParticleModel NuclearModel MeshTypes Balance TrackModel CycleModel Ieee GridModel AssignModel MeshModel SeqRun CycleSpec Demo DemoRun ExcludeSpec.
Import ListNotations.
Local Open Scope N_scope.

(** The demonstration problem with scattering only, or with absorption only. *)
Definition one_kind_material (k : reaction_type) : material_params K64 :=
  let r k' := match k, k' with Scatter, Scatter | Absorption, Absorption | Fission, Fission => f1 | _, _ => f0 end in
  mkMatParams "fuel" (flit (12 # 1)) (flit (2 # 10)) 1 3 (flit (10000000000 # 1)) "flat" "flat" "flat" (r Scatter) (r Absorption) (r Fission).
Definition one_kind_nuclear (k : reaction_type) : result (nuclear_data K64 * list (material K64)) :=
  init_materials [one_kind_material k] (nuclear_new 3 (flit (1 # 1000)) (flit (20 # 1))) [("flat"%string, demo_poly)] [("flat"%string, flit (24 # 10))].
Definition one_kind_data (k : reaction_type) (n steps : N) : result (mcdata K64) :=
  do (nd, mats) <- one_kind_nuclear k ;
  Ok (mkMcData (demo_params n steps) (mkExecInfo Sequential 1 0 1) (mkTrackData (flit (1 # 100000000)) nd mats) [("fuel"%string, one_kind_material k)]).
Definition one_kind_domain (k : reaction_type) (bc : string) : result (domain K64) :=
  do (nd, mats) <- one_kind_nuclear k ;
  init_mcunits (fun l => l) (mkDims 1 1 1) (flit (10 # 1)) (flit (10 # 1)) (flit (10 # 1)) 1029384756 bc [demo_geometry] mats.
Definition one_kind_run (k : reaction_type) (bc : string) (n steps : N) : result (sim K64) :=
  do md <- one_kind_data k n steps ;
  do dom <- one_kind_domain k bc ;
  seq_core_loop 20 400 40 md (initial_sim md dom).

(** Whether a kind of reaction is excluded can be computed. *)
Definition kind_eqb (a b : reaction_type) : bool :=
  match a, b with Scatter, Scatter | Absorption, Absorption | Fission, Fission => true | _, _ => false end.
Definition exclude_check {K : FloatOps} (td : track_data K) (dom : domain K) (k : reaction_type) : bool :=
  forallb (fun cs => match nth_error (td_mats td) (N.to_nat (cs_material cs)) with
    | None => true
    | Some mat => forallb (fun iso => negb (feq (iso_atom_fraction iso) f0) && negb (feq (cs_number_density cs) f0) &&
        match nth_error (nd_isotopes (td_nuclear td)) (N.to_nat (iso_gid iso)) with
        | None => true
        | Some rs => forallb (fun r => negb (kind_eqb (r_type r) k) || forallb (fun x => feq x f0) (r_cross_section r)) rs
        end) (mat_iso mat) end) (d_cells dom).
Lemma exclude_check_ok {K : FloatOps} (td : track_data K) dom k : exclude_check td dom k = true -> excluded td dom k.
Proof.
  unfold exclude_check, excluded. rewrite forallb_forall. intros H. apply Forall_forall. intros cs Hcs. specialize (H cs Hcs). cbv beta in H. split.
  - intros iso (mat & Em & Hi). rewrite Em in H. rewrite forallb_forall in H. specialize (H iso Hi). apply andb_prop in H as (H & _). apply andb_prop in H as (H1 & H2).
    apply negb_true_iff in H1, H2. auto.
  - intros r (iso & rs & (mat & Em & Hi) & Er & Hr) Ht. rewrite Em in H. rewrite forallb_forall in H. specialize (H iso Hi). apply andb_prop in H as (_ & H).
    rewrite Er in H. rewrite forallb_forall in H. specialize (H r Hr). rewrite Ht in H. assert (E : kind_eqb k k = true) by (destruct k; reflexivity). rewrite E in H. cbn [negb orb] in H.
    rewrite forallb_forall in H. apply Forall_forall. exact H.
Qed.
Definition closed_check {K : FloatOps} (m : mesh K) : bool :=
  forallb (fun conn => forallb (fun fa => match fa_event fa with BoundaryEscape => false | _ => true end) (cc_facet conn)) (me_conn m).
Lemma closed_check_ok {K : FloatOps} (m : mesh K) : closed_check m = true -> closed m.
Proof.
  unfold closed_check. rewrite forallb_forall. intros H conn fa Hc Hf E. specialize (H conn Hc). rewrite forallb_forall in H. specialize (H fa Hf). rewrite E in H. discriminate H.
Qed.

Definition one_kind_check (k : reaction_type) (bc : string) (n steps : N) : bool :=
  match one_kind_data k n steps, one_kind_domain k bc with
  | Ok md, Ok dom => forallb (fun k' => if kind_eqb k' k then negb (exclude_check (mc_track md) dom k') else exclude_check (mc_track md) dom k') [Scatter; Absorption; Fission] &&
      (negb (String.eqb bc "reflect") || closed_check (d_mesh dom))
  | _, _ => false
  end.

Lemma scatter_checked : one_kind_check Scatter "reflect" 10 2 = true.
Proof. vm_compute. reflexivity. Qed.
Lemma scatter_seen : demo_view (one_kind_run Scatter "reflect" 10 2) =
  Some ([(0, [0; 1; 9; 0; 0; 10; 0; 0; 0; 0; 20; 20; 33; 10]); (1, [10; 1; 0; 0; 0; 10; 0; 1; 0; 0; 37; 37; 70; 10])], [0; 0; 20; 0]).
Proof. vm_compute. reflexivity. Qed.
Lemma absorb_checked : one_kind_check Absorption "escape" 10 2 = true.
Proof. vm_compute. reflexivity. Qed.
Lemma absorb_seen : demo_view (one_kind_run Absorption "escape" 10 2) =
  Some ([(0, [0; 1; 9; 0; 10; 0; 0; 0; 0; 0; 10; 0; 10; 0]); (1, [0; 1; 9; 0; 0; 10; 0; 0; 0; 0; 0; 0; 10; 10])], [0; 0; 10; 0]).
Proof. vm_compute. reflexivity. Qed.

Lemma one_kind_inv k bc n steps v : one_kind_check k bc n steps = true -> demo_view (one_kind_run k bc n steps) = Some v ->
  exists md dom s, (forall k', k' <> k -> excluded (mc_track md) dom k') /\ (bc = "reflect"%string -> closed (d_mesh dom)) /\
    core_loop 400 40 md (initial_sim md dom) (Ok s) /\ demo_view (Ok s) = Some v.
Proof.
  intros Hc H. unfold one_kind_run in H. unfold one_kind_check in Hc.
  destruct (one_kind_data k n steps) as [md| |] eqn:Ed; [|discriminate Hc|discriminate Hc].
  destruct (one_kind_domain k bc) as [dom| |] eqn:Em; [|discriminate Hc|discriminate Hc]. cbn [rbind] in H.
  destruct (seq_core_loop 20 400 40 md (initial_sim md dom)) as [s| |] eqn:E; [|discriminate H|discriminate H].
  apply andb_prop in Hc as (Hc & Hb). rewrite forallb_forall in Hc. exists md, dom, s. split; [|split; [|split; [|exact H]]].
  - intros k' Hk. apply exclude_check_ok. specialize (Hc k'). destruct (kind_eqb k' k) eqn:Ek; [destruct k', k; try discriminate Ek; congruence|]. apply Hc. destruct k'; cbn; auto.
  - intros ->. apply closed_check_ok. exact Hb.
  - apply (seq_core_loop_sound 20); [|exact E]. unfold one_kind_data in Ed. destruct (one_kind_nuclear k) as [[nd mats]| |]; [|discriminate Ed|discriminate Ed]. injection Ed as <-. reflexivity.
Qed.

Lemma scatter_case : exists (md : mcdata K64) dom s, (forall k', k' <> Scatter -> excluded (mc_track md) dom k') /\ closed (d_mesh dom) /\
  core_loop 400 40 md (initial_sim md dom) (Ok s) /\
  demo_view (Ok s) = Some ([(0, [0; 1; 9; 0; 0; 10; 0; 0; 0; 0; 20; 20; 33; 10]); (1, [10; 1; 0; 0; 0; 10; 0; 1; 0; 0; 37; 37; 70; 10])], [0; 0; 20; 0]).
Proof.
  destruct (one_kind_inv _ _ _ _ _ scatter_checked scatter_seen) as (md & dom & s & H1 & H2 & H3 & H4). exists md, dom, s. split; [exact H1|]. split; [exact (H2 eq_refl)|]. split; [exact H3|exact H4].
Qed.
Lemma absorb_case : exists (md : mcdata K64) dom s, (forall k', k' <> Absorption -> excluded (mc_track md) dom k') /\
  core_loop 400 40 md (initial_sim md dom) (Ok s) /\
  demo_view (Ok s) = Some ([(0, [0; 1; 9; 0; 10; 0; 0; 0; 0; 0; 10; 0; 10; 0]); (1, [0; 1; 9; 0; 0; 10; 0; 0; 0; 0; 0; 0; 10; 10])], [0; 0; 10; 0]).
Proof.
  destruct (one_kind_inv _ _ _ _ _ absorb_checked absorb_seen) as (md & dom & s & H1 & _ & H3 & H4). exists md, dom, s. split; [exact H1|]. split; [exact H3|exact H4].
Qed.

(** Without density the branch for empty matter is taken, and a reaction without cross-section is picked. *)
Definition void_reaction : reaction K64 := mkReaction (K := K64) [f0] Fission f1.
Definition void_td : track_data K64 := mkTrackData (K := K64) f1 (mkNuclear 1 [[void_reaction]] [f0; f1]) [mkMaterial "void" f1 [mkIsotope 0 f1]].
Definition void_cell : cell_state K64 := mkCellState 0 f1 f0 0 0.
Lemma void_picks : match pick_loop 1 void_td (cs_material void_cell) (cs_number_density void_cell) 0 f0 with Ok r => kind_eqb (r_type r) Fission | _ => false end = true.
Proof. vm_compute. reflexivity. Qed.
Lemma void_inert : inert void_td void_cell Fission.
Proof.
  intros r (iso & rs & (mat & Em & Hi) & Er & Hr) _. unfold void_td in Em, Er. cbn [td_mats td_nuclear nd_isotopes cs_material void_cell N.to_nat nth_error] in Em, Er.
  apply (f_equal (fun o => match o with Some x => mat_iso x | None => [] end)) in Em. cbn [mat_iso] in Em. rewrite <- Em in Hi. destruct Hi as [Hi|[]]. rewrite <- Hi in Er.
  cbn [iso_gid N.to_nat nth_error] in Er.
  apply (f_equal (fun o => match o with Some x => x | None => [] end)) in Er. rewrite <- Er in Hr. destruct Hr as [Hr|[]]. rewrite <- Hr. unfold void_reaction. cbn [r_cross_section].
  constructor; [reflexivity|constructor].
Qed.
Lemma empty_matter : exists (td : track_data K64) cs r fuel g cur, inert td cs Fission /\
  pick_loop fuel td (cs_material cs) (cs_number_density cs) g cur = Ok r /\ r_type r = Fission.
Proof.
  pose proof void_picks as H. destruct (pick_loop 1 void_td (cs_material void_cell) (cs_number_density void_cell) 0 f0) as [r| |] eqn:E; [|discriminate H|discriminate H].
  exists void_td, void_cell, r, 1%nat, 0, f0. split; [exact void_inert|]. split; [exact E|]. destruct (r_type r); [discriminate H|discriminate H|reflexivity].
Qed.
