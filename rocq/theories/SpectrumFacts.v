(** Proofs about the energy spectrum. *)
From Coq Require Import Arith NArith Reals String Ascii List Bool Lia Lra Permutation.
From Verif Require Import Float RealOps RngModel ParticleModel NuclearModel MeshTypes Balance TrackModel CycleModel ParamModel CsvModel CsvLemmas
  TrackSpec CycleSpec TrackAccount CycleAccount CycleFacts PopSpec SourceLemmas PopLemmas RunKeeps SegmentFacts CrossingLemmas NuclearSpec NuclearFacts NuclearIeee
  RangeFacts ScheduleLemmas SafeBuilt XsTableModel XsTableSpec XsTableFacts XsTableText SpectrumModel SpectrumSpec.
Import ListNotations.
Local Open Scope N_scope.

(** ** The group of a particle is never stale *)
Section Any.
Context {K : FloatOps}.

Definition grouped (nd : nuclear_data K) (p : particle K) : Prop := get_energy_groups nd (p_kinetic_energy p) = Ok (p_energy_group p).

Lemma entering_grouped (p : particle K) : p_kinetic_energy (entering p) = p_kinetic_energy p /\ p_energy_group (entering p) = p_energy_group p.
Proof. unfold entering. destruct (out_of_paths p); split; reflexivity. Qed.

Lemma step_grouped td dom (p : particle K) e keep p' nx : seg_step td dom p e keep p' nx -> grouped (td_nuclear td) p -> grouped (td_nuclear td) p'.
Proof.
  intros H G. destruct (entering_grouped p) as (E1 & E2).
  inversion H as [? xs p1 cs cur p2 cf r mat n p3 ? g ? Ho p1' Hcs Hcur Hpick Hmat Hcol Hg Hp'|? xs p1 conn fa p2 ? Ho p1' Hconn Hfa Hev Hm|? xs p1 Ho]; subst.
  - unfold grouped. destruct (1 <=? n); cbn; exact Hg.
  - assert (Q : p_kinetic_energy p2 = p_kinetic_energy p1 /\ p_energy_group p2 = p_energy_group p1).
    { unfold facet_crossing_event in Hev. destruct (fa_event fa); try discriminate Hev; try contradiction.
      - injection Hev; intros; subst; split; reflexivity.
      - injection Hev; intros; subst; split; reflexivity.
      - rb Hev as d0 E7. rb Hev as c0 E8. rb Hev as f0' E9. injection Hev; intros; subst. split; reflexivity. }
    assert (Q' : p_kinetic_energy p' = p_kinetic_energy p2 /\ p_energy_group p' = p_energy_group p2).
    { destruct (fa_event fa); try contradiction.
      - subst p'. split; reflexivity.
      - destruct Hm as (pls & pl & _ & _ & ->). unfold reflect_particle. match goal with |- context [if ?b then _ else _] => destruct b end; split; reflexivity.
      - subst p'. split; reflexivity. }
    pose proof (outcome_after_place _ _ _ _ _ _ _ Ho) as (_ & B). pose proof (outcome_after_energy _ _ _ _ _ _ _ Ho) as C.
    unfold grouped in * . rewrite (proj1 Q'), (proj2 Q'), (proj1 Q), (proj2 Q), B, C, E1, E2. exact G.
  - pose proof (outcome_after_place _ _ _ _ _ _ _ Ho) as (_ & B). pose proof (outcome_after_energy _ _ _ _ _ _ _ Ho) as C.
    unfold grouped in * . cbn [p_kinetic_energy p_energy_group set_num_segments]. rewrite B, C, E1, E2. exact G.
Qed.

Lemma path_grouped td dom (p : particle K) evs p' nx : track_path td dom p evs p' nx -> grouped (td_nuclear td) p -> grouped (td_nuclear td) p'.
Proof. induction 1 as [p e p' nx H|p e p1 nx1 evs p' nx2 H _ IH]; intros G; [eapply step_grouped; eauto|]. apply IH. eapply step_grouped; eauto. Qed.

Lemma prepared_grouped td (p q : particle K) : prepare_particle td p = Ok q -> grouped (td_nuclear td) q.
Proof. unfold prepare_particle. intros H. rb H as g E. apply Ok_inj in H. subst q. unfold grouped. cbn in E |- * . exact E. Qed.

Lemma kept_grouped fuel cf (md : mcdata K) d n s : run_steps fuel cf md (initial_sim md d) n (Ok s) -> n <= sp_n_steps (mc_params md) ->
  Forall (grouped (td_nuclear (mc_track md))) (processed (s_cont s)).
Proof.
  intros H Hn. eapply (run_keeps md (d_mesh d) (fun _ => True)); [auto|auto|auto| |reflexivity|exact H|reflexivity|exact Hn].
  intros dom p q evs p' nx _ _ E T. split; [|apply Forall_forall; auto]. intros _ _. eapply path_grouped; [exact T|]. eapply prepared_grouped. exact E.
Qed.

(** ** The counts of a run *)
Lemma kept_runs fuel cf (md : mcdata K) d n s ks : run_kept fuel cf md d n s ks -> run_steps fuel cf md (initial_sim md d) n (Ok s).
Proof. induction 1 as [|n s ks s1 s2 _ IH E P]; [constructor|]. exact (rs_succ _ _ _ _ _ _ _ _ IH E P). Qed.

Lemma run_has_kept fuel cf (md : mcdata K) d n r : run_steps fuel cf md (initial_sim md d) n r -> forall s, r = Ok s -> exists ks, run_kept fuel cf md d n s ks.
Proof.
  induction 1 as [|n s0 s1 r H IH E P|n s0 H IH E|n r H IH Hr]; intros s Er.
  - injection Er as <-. exists []. constructor.
  - subst r. destruct (IH _ eq_refl) as (ks & Hk). eexists. eapply rk_cycle; eassumption.
  - discriminate Er.
  - subst r. destruct Hr; discriminate.
Qed.

Lemma counted_app {A} (P : A -> Prop) l1 n1 l2 n2 : counted P l1 n1 -> counted P l2 n2 -> counted P (l1 ++ l2) (n1 + n2).
Proof.
  intros H H2. induction H as [|x l n Hx _ IH|x l n Hx _ IH]; cbn [app]; [exact H2| |apply co_no; assumption].
  rewrite N.add_succ_l. apply co_yes; assumption.
Qed.
Lemma counted_iff {A} (P Q : A -> Prop) l n : Forall (fun x => P x <-> Q x) l -> counted P l n -> counted Q l n.
Proof.
  intros F H. induction H as [|x l n Hx _ IH|x l n Hx _ IH]; [constructor| |]; pose proof (Forall_inv F) as F1; pose proof (Forall_inv_tail F) as F2; cbn beta in F1.
  - apply co_yes; [tauto|apply IH; exact F2].
  - apply co_no; [tauto|apply IH; exact F2].
Qed.
Lemma counted_fun {A} (P : A -> Prop) l n : counted P l n -> forall m, counted P l m -> m = n.
Proof.
  induction 1 as [|x l n Hx _ IH|x l n Hx _ IH]; intros m H; inversion H; subst; try contradiction; auto. f_equal. auto.
Qed.
Lemma counted_filter {A} (f : A -> bool) l : counted (fun x => f x = true) l (N.of_nat (List.length (filter f l))).
Proof.
  induction l as [|x l IH]; [constructor|]. cbn [filter]. destruct (f x) eqn:E.
  - cbn [List.length]. rewrite Nat2N.inj_succ. apply co_yes; assumption.
  - apply co_no; [congruence|exact IH].
Qed.

Lemma group_counted (nd : nuclear_data K) g ps : Forall (grouped nd) ps ->
  counted (fun p => get_energy_groups nd (p_kinetic_energy p) = Ok g) ps (group_count g ps).
Proof.
  intros G. eapply counted_iff; [|apply counted_filter]. revert G. apply Forall_impl. intros p Hp. cbn beta. unfold grouped in Hp. rewrite Hp.
  rewrite N.eqb_eq. split; [intros ->; reflexivity|intros E; injection E; auto].
Qed.

Lemma synced_counts fuel cf (md : mcdata K) d n s ks : run_kept fuel cf md d n s ks -> sp_spectrum (mc_params md) = true -> n <= sp_n_steps (mc_params md) ->
  forall s1, cycle_sync md n s = Ok s1 ->
  List.length (rs_spectrum (s_results s1)) = S (N.to_nat (sp_n_groups (mc_params md))) /\
  forall g, counted (fun p => get_energy_groups (td_nuclear (mc_track md)) (p_kinetic_energy p) = Ok (N.of_nat g)) (concat ks) (nth g (rs_spectrum (s_results s1)) 0).
Proof.
  intros H Hsp. induction H as [|n s ks s1 s2 H IH E P]; intros Hn t Et.
  - unfold cycle_sync in Et. change (0 =? 0) with true in Et. cbv iota in Et. apply prepare_reports in Et as (-> & _). cbn [initial_sim s_results rs_spectrum].
    split; [rewrite repeat_length; lia|]. intros g. replace (nth g (repeat 0 (N.to_nat (sp_n_groups (mc_params md) + 1))) 0) with 0; [constructor|].
    clear. generalize (N.to_nat (sp_n_groups (mc_params md) + 1)). intros k. revert g. induction k as [|k IH]; intros [|g]; cbn; auto.
  - assert (Hk : run_kept fuel cf md d (N.succ n) s2 (ks ++ [processed (s_cont s2)])) by (eapply rk_cycle; eassumption).
    pose proof (kept_runs _ _ _ _ _ _ _ Hk) as Hr. pose proof (run_steps_settled _ _ _ _ _ _ Hr _ eq_refl Hn) as St.
    pose proof (kept_grouped _ _ _ _ _ _ Hr Hn) as G.
    destruct (IH ltac:(lia) _ E) as (L & C). unfold cycle_sync in Et. destruct (N.eqb_spec (N.succ n) 0); [lia|]. rb Et as s3 E3.
    destruct (N.eqb_spec (N.succ n) (sp_n_steps (mc_params md) + 1)); [lia|]. apply prepare_reports in Et as (-> & _).
    destruct (finish_spectrum _ _ _ _ E3 Hsp) as (L3 & C3 & _). rewrite (process_results _ _ _ _ _ P) in L3, C3.
    split; [congruence|]. intros g. rewrite C3, (se_processing _ _ _ _ St). cbn [app]. rewrite concat_app. cbn [concat]. rewrite app_nil_r.
    apply counted_app; [apply C|apply group_counted; exact G].
Qed.

Theorem run_counts fuel cf (md : mcdata K) d s' : core_loop fuel cf md (initial_sim md d) (Ok s') -> sp_spectrum (mc_params md) = true ->
  exists s ks, run_kept fuel cf md d (sp_n_steps (mc_params md)) s ks /\ cycle_sync md (sp_n_steps (mc_params md)) s = Ok s' /\
    List.length (rs_spectrum (s_results s')) = S (N.to_nat (sp_n_groups (mc_params md))) /\
    forall g n, nth_error (rs_spectrum (s_results s')) g = Some n ->
      counted (fun p => get_energy_groups (td_nuclear (mc_track md)) (p_kinetic_energy p) = Ok (N.of_nat g)) (concat ks) n.
Proof.
  intros H Hsp. remember (Ok s') as r0 eqn:Er in H. destruct H as [r Hpol Hrun|]; [|discriminate Er]. rb Er as s E. subst r.
  destruct (run_has_kept _ _ _ _ _ _ Hrun _ eq_refl) as (ks & Hk). exists s, ks. split; [exact Hk|]. split; [exact Er|].
  destruct (synced_counts _ _ _ _ _ _ _ Hk Hsp ltac:(lia) _ Er) as (L & C). split; [exact L|]. intros g n En. rewrite <- (nth_error_nth _ _ 0 En). apply C.
Qed.

(** ** The text *)
Variable show15 : F K -> string.
Hypothesis words15 : forall x, word (show15 x).

Lemma line_cells i e n : cells_of (pad_left 18 (show_N i) ++ " | " ++ pad_left 20 (show15 e) ++ " | " ++ pad_left 13 (show_N n))%string = [show_N i; show15 e; show_N n] /\
  free is_eol (pad_left 18 (show_N i) ++ " | " ++ pad_left 20 (show15 e) ++ " | " ++ pad_left 13 (show_N n))%string.
Proof.
  pose proof (word_N i) as Wi. pose proof (words15 e) as We. pose proof (word_N n) as Wn. split.
  - unfold pad_left. set (a := show_N i) in * . set (b := show15 e) in * . set (c := show_N n) in * .
    transitivity (cells_of (spaces (18 - String.length a) ++ a ++ spaces 1 ++ String "|" (spaces (1 + (20 - String.length b)) ++ b ++ spaces 1 ++ String "|" (spaces (1 + (13 - String.length c)) ++ c)))%string).
    { f_equal. rewrite <- !spaces_add, !app_assoc_s. reflexivity. }
    rewrite cell_of_word by exact Wi. rewrite cell_of_word by exact We. rewrite last_cell by exact Wn. reflexivity.
  - apply free_app; [apply pad_free; [reflexivity|apply word_free; exact Wi]|]. apply free_app; [repeat constructor|].
    apply free_app; [apply pad_free; [reflexivity|apply word_free; exact We]|]. apply free_app; [repeat constructor|].
    apply pad_free; [reflexivity|apply word_free; exact Wn].
Qed.

Theorem spectrum_text name (es : list (F K)) counts : (List.length es <= List.length counts)%nat -> name <> ""%string ->
  exists text lines, print_spectrum show15 name es counts = Ok (Some ((name ++ ".dat")%string, text)) /\
    split_on is_eol text = (spectrum_header :: spectrum_rule :: lines ++ [""%string])%list /\ List.length lines = List.length es /\
    forall g e n, nth_error es g = Some e -> nth_error counts g = Some n ->
      exists l, nth_error lines g = Some l /\ cells_of l = [show_N (N.of_nat g); show15 e; show_N n].
Proof.
  intros Hl Hn. unfold print_spectrum. destruct (String.eqb_spec name ""); [contradiction|].
  set (f := fun ii : N => match nth_error es (N.to_nat ii), nth_error counts (N.to_nat ii) with Some e, Some n =>
     (pad_left 18 (show_N ii) ++ " | " ++ pad_left 20 (show15 e) ++ " | " ++ pad_left 13 (show_N n))%string | _, _ => ""%string end).
  assert (F : forall l, Forall (fun ii => (N.to_nat ii < List.length es)%nat) l ->
    rmap (spectrum_line show15 es counts) l = Ok (map (fun s => s ++ newline)%string (map f l)) /\ Forall (free is_eol) (map f l)).
  { induction l as [|ii l IH]; intros H; [split; [reflexivity|constructor]|]. pose proof (Forall_inv H) as Hi. cbn beta in Hi.
    destruct (vec_get_in es ii Hi) as (e & E1 & E2). destruct (vec_get_in counts ii ltac:(lia)) as (m & E3 & E4).
    destruct (IH (Forall_inv_tail H)) as (I1 & I2). cbn [rmap map]. unfold spectrum_line at 1. rewrite E1, E3. cbn [rbind]. rewrite I1. cbn [rbind].
    split.
    - assert (Ef : f ii = (pad_left 18 (show_N ii) ++ " | " ++ pad_left 20 (show15 e) ++ " | " ++ pad_left 13 (show_N m))%string) by (unfold f; rewrite E2, E4; reflexivity).
      rewrite Ef, !app_assoc_s. reflexivity.
    - constructor; [|exact I2]. unfold f. rewrite E2, E4. apply line_cells. }
  destruct (F (nrange 0 (List.length es))) as (F1 & F2).
  { apply Forall_forall. intros x Hx. apply in_nrange in Hx. lia. }
  rewrite F1. cbn [rbind]. eexists. exists (map f (nrange 0 (List.length es))). split; [reflexivity|]. split; [|split].
  - transitivity (split_on is_eol (String.concat "" (map (fun s => s ++ newline)%string (spectrum_header :: spectrum_rule :: map f (nrange 0 (List.length es)))))).
    { f_equal. cbn [map]. rewrite !concat_cons, !app_assoc_s. reflexivity. }
    rewrite split_lines; [reflexivity|]. constructor; [repeat constructor|]. constructor; [repeat constructor|exact F2].
  - rewrite map_length, range_length. reflexivity.
  - intros g e m E1 E2. exists (f (N.of_nat g)). split.
    + rewrite nth_error_map, nth_range; [reflexivity|]. apply nth_error_Some. congruence.
    + unfold f. rewrite Nat2N.id, E1, E2. apply line_cells.
Qed.

Lemma header_cells3 : cells_of spectrum_header = ["energy level index"; "energy level"; "count"]%string.
Proof. reflexivity. Qed.

Lemma no_file (es : list (F K)) counts : print_spectrum show15 "" es counts = Ok None.
Proof. reflexivity. Qed.

End Any.

(** ** Exact arithmetic *)
Lemma level_of_lookup (nd : nuclear_data Rops) (e : F Rops) g : (2 <= List.length (nd_energies nd))%nat -> increasing (fun x : R => x) (nd_energies nd) ->
  get_energy_groups nd e = Ok (N.of_nat g) <-> on_level (nd_energies nd) g e.
Proof.
  intros H2 Hi. assert (H2' : (2 <= @List.length R (nd_energies nd))%nat) by exact H2. destruct (nth_error (nd_energies nd) 0) as [first|] eqn:Ef; [|apply nth_error_None in Ef; lia].
  destruct (nth_error (nd_energies nd) (List.length (nd_energies nd) - 1)) as [last|] eqn:El; [|apply nth_error_None in El; lia].
  destruct (lookupR nd e first last H2 Hi Ef El) as (A & B).
  assert (D : forall i x, nth_error (nd_energies nd) i = Some x -> (first <= x <= last)%R).
  { intros i x Ei. assert (Hlt : (i < List.length (nd_energies nd))%nat) by (apply nth_error_Some; congruence). split.
    - destruct i as [|i]; [rewrite Ef in Ei; injection Ei as <-; apply Rle_refl|]. apply Rlt_le. exact (increasing_nth (K := Rops) (fun x : R => x) _ Hi 0 (S i) first x ltac:(lia) Ef Ei).
    - destruct (Nat.eq_dec i (List.length (nd_energies nd) - 1)) as [->|Ne]; [rewrite El in Ei; injection Ei as <-; apply Rle_refl|].
      apply Rlt_le. exact (increasing_nth (K := Rops) (fun x : R => x) _ Hi i (List.length (nd_energies nd) - 1) x last ltac:(lia) Ei El). }
  destruct (Rlt_le_dec e first) as [C1|C1].
  - rewrite (A (Rlt_le _ _ C1)). split.
    + intros E. injection E as E. right. left. split; [lia|]. exists first. auto.
    + intros [(lo & hi & L1 & L2 & L3 & _)|[(-> & _)|(_ & la & L1 & L2)]].
      * exfalso. destruct (D _ _ L1). change (F Rops) with R in * . lra.
      * reflexivity.
      * exfalso. destruct (D _ _ L1). change (F Rops) with R in * . lra.
  - destruct (Rlt_le_dec last e) as [C2|C2].
    + assert (E : get_energy_groups nd e = Ok (N.of_nat (List.length (nd_energies nd) - 1))).
      { apply (lookup_above nd e first last Ef El); [|apply Rltb_iff; exact C2].
        destruct (fle (f := Rops) e first) eqn:Q; [|reflexivity]. apply Rleb_iff in Q. specialize (D _ _ El). exfalso.
        assert (last <= first)%R by lra. pose proof (increasing_nth (K := Rops) (fun x : R => x) _ Hi 0 (List.length (nd_energies nd) - 1) first last ltac:(lia) Ef El). lra. }
      rewrite E. split.
      * intros Q. apply Ok_inj, Nat2N.inj in Q. right. right. assert (g = List.length (nd_energies nd) - 1)%nat by (symmetry; exact Q). subst g. split; [change (@List.length (F Rops)) with (@List.length R); lia|]. exists last. auto.
      * intros [(lo & hi & L1 & L2 & _ & L3)|[(-> & fi & L1 & L2)|(L0 & _)]].
        -- exfalso. destruct (D _ _ L2). change (F Rops) with R in * . lra.
        -- exfalso. destruct (D _ _ L1). change (F Rops) with R in * . lra.
        -- do 2 f_equal. change (@List.length (F Rops)) with (@List.length R). lia.
    + destruct (B (conj C1 C2)) as (g' & E & I & U). rewrite E. split.
      * intros Q. injection Q as ->. left. exact I.
      * intros [I'|[(-> & fi & L1 & L2)|(L0 & la & L1 & L2)]].
        -- f_equal. symmetry. apply U. exact I'.
        -- exfalso. assert (Q : Some fi = Some first) by (rewrite <- L1; exact Ef). injection Q as ->. change (F Rops) with R in * . lra.
        -- exfalso. assert (Eg : g = (@List.length R (nd_energies nd) - 1)%nat) by lia. assert (Q : Some la = Some last) by (rewrite <- L1, Eg; exact El).
           injection Q as ->. change (F Rops) with R in * . lra.
Qed.

Theorem run_levels fuel cf (md : mcdata Rops) d s' : core_loop fuel cf md (initial_sim md d) (Ok s') -> sp_spectrum (mc_params md) = true ->
  (2 <= List.length (nd_energies (td_nuclear (mc_track md))))%nat -> increasing (fun x : R => x) (nd_energies (td_nuclear (mc_track md))) ->
  exists s ks, run_kept fuel cf md d (sp_n_steps (mc_params md)) s ks /\ cycle_sync md (sp_n_steps (mc_params md)) s = Ok s' /\
    forall g n, nth_error (rs_spectrum (s_results s')) g = Some n ->
      counted (fun p : particle Rops => on_level (nd_energies (td_nuclear (mc_track md))) g (p_kinetic_energy p)) (concat ks) n.
Proof.
  intros H Hsp H2 Hi. destruct (run_counts _ _ _ _ _ H Hsp) as (s & ks & Hk & E & _ & C). exists s, ks. split; [exact Hk|]. split; [exact E|].
  intros g n En. eapply counted_iff; [|exact (C g n En)]. apply Forall_forall. intros p _. apply level_of_lookup; assumption.
Qed.

(** ** The file at the end of a run *)
Section File.
Context {K : FloatOps}.

Lemma built_spectrum (p : params K) md threads : init_mcdata p = Ok md ->
  List.length (nd_energies (td_nuclear (mc_track (set_threads threads md)))) = S (N.to_nat (sp_n_groups (mc_params (set_threads threads md)))) /\
  sp_spectrum (mc_params (set_threads threads md)) = negb (si_energy_spectrum (pa_sim p) =? "")%string.
Proof.
  intros H. destruct (initialised _ _ H) as (nd & Ep & _ & En & _ & Em). destruct (threads_same threads md) as (T1 & T2 & _).
  destruct (init_materials_mix _ _ _ _ _ _ Em) as (_ & Ee & _). rewrite T1, T2, En, Ep, Ee, new_energies_length. split; reflexivity.
Qed.

Theorem file_at_end (show15 : F K -> string) (words15 : forall x, word (show15 x)) fuel cf (p : params K) md d s :
  List.length (nd_energies (td_nuclear (mc_track md))) = S (N.to_nat (sp_n_groups (mc_params md))) ->
  sp_spectrum (mc_params md) = negb (si_energy_spectrum (pa_sim p) =? "")%string ->
  core_loop fuel cf md (initial_sim md d) (Ok s) ->
  (si_energy_spectrum (pa_sim p) = ""%string -> spectrum_file show15 p md s = Ok None) /\
  (si_energy_spectrum (pa_sim p) <> ""%string -> exists text lines,
    spectrum_file show15 p md s = Ok (Some ((si_energy_spectrum (pa_sim p) ++ ".dat")%string, text)) /\
    split_on is_eol text = (spectrum_header :: spectrum_rule :: lines ++ [""%string])%list /\ cells_of spectrum_header = ["energy level index"; "energy level"; "count"]%string /\
    List.length lines = S (N.to_nat (sp_n_groups (mc_params md))) /\
    exists s0 ks, run_kept fuel cf md d (sp_n_steps (mc_params md)) s0 ks /\ cycle_sync md (sp_n_steps (mc_params md)) s0 = Ok s /\
    forall g l, nth_error lines g = Some l -> exists e n, nth_error (nd_energies (td_nuclear (mc_track md))) g = Some e /\
      counted (fun q => get_energy_groups (td_nuclear (mc_track md)) (p_kinetic_energy q) = Ok (N.of_nat g)) (concat ks) n /\
      cells_of l = [show_N (N.of_nat g); show15 e; show_N n]).
Proof.
  intros Le Hsp H. unfold spectrum_file. split; [intros ->; reflexivity|]. intros Hn.
  destruct (String.eqb_spec (si_energy_spectrum (pa_sim p)) ""); [contradiction|]. cbn [negb] in Hsp.
  destruct (run_counts _ _ _ _ _ H Hsp) as (s0 & ks & Hk & E & L & C).
  destruct (spectrum_text show15 words15 _ (nd_energies (td_nuclear (mc_track md))) (rs_spectrum (s_results s)) ltac:(lia) Hn) as (text & lines & T1 & T2 & T3 & T4).
  exists text, lines. split; [exact T1|]. split; [exact T2|]. split; [reflexivity|]. split; [congruence|]. exists s0, ks. split; [exact Hk|]. split; [exact E|].
  intros g l Hl. assert (Hg : (g < List.length lines)%nat) by (apply nth_error_Some; congruence).
  destruct (nth_error (nd_energies (td_nuclear (mc_track md))) g) as [e|] eqn:E1; [|apply nth_error_None in E1; lia].
  destruct (nth_error (rs_spectrum (s_results s)) g) as [m|] eqn:E2; [|apply nth_error_None in E2; lia].
  destruct (T4 g e m E1 E2) as (l' & El & Ec). assert (l' = l) by congruence. subst l'. exists e, m. split; [reflexivity|]. split; [exact (C g m E2)|exact Ec].
Qed.
End File.
