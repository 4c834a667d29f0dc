(** The state at the start of each tracking round of a run, and what a cycle leaves in the flux array. *)
From Coq Require Import NArith PeanoNat List Bool Lia Permutation.
From Verif Require Import Float RngModel ParticleModel NuclearModel MeshTypes Balance TrackModel CycleModel
  ProgLemmas TrackSpec CycleSpec TrackAccount CycleAccount CycleFacts ScheduleSpec ScheduleLemmas ScheduleFacts
  RangeSpec RangeFacts RunAgree ParRun.
Import ListNotations.
Local Open Scope N_scope.
Local Open Scope float_scope.

Section Run.
Context {K : FloatOps}.
Local Notation contribution := (@ScheduleSpec.contribution K).
Local Notation track_result := (@ScheduleSpec.track_result K).
Hypothesis zero_not_positive : f0 <. (f0 : F K) = false.

Lemma same_problem_refl (md : mcdata K) : same_problem md md.
Proof. repeat split; reflexivity. Qed.

(** ** States of a run *)

Lemma round_start_rel fuel cf (md : mcdata K) ok u0 c0 u c :
  safe_energies md ok -> run_ok md -> uc_rel md ok (u0, c0) (u0, c0) ->
  round_start fuel cf md u0 c0 u c -> uc_rel md ok (u, c) (u, c).
Proof.
  intros Hs Hr H0 H. induction H as [|u c u' c' H IH Hd Hp]; auto.
  pose proof (process_rel md md ok (same_problem_refl md) Hs Hr Hr zero_not_positive _ _ _ _ _ _ _ _ IH Hp Hp) as G.
  exact G.
Qed.

Lemma tracked_rel fuel cf (md : mcdata K) ok d u c :
  safe_energies md ok -> run_ok md -> loop_policy md -> sound_problem md d ->
  tracked fuel cf md d u c -> uc_rel md ok (u, c) (u, c).
Proof.
  intros Hs Hr Hl Hd (n & s & s1 & u0 & c0 & Hn & Hst & Hsy & Hp & HR).
  pose proof (same_problem_refl md) as HR0.
  pose proof (steps_rel md md ok HR0 Hs Hr Hr zero_not_positive Hl Hl _ _ _ _ _ _
    (initial_rel md md ok HR0 d Hd) Hst _ (N.lt_le_incl _ _ Hn) Hst) as G. cbn [agree] in G.
  pose proof (sync_rel_ok md md ok HR0 Hl Hl n _ _ G) as Gs. rewrite Hsy in Gs. cbn [agree] in Gs.
  destruct (N.eqb_spec n (sp_n_steps (mc_params md) + 1)); [lia|]. rewrite andb_false_r in Gs. cbn [sync_rel] in Gs.
  pose proof (population_rel md md ok HR0 Hs _ _ Gs) as Gp. rewrite Hp in Gp. cbn [agree] in Gp.
  exact (round_start_rel _ _ _ _ _ _ _ _ Hs Hr Gp HR).
Qed.

Lemma tracked_sound fuel cf (md : mcdata K) d u c :
  energies_bounded md -> run_ok md -> loop_policy md -> sound_problem md d ->
  tracked fuel cf md d u c ->
  sound_mem (mc_track md) (u_domain u) (sp_n_groups (mc_params md)) (u_mem u) /\
  Forall (stays_in_range (mc_track md) (u_domain u) (sp_n_groups (mc_params md))) (processing c).
Proof.
  intros (ok & Hs) Hr Hl Hd HT. destruct (tracked_rel _ _ _ _ _ _ _ Hs Hr Hl Hd HT) as [D B W P1 P2 P3 S PL M1 M2].
  cbn [fst snd] in * . split; [exact M1|]. apply Forall_app in PL as (PL & _).
  eapply Forall_impl; [|exact PL]. intros p Hp. exact (placed_stays ok md Hs (u_domain u) S p Hp).
Qed.

(** ** The cache *)

Lemma tasks_right fuel cf (md : mcdata K) u ch :
  Forall (stays_in_range (mc_track md) (u_domain u) (sp_n_groups (mc_params md))) (concat ch) ->
  Forall2 (fun s p => meets (mc_track md) (u_domain u) (sp_n_groups (mc_params md)) s [] p)
    (map (slice_spec (mc_track md) (u_domain u) fuel cf) ch)
    (map (fun l => track_slice fuel cf (mc_track md) (u_domain u) l balance_zero []) ch).
Proof.
  intros Hr. induction ch as [|l ch IH]; cbn [map concat] in * ; constructor.
  - apply Forall_app in Hr. apply (slice_right _ _ _ zero_not_positive). tauto.
  - apply IH. apply Forall_app in Hr. tauto.
Qed.

Lemma history_cached fuel cf (md : mcdata K) u ch ex cf' :
  sound_mem (mc_track md) (u_domain u) (sp_n_groups (mc_params md)) (u_mem u) ->
  Forall (stays_in_range (mc_track md) (u_domain u) (sp_n_groups (mc_params md))) (concat ch) ->
  csteps (sp_n_groups (mc_params md))
    (mkConf (map (fun l => Running (track_slice fuel cf (mc_track md) (u_domain u) l balance_zero [])) ch)
       (map (fun v => [v]) (m_cache (u_mem u))) (m_flux (u_mem u)) ex) cf' ->
  forall c g vs v, in_range (u_domain u) (sp_n_groups (mc_params md)) c g ->
    nth_error (cf_hist cf') (N.to_nat (slot (sp_n_groups (mc_params md)) c g)) = Some vs -> In v vs ->
    v = f0 \/ cell_cross_section (mc_track md) (u_domain u) c g = Ok v.
Proof.
  intros Hm Hr Hs c g vs v Hin Hh Hv.
  pose proof (conf_right_init _ _ _ _ _ _ ex Hm (tasks_right fuel cf md u ch Hr)) as H0.
  rewrite map_map in H0.
  destruct (conf_right_steps _ _ _ _ _ _ _ _ _ _ _ Hs H0) as (es & Ls & l & [_ _ _ _ _ H]).
  specialize (H _ _ _ Hin Hh). rewrite Forall_forall in H. exact (H _ Hv).
Qed.

(** No task of a parallel region is about to use an entry that does not exist. *)
Lemma tasks_in_range fuel cf (md : mcdata K) u ch ex cf' :
  sound_mem (mc_track md) (u_domain u) (sp_n_groups (mc_params md)) (u_mem u) ->
  Forall (stays_in_range (mc_track md) (u_domain u) (sp_n_groups (mc_params md))) (concat ch) ->
  csteps (sp_n_groups (mc_params md))
    (mkConf (map (fun l => Running (track_slice fuel cf (mc_track md) (u_domain u) l balance_zero [])) ch)
       (map (fun v => [v]) (m_cache (u_mem u))) (m_flux (u_mem u)) ex) cf' ->
  forall t, In t (cf_tasks cf') -> task_panics (sp_n_groups (mc_params md)) (cf_hist cf') (cf_flux cf') t -> t = Running Fail.
Proof.
  intros Hm Hr Hs t Hin Ht.
  pose proof (conf_right_init _ _ _ _ _ _ ex Hm (tasks_right fuel cf md u ch Hr)) as H0.
  rewrite map_map in H0.
  destruct (conf_right_steps _ _ _ _ _ _ _ _ _ _ _ Hs H0) as (es & Ls & l & [HT _ _ HF HZ _]).
  destruct (rinv_in _ _ _ _ _ _ _ _ HT Hin) as (s & e & L & _ & Hi).
  assert (HZ' : N.of_nat (length (cf_flux cf')) = n_cells (u_domain u) * sp_n_groups (mc_params md))
    by (rewrite HF, flux_with_length; apply Hm).
  destruct Ht as [|c g f E|c g v q E|c g v q E]; [reflexivity|exfalso..]; cbn [rinv1] in Hi; destruct Hi as (Hi & _); unfold meets in Hi.
  - inversion Hi as [| | |? ? ? ? Hr' _| |]; subst. destruct (in_range_get _ _ (cf_hist cf') c g HZ Hr') as (w & Ev). congruence.
  - inversion Hi as [| | | |? ? ? ? ? Hr' _ _|]; subst. destruct (in_range_get _ _ (cf_hist cf') c g HZ Hr') as (w & Ev). congruence.
  - inversion Hi as [| | | | |? ? ? ? ? Hr' _]; subst. destruct (in_range_get _ _ (cf_flux cf') c g HZ' Hr') as (w & Ev). congruence.
Qed.

(** A lookup returns what a fresh computation gives, whatever value of the entry's history it reads. *)
Lemma lookup_fresh td dom c g (v : F K) : (v = f0 \/ cell_cross_section td dom c g = Ok v) ->
  (if f0 <. v then Ret v
   else pbind (lift (cell_cross_section td dom c g)) (fun tmp => StoreXs c g tmp (Ret tmp)))
  = match cell_cross_section td dom c g with
    | Ok x => if f0 <. v then Ret x else StoreXs c g x (Ret x)
    | Panic => Fail
    | NoFuel => Stuck
    end.
Proof.
  intros [->|E].
  - rewrite zero_not_positive. destruct (cell_cross_section td dom c g); reflexivity.
  - rewrite E. destruct (f0 <. v); reflexivity.
Qed.

Lemma lookup_seq td dom ng c g (m : mem K) : sound_mem td dom ng m -> in_range dom ng c g ->
  match cell_cross_section td dom c g with
  | Ok x => exists m', run_seq ng (get_xs td dom c g) m = Ok (x, m') /\ sound_mem td dom ng m' /\ m_flux m' = m_flux m
  | Panic => run_seq ng (get_xs td dom c g) m = Panic
  | NoFuel => run_seq ng (get_xs td dom c g) m = NoFuel
  end.
Proof.
  intros Hm Hr. pose proof (right_run_seq _ _ _ _ _ _ _ _ (get_xs_right td dom ng zero_not_positive [] c g Hr) _ Hm) as G.
  destruct (run_seq ng (get_xs td dom c g) m) as [[a m']| |] eqn:E.
  - destruct G as (l & (Ha & Hl) & Hs & Hf). rewrite Ha. exists m'. split; [reflexivity|]. split; [exact Hs|].
    cbn in Hl. subst l. exact Hf.
  - rewrite G. reflexivity.
  - rewrite G. reflexivity.
Qed.

(** ** The flux array *)

Lemma entry_sum_filter ng c g (l : list contribution) : Forall (fun x => let '(c', g', _) := x in g' < ng) l -> g < ng ->
  forall start, fold_left fadd (map amount (filter (at_slot ng (N.to_nat (slot ng c g))) l)) start = entry_sum c g l start.
Proof.
  intros Hl Hg. induction Hl as [|[[c' g'] v] l Hx Hl IH]; intros start; [reflexivity|].
  cbn [filter at_slot entry_sum fold_left].
  destruct (Nat.eqb_spec (N.to_nat (slot ng c' g')) (N.to_nat (slot ng c g))) as [E|E].
  - apply N2Nat.inj in E. destruct (slot_inj _ _ _ _ _ Hx Hg E); subst. rewrite !N.eqb_refl. cbn [andb map fold_left amount].
    apply IH.
  - destruct (N.eqb_spec c' c), (N.eqb_spec g' g); subst; cbn [andb]; try (apply IH). congruence.
Qed.

Lemma solo_track_groups (td : track_data K) (dom : domain K) ng fuel : forall cf p p' b nx l,
  (forall q, reaches td dom p q -> in_range dom ng (p_cell q) (p_energy_group q)) ->
  solo_track fuel cf td dom p = Ok (p', b, nx, l) ->
  Forall (fun x => let '(c, g, _) := x in in_range dom ng c g) l.
Proof.
  induction fuel as [|fuel IH]; intros cf p p' b nx l Hr H; cbn [solo_track] in H; [discriminate|].
  rb H as [[[[k p1] b1] nx1] x] E.
  assert (Hx : let '(c, g, _) := x in in_range dom ng c g).
  { unfold solo_segment in E. rb E as xs E1. rb E as [o q] E2. rb E as [[[k1 p2] b2] nx2] E3.
    injection E; intros; subst. apply (Hr p). constructor. }
  destruct k.
  - rb H as [[[p2 b2] nx2] l2] E2. injection H; intros; subst. constructor; [exact Hx|].
    eapply IH; [|exact E2]. intros q Hq. apply Hr. eapply reach_next; eauto.
  - injection H; intros; subst. constructor; [exact Hx|constructor].
Qed.

Lemma solos_groups td dom ng fuel cf (ps : list (particle K)) : forall rs,
  Forall (stays_in_range td dom ng) ps -> rmap (solo fuel cf td dom) ps = Ok rs ->
  Forall (fun x => let '(c, g, _) := x in in_range dom ng c g) (contributions rs).
Proof.
  induction ps as [|p ps IH]; intros rs Hp H; cbn [rmap] in H.
  - injection H; intros; subst. constructor.
  - inversion Hp; subst. rb H as [[[p' b] nx] l] E. rb H as rs' E'. injection H; intros; subst.
    unfold contributions. cbn [map concat]. apply Forall_app. split; [|exact (IH _ H3 E')].
    unfold solo in E. rb E as p0 E0. eapply solo_track_groups; [|exact E]. intros q Hq. eapply H2; eauto.
Qed.

Lemma process_flux fuel cf (md : mcdata K) u c u' c' :
  sound_mem (mc_track md) (u_domain u) (sp_n_groups (mc_params md)) (u_mem u) ->
  Forall (stays_in_range (mc_track md) (u_domain u) (sp_n_groups (mc_params md))) (processing c) ->
  run_ok md -> process_particles fuel cf md u c (Ok (u', c')) ->
  exists rs l, rmap (solo fuel cf (mc_track md) (u_domain u)) (processing c) = Ok rs /\
    Permutation l (contributions rs) /\
    length (m_flux (u_mem u')) = length (m_flux (u_mem u)) /\
    forall cc g old, in_range (u_domain u) (sp_n_groups (mc_params md)) cc g ->
      nth_error (m_flux (u_mem u)) (N.to_nat (slot (sp_n_groups (mc_params md)) cc g)) = Some old ->
      nth_error (m_flux (u_mem u')) (N.to_nat (slot (sp_n_groups (mc_params md)) cc g)) = Some (entry_sum cc g l old).
Proof.
  intros Hm Hr Hok H. pose proof (process_as zero_not_positive _ _ _ _ _ _ Hm Hr Hok H) as G.
  destruct (rmap (solo fuel cf (mc_track md) (u_domain u)) (processing c)) as [rs| |] eqn:E;
    [|destruct G; discriminate|destruct G; discriminate].
  destruct G as (u1 & c1 & Eq & A). injection Eq; intros; subst u1 c1. destruct (pa_flux _ _ _ _ _ _ A) as (l & HP & HF).
  exists rs, l. split; [reflexivity|]. split; [exact HP|]. split; [rewrite HF; apply flux_with_length|].
  intros cc g old Hin Hold. rewrite HF, (flux_entry _ _ _ _ _ Hold). f_equal. apply entry_sum_filter; [|apply Hin].
  pose proof (solos_groups _ _ _ _ _ _ _ Hr E) as HG.
  apply (Permutation_Forall (Permutation_sym HP)). eapply Forall_impl; [|exact HG].
  intros [[c0 g0] v0] (_ & Hg). exact Hg.
Qed.

Lemma entry_sum_app c g (l1 l2 : list contribution) s : entry_sum c g (l1 ++ l2) s = entry_sum c g l2 (entry_sum c g l1 s).
Proof. apply fold_left_app. Qed.

Lemma rounds_flux fuel cf (md : mcdata K) ok u c r :
  safe_energies md ok -> run_ok md -> tracking_rounds fuel cf md u c r ->
  uc_rel md ok (u, c) (u, c) -> extra_particles c = [] -> forall u' c', r = Ok (u', c') ->
  exists rs l, solo_rounds fuel cf (mc_track md) (u_domain u) (processing c) rs /\
    Permutation l (contributions rs) /\
    forall cc g old, in_range (u_domain u) (sp_n_groups (mc_params md)) cc g ->
      nth_error (m_flux (u_mem u)) (N.to_nat (slot (sp_n_groups (mc_params md)) cc g)) = Some old ->
      nth_error (m_flux (u_mem u')) (N.to_nat (slot (sp_n_groups (mc_params md)) cc g)) = Some (entry_sum cc g l old).
Proof.
  intros Hs Hr H. induction H as [u c D|u c u1 c1 r D Hp Ht IH|u c D Hp|u c D Hp]; intros HR He u' c' Er; try discriminate.
  - injection Er; intros; subst. exists [], []. unfold is_done_processing in D. apply andb_true_iff in D as (_ & D).
    destruct (processing c'); [|discriminate]. split; [constructor|]. split; [constructor|]. intros. exact H0.
  - pose proof HR as [E1 E2 E3 P1 P2 P3 S PL M1 M2]. cbn [fst snd] in * . apply Forall_app in PL as (PL & _).
    assert (HS : Forall (stays_in_range (mc_track md) (u_domain u) (sp_n_groups (mc_params md))) (processing (sort_processing c))).
    { apply (Permutation_Forall (sort_particles_perm (processing c))). eapply Forall_impl; [|exact PL].
      intros p Hp'. exact (placed_stays ok md Hs (u_domain u) S p Hp'). }
    destruct (process_flux _ _ _ _ _ _ _ M1 HS Hr Hp) as (rs1 & l1 & F1 & Q1 & _ & G1).
    pose proof (process_as zero_not_positive _ _ _ _ _ _ M1 HS Hr Hp) as GA. rewrite F1 in GA.
    destruct GA as (u2 & c2 & Eq & [A1 A2 A3 A4 A5 A6 A7 A8]). injection Eq; intros; subst u2 c2.
    pose proof (process_rel md md ok (same_problem_refl md) Hs Hr Hr zero_not_positive _ _ _ _ _ _ _ _ HR Hp Hp) as HR'.
    cbn [agree fst snd] in HR'.
    destruct (IH HR' eq_refl _ _ Er) as (rs2 & l2 & F2 & Q2 & G2).
    cbn [clean_extra_vaults processing] in F2. rewrite A4 in F2. cbn [app] in F2.
    cbn [sort_processing extra_particles] in A6. rewrite He in A6. cbn [app] in A6. rewrite A1 in F2, G2.
    exists (rs1 ++ rs2), (l1 ++ l2). split; [|split].
    + eapply solo_round; [apply (sort_particles_perm (processing c))|exact F1|exact A6|exact F2].
    + eapply Permutation_trans; [exact (Permutation_app Q1 Q2)|].
      apply eq_ind with (P := Permutation (contributions rs1 ++ contributions rs2)) (2 := eq_sym (contributions_app rs1 rs2)).
      apply Permutation_refl.
    + intros cc g old Hin Hold. rewrite entry_sum_app. apply G2; auto.
Qed.

(** For an addition that is associative and commutative the order does not matter. *)
Lemma entry_sum_perm c g (l1 l2 : list contribution) :
  (forall x y z : F K, (x +. y) +. z = (x +. z) +. y) -> Permutation l1 l2 ->
  forall start, entry_sum c g l1 start = entry_sum c g l2 start.
Proof.
  intros Hc. induction 1 as [|[[cx gx] vx] l1 l2 _ IH|[[cx gx] vx] [[cy gy] vy] l|l1 l2 l3 _ IH1 _ IH2]; intros start;
    cbn [entry_sum fold_left]; auto.
  - apply IH.
  - f_equal. destruct ((cx =? c) && (gx =? g)), ((cy =? c) && (gy =? g)); auto.
  - etransitivity; eauto.
Qed.

End Run.

(** ** The statements of ScheduleProps *)

Section Statements.
Context {K : FloatOps}.
Local Notation contribution := (@ScheduleSpec.contribution K).
Local Notation track_result := (@ScheduleSpec.track_result K).

Lemma schedule_independent fuel cf (md1 md2 : mcdata K) u c r1 r2 :
  f0 <. (f0 : F K) = false ->
  sound_mem (mc_track md1) (u_domain u) (sp_n_groups (mc_params md1)) (u_mem u) ->
  Forall (stays_in_range (mc_track md1) (u_domain u) (sp_n_groups (mc_params md1))) (processing c) ->
  threads_ok md1 -> threads_ok md2 -> same_problem md1 md2 ->
  process_particles fuel cf md1 u c r1 -> process_particles fuel cf md2 u c r2 -> agree same_round r1 r2.
Proof.
  intros Hz Hm Hr H1 H2 Hs P1 P2. pose proof (process_agree Hz _ _ _ _ _ _ _ _ Hm Hr H1 H2 Hs P1 P2) as G.
  destruct r1 as [[u1 c1]| |], r2 as [[u2 c2]| |]; exact G.
Qed.

(** The outcome of tracking a population, from the tracks of its particles alone. *)
Lemma round_outcome fuel cf (md : mcdata K) u c r :
  f0 <. (f0 : F K) = false ->
  sound_mem (mc_track md) (u_domain u) (sp_n_groups (mc_params md)) (u_mem u) ->
  Forall (stays_in_range (mc_track md) (u_domain u) (sp_n_groups (mc_params md))) (processing c) ->
  threads_ok md -> process_particles fuel cf md u c r ->
  match rmap (solo fuel cf (mc_track md) (u_domain u)) (processing c) with
  | Ok rs => exists u' c', r = Ok (u', c') /\
      u_balance u' = badd (u_balance u) (counters rs) /\ processing c' = [] /\
      processed c' = processed c ++ filter is_valid (finals rs) /\
      Permutation (extra_particles c') (extra_particles c ++ created rs)
  | _ => r = Panic \/ r = NoFuel
  end.
Proof.
  intros Hz Hm Hr Ht H. pose proof (process_as Hz _ _ _ _ _ _ Hm Hr Ht H) as G.
  destruct (rmap (solo fuel cf (mc_track md) (u_domain u)) (processing c)) as [rs| |]; auto.
  destruct G as (u' & c' & -> & []). exists u', c'. auto 10.
Qed.

Lemma tracked_conditions fuel cf (md : mcdata K) d u c :
  f0 <. (f0 : F K) = false -> energies_bounded md -> threads_ok md -> implemented md -> sound_problem md d ->
  tracked fuel cf md d u c ->
  sound_mem (mc_track md) (u_domain u) (sp_n_groups (mc_params md)) (u_mem u) /\
  Forall (stays_in_range (mc_track md) (u_domain u) (sp_n_groups (mc_params md))) (processing c).
Proof. intros Hz. exact (tracked_sound Hz fuel cf md d u c). Qed.

(** The rounds sort the particles first. *)
Lemma tracked_sorted fuel cf (md : mcdata K) d u c :
  f0 <. (f0 : F K) = false -> energies_bounded md -> threads_ok md -> implemented md -> sound_problem md d ->
  tracked fuel cf md d u c ->
  sound_mem (mc_track md) (u_domain u) (sp_n_groups (mc_params md)) (u_mem u) /\
  Forall (stays_in_range (mc_track md) (u_domain u) (sp_n_groups (mc_params md))) (processing (sort_processing c)).
Proof.
  intros Hz He Ht Hi Hd HT. destruct (tracked_sound Hz _ _ _ _ _ _ He Ht Hi Hd HT) as (H1 & H2). split; [exact H1|].
  exact (Permutation_Forall (sort_particles_perm (processing c)) H2).
Qed.

Lemma round_of_run fuel cf (md1 md2 : mcdata K) d u c r1 r2 :
  f0 <. (f0 : F K) = false -> energies_bounded md1 -> threads_ok md1 -> implemented md1 -> sound_problem md1 d ->
  threads_ok md2 -> same_problem md1 md2 -> tracked fuel cf md1 d u c ->
  process_particles fuel cf md1 u (sort_processing c) r1 -> process_particles fuel cf md2 u (sort_processing c) r2 ->
  agree same_round r1 r2.
Proof.
  intros Hz He Ht Hi Hd Ht2 Hs HT. destruct (tracked_sorted _ _ _ _ _ _ Hz He Ht Hi Hd HT) as (H1 & H2).
  exact (schedule_independent _ _ _ _ _ _ _ _ Hz H1 H2 Ht Ht2 Hs).
Qed.

(** The existence of an execution under the other policy. *)
Lemma round_exists fuel cf (md1 md2 : mcdata K) u c x1 :
  f0 <. (f0 : F K) = false ->
  sound_mem (mc_track md1) (u_domain u) (sp_n_groups (mc_params md1)) (u_mem u) ->
  Forall (stays_in_range (mc_track md1) (u_domain u) (sp_n_groups (mc_params md1))) (processing c) ->
  threads_ok md1 -> threads_ok md2 -> same_problem md1 md2 ->
  process_particles fuel cf md1 u c (Ok x1) -> exists x2, process_particles fuel cf md2 u c (Ok x2).
Proof.
  intros Hz Hm Hr H1 H2 (Sp & St & _) P1. pose proof (process_as Hz _ _ _ _ _ _ Hm Hr H1 P1) as G.
  destruct (rmap (solo fuel cf (mc_track md1) (u_domain u)) (processing c)) as [rs| |] eqn:E;
    [|destruct G; discriminate|destruct G; discriminate].
  rewrite St, Sp in Hm, Hr. rewrite St in E. exact (process_exists Hz _ _ _ _ _ _ Hm Hr H2 E).
Qed.

Lemma run_reproducible fuel cf (md1 md2 : mcdata K) d r1 r2 :
  f0 <. (f0 : F K) = false -> energies_bounded md1 -> same_problem md1 md2 -> sound_problem md1 d ->
  threads_ok md1 -> threads_ok md2 -> implemented md1 -> implemented md2 ->
  core_loop fuel cf md1 (initial_sim md1 d) r1 -> core_loop fuel cf md2 (initial_sim md2 d) r2 ->
  agree same_state r1 r2.
Proof.
  intros Hz (ok & Hs) Hp Hd H1 H2 I1 I2. exact (runs_agree md1 md2 ok Hp Hs H1 H2 Hz I1 I2 fuel cf d r1 r2 Hd).
Qed.

Lemma run_under_other_policy fuel cf (md1 md2 : mcdata K) d s1 :
  f0 <. (f0 : F K) = false -> energies_bounded md1 -> same_problem md1 md2 -> sound_problem md1 d ->
  threads_ok md1 -> threads_ok md2 -> implemented md1 -> implemented md2 ->
  core_loop fuel cf md1 (initial_sim md1 d) (Ok s1) ->
  exists s2, core_loop fuel cf md2 (initial_sim md2 d) (Ok s2) /\ same_state s1 s2.
Proof.
  intros Hz (ok & Hs) Hp Hd H1 H2 I1 I2. exact (run_exists Hz md1 md2 ok Hp Hs H1 H2 I1 I2 fuel cf d s1 Hd).
Qed.

(** Every value an entry of the cache takes during a parallel region of a run. *)
Lemma cache_of_run fuel cf (md : mcdata K) d u c n conf :
  f0 <. (f0 : F K) = false -> energies_bounded md -> threads_ok md -> implemented md -> sound_problem md d ->
  tracked fuel cf md d u c -> n <> 0%nat ->
  csteps (sp_n_groups (mc_params md))
    (mkConf (map (fun l => Running (track_slice fuel cf (mc_track md) (u_domain u) l balance_zero []))
                 (chunks n (processing (sort_processing c))))
       (map (fun v => [v]) (m_cache (u_mem u))) (m_flux (u_mem u)) (extra_particles c)) conf ->
  forall cell g vs v, in_range (u_domain u) (sp_n_groups (mc_params md)) cell g ->
    nth_error (cf_hist conf) (N.to_nat (slot (sp_n_groups (mc_params md)) cell g)) = Some vs -> In v vs ->
    cached (mc_track md) (u_domain u) cell g v.
Proof.
  intros Hz He Ht Hi Hd HT Hn HS. destruct (tracked_sorted _ _ _ _ _ _ Hz He Ht Hi Hd HT) as (H1 & H2).
  eapply (history_cached Hz fuel cf md u); [exact H1| |exact HS].
  rewrite chunks_concat by lia. exact H2.
Qed.

Lemma lookup_any_read (td : track_data K) dom c g : f0 <. (f0 : F K) = false ->
  exists k, get_xs td dom c g = LoadXs c g k /\
    forall v, cached td dom c g v ->
      match cell_cross_section td dom c g with
      | Ok x => k v = Ret x \/ k v = StoreXs c g x (Ret x)
      | Panic => k v = Fail
      | NoFuel => k v = Stuck
      end.
Proof.
  intros Hz. eexists. split; [reflexivity|]. intros v Hv. cbn beta. rewrite (lookup_fresh Hz _ _ _ _ _ Hv).
  destruct (cell_cross_section td dom c g); auto. destruct (f0 <. v); auto.
Qed.

(** Every cycle starts with an empty flux array. *)
Lemma sync_flux (md : mcdata K) n s s1 : cycle_sync md n s = Ok s1 ->
  (n = 0 -> Forall (eq f0) (m_flux (u_mem (s_unit s)))) -> Forall (eq f0) (m_flux (u_mem (s_unit s1))).
Proof.
  assert (Hprep : forall s s1, prepare_cycle md s = Ok s1 -> m_flux (u_mem (s_unit s1)) = m_flux (u_mem (s_unit s))).
  { clear. unfold prepare_cycle. intros s s' H. rb H as w Hw. rb H as n Hn. injection H; intros; subst. reflexivity. }
  unfold cycle_sync. intros H H0. destruct (N.eqb_spec n 0) as [E|E].
  - rewrite (Hprep _ _ H). auto.
  - rb H as s2 Hf.
    assert (E2 : Forall (eq f0) (m_flux (u_mem (s_unit s2)))).
    { unfold finish_cycle in Hf. destruct (ei_policy (mc_exec md)); try discriminate;
        rb Hf as [u rs] Hst; rb Hf as rs' Hsp; injection Hf; intros; subst; cbn [s_unit];
        unfold update_stats in Hst; rb Hst as fl Hfl; injection Hst; intros; subst;
        cbn [cycle_finalize u_mem m_flux]; apply Forall_map, Forall_forall; reflexivity. }
    destruct (n =? sp_n_steps (mc_params md) + 1); [injection H; intros; subst; exact E2|].
    rewrite (Hprep _ _ H). exact E2.
Qed.

Lemma cycle_flux fuel cf (md : mcdata K) d n s s1 u0 c0 u' c' :
  f0 <. (f0 : F K) = false -> energies_bounded md -> threads_ok md -> implemented md -> sound_problem md d ->
  n < sp_n_steps (mc_params md) -> run_steps fuel cf md (initial_sim md d) n (Ok s) -> cycle_sync md n s = Ok s1 ->
  population_phase md s1 = Ok (u0, c0) -> tracking_rounds fuel cf md u0 c0 (Ok (u', c')) ->
  exists rs l, solo_rounds fuel cf (mc_track md) (u_domain u0) (processing c0) rs /\ Permutation l (contributions rs) /\
    forall cell g, in_range (u_domain u0) (sp_n_groups (mc_params md)) cell g ->
      nth_error (m_flux (u_mem u')) (N.to_nat (slot (sp_n_groups (mc_params md)) cell g)) = Some (entry_sum cell g l f0).
Proof.
  intros Hz (ok & Hs) Ht Hi Hd Hn HR Hsy Hp HT.
  assert (HTr : tracked fuel cf md d u0 c0) by (exists n, s, s1, u0, c0; repeat (split; [assumption|]); constructor).
  pose proof (tracked_rel Hz _ _ _ _ _ _ _ Hs Ht Hi Hd HTr) as G.
  pose proof (run_steps_settled _ _ _ _ _ _ HR _ eq_refl (N.lt_le_incl _ _ Hn)) as St.
  destruct (sync_settled _ _ _ _ _ St Hsy) as (R & _); [lia|]. destruct R as [R1 R2 R3 R4].
  destruct (population_ok _ _ _ _ Hp R1 R3 R4) as (src & _ & _ & E2 & _ & _ & _ & _ & _ & _ & EM).
  assert (HF : Forall (eq f0) (m_flux (u_mem u0))).
  { rewrite EM. apply (sync_flux _ _ _ _ Hsy). intros ->. inversion HR; subst; try lia.
    - cbn. apply Forall_forall. intros x Hx. apply repeat_spec in Hx. congruence. }
  destruct (rounds_flux Hz _ _ _ _ _ _ _ Hs Ht HT G E2 _ _ eq_refl) as (rs & l & F1 & F2 & F3).
  exists rs, l. split; [exact F1|]. split; [exact F2|]. intros cell g Hin.
  destruct G as [_ _ _ _ _ _ _ _ M1 _]. cbn [fst snd] in M1. destruct M1 as [_ HZ _].
  destruct (in_range_get _ _ (m_flux (u_mem u0)) cell g HZ Hin) as (old & Eo).
  unfold vec_get, unwrap in Eo. destruct (nth_error (m_flux (u_mem u0)) (N.to_nat (slot (sp_n_groups (mc_params md)) cell g))) as [o|] eqn:En;
    [|discriminate].
  apply F3; [exact Hin|]. rewrite En. f_equal. symmetry. rewrite Forall_forall in HF. apply HF. eapply nth_error_In; eauto.
Qed.

(** The sum of the flux array, for an addition that is exact. *)
Lemma fsum_list_set (fl : list (F K)) i old v :
  (forall x y z : F K, (x +. y) +. z = (x +. z) +. y) -> nth_error fl i = Some old ->
  (forall x y z : F K, x +. (y +. z) = (x +. y) +. z) ->
  forall acc, fold_left fadd (list_set fl i (old +. v)) acc = fold_left fadd fl acc +. v.
Proof.
  intros Hc Hn Ha. revert i Hn. induction fl as [|x fl IH]; intros [|i] Hn acc; cbn [nth_error] in Hn; try discriminate.
  - injection Hn as ->. cbn [list_set fold_left]. rewrite Ha. generalize (acc +. old). clear - Hc.
    induction fl as [|y fl IH]; intros a; cbn [fold_left]; [reflexivity|]. rewrite Hc. apply IH.
  - cbn [list_set fold_left]. apply IH, Hn.
Qed.

End Statements.

(** ** Order of additions *)
From Coq Require Import Reals Lra.
From Verif Require Import RealOps Ieee.

Lemma entry_sum_exact c g (l1 l2 : list (@contribution Rops)) (start : F Rops) : Permutation l1 l2 ->
  entry_sum c g l1 start = entry_sum c g l2 start /\
  entry_sum c g l1 start = (start + fold_right Rplus 0 (map snd (filter (fun x => (fst (fst x) =? c) && (snd (fst x) =? g)) l1)))%R.
Proof.
  intros HP. split.
  - apply entry_sum_perm; [|exact HP]. exact (fun x y z : R => ltac:(ring) : (x + y + z = x + z + y)%R).
  - clear HP. revert start. induction l1 as [|[[cx gx] vx] l1 IH]; intros start; cbn [entry_sum fold_left filter fst snd].
    + exact (eq_sym (Rplus_0_r start)).
    + destruct ((cx =? c) && (gx =? g)); cbn [map fold_right snd]; [|apply IH].
      etransitivity; [apply IH|]. generalize (fold_right Rplus 0 (map snd (filter (fun x => (fst (fst x) =? c) && (snd (fst x) =? g)) l1)))%R.
      intros t. exact (Rplus_assoc start vx t).
Qed.

Lemma entry_sum_binary64 : exists c g (l1 l2 : list (@contribution K64)) start,
  Permutation l1 l2 /\ entry_sum c g l1 start <> entry_sum c g l2 start.
Proof.
  exists 0, 0, [(0, 0, fof_N (2 ^ 53)); (0, 0, f1); (0, 0, f1)], [(0, 0, f1); (0, 0, f1); (0, 0, fof_N (2 ^ 53))], f0.
  split.
  - apply (Permutation_app_comm [_] [_; _]).
  - intros H.
    assert (E : flt (entry_sum (K := K64) 0 0 [(0, 0, fof_N (2 ^ 53)); (0, 0, f1); (0, 0, f1)] f0)
      (entry_sum 0 0 [(0, 0, f1); (0, 0, f1); (0, 0, fof_N (2 ^ 53))] f0) = true) by (vm_compute; reflexivity).
    rewrite H in E. vm_compute in E. discriminate.
Qed.
