(** The number of segments through tracking. *)
From Coq Require Import NArith ZArith List Bool Lia.
From Verif Require Import Float RngModel ParticleModel NuclearModel MeshTypes Balance TrackModel CycleModel
  ProgLemmas TrackSpec CycleSpec TrackAccount PopSpec RunKeeps SegmentFacts SingleModel.
Import ListNotations.
Local Open Scope N_scope.

(** ** Collisions and facets do not change the number of segments *)
Section Any.
Context {K : FloatOps}.
Definition tag (p : particle K) : F K := p_num_segments p.

Lemma draw_tag p : tag (snd (draw p)) = tag p.
Proof. reflexivity. Qed.
Lemma update_tag p e a : tag (update_trajectory p e a) = tag p.
Proof.
  unfold update_trajectory. destruct (draw p) as [r q] eqn:E. assert (Q : tag q = tag p) by (pose proof (draw_tag p) as Q; rewrite E in Q; exact Q).
  rewrite <- Q. unfold sample_num_mfp, rotate_direction. cbn [draw]. cbv zeta. destruct (flt _ _); reflexivity.
Qed.
Lemma scatter_tag p m : tag (snd (draw_scatter p m)) = tag p.
Proof. reflexivity. Qed.
Lemma fission_tag p : tag (snd (draw_fission p)) = tag p.
Proof. reflexivity. Qed.
Lemma fissions_tag n : forall p, tag (snd (draw_fission_n n p)) = tag p.
Proof.
  induction n as [|n IH]; intros p; [reflexivity|]. cbn [draw_fission_n]. pose proof (fission_tag p) as E1.
  destruct (draw_fission p) as [[e a] p1]. specialize (IH p1). destruct (draw_fission_n n p1) as [l p2]. cbn [snd] in * . congruence.
Qed.
Lemma spawns_tag n : forall p, tag (snd (spawn_n n p)) = tag p.
Proof.
  induction n as [|n IH]; intros p; [reflexivity|]. cbn [spawn_n]. assert (E1 : tag (snd (spawn p)) = tag p) by (unfold spawn; destruct (spawn_rn_seed _); reflexivity).
  destruct (spawn p) as [s p1]. specialize (IH p1). destruct (spawn_n n p1) as [l p2]. cbn [snd] in * . congruence.
Qed.

Lemma collision_tag p r m n q sec : sample_collision p r m = Ok (n, q, sec) -> Forall (fun x => tag x = tag p) (q :: sec).
Proof.
  unfold sample_collision. destruct (r_type r).
  - intros H. pose proof (scatter_tag p m) as E. destruct (draw_scatter p m) as [[e a] p1]. injection H; intros; subst.
    constructor; [rewrite update_tag; exact E|constructor].
  - intros H. injection H; intros; subst. constructor; [reflexivity|constructor].
  - intros H. pose proof (draw_tag p) as E0. destruct (draw p) as [u p1]. cbn [snd] in E0. rb H as k Ek. clear Ek.
    assert (Multi : forall k, (do _ <- rassert (k <? 5) ;
        (let '(energy, angle, p) := draw_fission p1 in
         let (out, p) := draw_fission_n (N.to_nat (k - 1)) p in
         let (seeds, p) := spawn_n (N.to_nat (k - 1)) p in
         let sec := map (fun '(seed, (e, a)) => secondary p seed e a) (combine seeds out) in
         Ok (k, update_trajectory p energy angle, sec))) = Ok (n, q, sec) -> Forall (fun x => tag x = tag p) (q :: sec)).
    { clear H k. intros k H. rb H as t Et. pose proof (fission_tag p1) as E1. destruct (draw_fission p1) as [[e a] p2].
      pose proof (fissions_tag (N.to_nat (k - 1)) p2) as E2. destruct (draw_fission_n _ p2) as [out p3].
      pose proof (spawns_tag (N.to_nat (k - 1)) p3) as E3. destruct (spawn_n _ p3) as [seeds p4]. cbn [snd] in * . cbv zeta in H.
      injection H; intros; subst; clear H. assert (E4 : tag p4 = tag p) by congruence. constructor; [rewrite update_tag; exact E4|].
      apply Forall_forall. intros x Hx. apply in_map_iff in Hx. destruct Hx as ((seed & e' & a') & <- & _). unfold secondary. rewrite update_tag. exact E4. }
    destruct k as [|[k|k|]].
    + injection H; intros; subst. constructor; [exact E0|constructor].
    + exact (Multi _ H).
    + exact (Multi _ H).
    + pose proof (fission_tag p1) as E1. destruct (draw_fission p1) as [[e a] p2]. injection H; intros; subst. cbn [snd] in E1.
      constructor; [rewrite update_tag; congruence|constructor].
Qed.

Lemma facet_tag dom (p : particle K) fa p2 p' : facet_crossing_event p fa = Ok p2 ->
  match fa_event fa with
  | TransitOnProcessor => p' = p2
  | BoundaryReflection => exists planes pl, vec_get (me_geom (d_mesh dom)) (p_cell p2) = Ok planes /\ vec_get planes (p_facet p2) = Ok pl /\ p' = reflect_particle p2 pl
  | BoundaryEscape => p' = set_species (set_last_event p2 EvEscape) Unknown
  | _ => False
  end -> tag p' = tag p.
Proof.
  unfold facet_crossing_event. intros Hev Hm. destruct (fa_event fa); try contradiction.
  - apply Ok_inj in Hev. subst. reflexivity.
  - apply Ok_inj in Hev. subst p2. destruct Hm as (planes & pl & _ & _ & ->). unfold reflect_particle. destruct (flt _ _); reflexivity.
  - rb Hev as d0 Ed. rb Hev as c0 Ec. rb Hev as f0' Ef. apply Ok_inj in Hev. subst. reflexivity.
Qed.

(** ** Nor does the choice of the segment *)
Lemma nf_loop_segs fuel m co di tol planes (p : particle K) : forall i mf nf p',
  mct_nf_loop fuel m co di tol planes p i mf = Ok (nf, p') -> p_num_segments p' = p_num_segments p /\ p_cell p' = p_cell p /\ p_energy_group p' = p_energy_group p.
Proof.
  revert p. induction fuel as [|fuel IH]; intros p i mf nf p' H; cbn [mct_nf_loop] in H; [discriminate|].
  rb H as nf0 E0. rb H as [[[rt p1] i1] mf1] E1.
  assert (A : p_num_segments p1 = p_num_segments p /\ p_cell p1 = p_cell p /\ p_energy_group p1 = p_energy_group p).
  { unfold check_nearest_validity in E1. destruct (_ || _); [|injection E1; intros; subst; repeat split].
    rb E1 as c Ec. injection E1; intros; subst; repeat split. }
  destruct rt.
  - destruct (IH _ _ _ _ _ H) as (B1 & B2 & B3). intuition congruence.
  - injection H; intros; subst. exact A.
Qed.
Lemma outcome_segs dom (p : particle K) sp fc xs o p' : outcome_after dom p sp fc xs = Ok (o, p') ->
  p_num_segments p' = p_num_segments p /\ p_cell p' = p_cell p /\ p_energy_group p' = p_energy_group p.
Proof.
  unfold outcome_after. intros H. rb H as [nf p1] En. unfold nearest_facet, mct_nf_3dg in En. rb En as [nf0 p0] En0. rb En0 as planes Ep.
  apply nf_loop_segs in En0. cbv zeta in En. rb En as t Et. injection En; intros; subst. clear En.
  assert (A : p_num_segments p1 = p_num_segments p /\ p_cell p1 = p_cell p /\ p_energy_group p1 = p_energy_group p).
  { destruct En0 as (E1 & E2 & E3). destruct (feq (p_num_mean_free_paths _) f0); (split; [|split]); [etransitivity; [exact E1|reflexivity]|
    etransitivity; [exact E2|reflexivity]|etransitivity; [exact E3|reflexivity]|etransitivity; [exact E1|reflexivity]|etransitivity; [exact E2|reflexivity]|
    etransitivity; [exact E3|reflexivity]]. }
  clear En0. cbv zeta in H.
  match type of H with context [let '(_, _) := ?h in _] => destruct h as [d o'] end.
  rb H as t2 Et2. match type of H with (if ?c then _ else _) = _ => destruct c end; injection H; intros; subst; destruct o; exact A.
Qed.

(** One segment adds one, to the particle and those it creates. *)
Lemma step_segs td dom (p : particle K) e keep p' nx : seg_step td dom p e keep p' nx -> Forall (fun q => p_num_segments q = fadd (p_num_segments p) f1) (p' :: nx).
Proof.
  assert (En : p_num_segments (entering p) = p_num_segments p) by (unfold entering; destruct (out_of_paths p); reflexivity).
  intros H. inversion H as [? xs p1 cs cur p2 cfuel r mat n p3 ? gr ? Ho p1' Hcs Hcur Hpick Hmat Hcol Hg Hp'|? xs p1 conn fa p2 ? Ho p1' Hconn Hfa Hev Hm|? xs p1 Ho]; subst;
    apply outcome_segs in Ho; destruct Ho as (Ho & _); rewrite En in Ho.
  - apply collision_tag in Hcol. assert (E2 : p_num_segments p2 = fadd (p_num_segments p) f1).
    { unfold get_current_xs, draw in Hcur. injection Hcur; intros; subst. change (fadd (p_num_segments p1) f1 = fadd (p_num_segments p) f1). congruence. }
    assert (W : forall q, tag q = tag p2 -> p_num_segments q = fadd (p_num_segments p) f1) by (unfold tag; intros q Q; congruence).
    constructor; [destruct (1 <=? n); apply W; exact (Forall_inv Hcol)|]. eapply Forall_impl; [|exact (Forall_inv_tail Hcol)]. exact W.
  - pose proof (facet_tag dom _ _ _ _ Hev Hm) as T. constructor; [|constructor]. unfold tag in T. rewrite T. change (fadd (p_num_segments p1) f1 = fadd (p_num_segments p) f1). congruence.
  - constructor; [|constructor]. change (fadd (p_num_segments p1) f1 = fadd (p_num_segments p) f1). congruence.
Qed.

Lemma track_segs td dom (p : particle K) evs p' nx : track_path td dom p evs p' nx -> forall n, p_num_segments p = count_segments K n ->
  p_num_segments p' = count_segments K (n + length evs) /\
  Forall (fun q => exists k, (1 <= k <= length evs)%nat /\ p_num_segments q = count_segments K (n + k)) nx.
Proof.
  induction 1 as [p e p' nx H|p e p1 nx1 evs p' nx2 H _ IH]; intros n E; apply step_segs in H; pose proof (Forall_inv H) as H1; pose proof (Forall_inv_tail H) as H2; cbv beta in H1; rewrite E in H1, H2.
  - cbn [length]. split; [rewrite Nat.add_1_r; exact H1|]. eapply Forall_impl; [|exact H2]. cbv beta. intros q Q. exists 1%nat. split; [lia|]. rewrite Nat.add_1_r. exact Q.
  - destruct (IH (S n) H1) as (A & B). cbn [length]. split; [rewrite A; f_equal; lia|]. apply Forall_app. split.
    + eapply Forall_impl; [|exact H2]. cbv beta. intros q Q. exists 1%nat. split; [lia|]. rewrite Nat.add_1_r. exact Q.
    + eapply Forall_impl; [|exact B]. cbv beta. intros q (k & Hk & Q). exists (S k). split; [lia|]. rewrite Q. f_equal. lia.
Qed.
Lemma prepared_segs (td : track_data K) (p q : particle K) : prepare_particle td p = Ok q -> p_num_segments q = p_num_segments p.
Proof. unfold prepare_particle. intros H. rb H as gr Eg. apply Ok_inj in H. subst q. destruct (fle _ _); reflexivity. Qed.


(** ** A run *)
Lemma coordinate_segs (p : particle K) m cell v x q : generate_coordinate_3dg p m cell v = Ok (x, q) -> p_num_segments q = p_num_segments p.
Proof.
  unfold generate_coordinate_3dg. intros H. rb H as center Ec. cbn [draw] in H. cbv zeta in H. rb H as points Ep.
  cbn [draw] in H. cbv zeta in H. destruct (fold_barycentric _ _ _) as [[[r1 r2] r3] r4]. destruct points as [[q0 q1] q2]. apply Ok_inj in H. injection H; intros; subst. reflexivity.
Qed.
Lemma sourced_segs (md : mcdata K) w dom c v x p : source_particle md w dom c v x = Ok p -> p_num_segments p = f0.
Proof.
  unfold source_particle. destruct (spawn_rn_seed x) as [s y]. intros H. rb H as [co q] E. apply coordinate_segs in E. cbv zeta in H.
  unfold sample_num_mfp, sample_isotropic in H. cbn [draw] in H. cbv zeta in H. apply Ok_inj in H. subst p. exact E.
Qed.

Lemma run_segs fuel cf (md : mcdata K) d n s : run_steps fuel cf md (initial_sim md d) n (Ok s) -> n <= sp_n_steps (mc_params md) ->
  Forall (fun p => exists k, (1 <= k)%nat /\ p_num_segments p = count_segments K k) (processed (s_cont s)).
Proof.
  intros H Hn. refine (run_keeps md (d_mesh d) (fun p => exists k, p_num_segments p = count_segments K k)
    (fun p => exists k, (1 <= k)%nat /\ p_num_segments p = count_segments K k) _ _ _ _ fuel cf d n (Ok s) eq_refl H s eq_refl Hn).
  - intros p (k & _ & E). exists k. exact E.
  - intros p q Hs (k & E). exists k. unfold same_but_weight in Hs. rewrite <- Hs in E. exact E.
  - intros w dom c v x p _ _ E. exists 0%nat. exact (sourced_segs _ _ _ _ _ _ _ E).
  - intros dom p q evs p' nx _ (k & E) Hp Ht. assert (L : (1 <= length evs)%nat) by (destruct Ht; cbn [length]; lia).
    rewrite <- (prepared_segs _ _ _ Hp) in E. destruct (track_segs _ _ _ _ _ _ Ht k E) as (A & B). split.
    + intros _ _. exists (k + length evs)%nat. split; [lia|exact A].
    + eapply Forall_impl; [|exact B]. cbv beta. intros c (j & _ & Ec). exists (k + j)%nat. exact Ec.
Qed.
End Any.
