(** Weights through tracking. *)
From Coq Require Import NArith ZArith List Bool Lia Reals Lra Permutation.
From Verif Require Import Float RealOps RngModel ParticleModel NuclearModel MeshTypes Balance TrackModel CycleModel
  ProgLemmas TrackSpec CycleSpec TrackAccount SegmentFacts PopSpec SegmentSpec GeomSpec StaySpec SpeedSpec WeightSpec.
Import ListNotations.
Local Open Scope N_scope.

(** ** Collisions and facets change neither the weight nor the length of the last segment *)
Section Any.
Context {K : FloatOps}.
Definition tag (p : particle K) : F K * F K := (p_weight p, p_segment_path_length p).

Lemma draw_tag p : tag (snd (draw p)) = tag p.
Proof. reflexivity. Qed.
Lemma update_tag p e a : tag (update_trajectory p e a) = tag p.
Proof.
  unfold update_trajectory. destruct (draw p) as [r q] eqn:E. assert (Q : tag q = tag p) by (pose proof (draw_tag p) as Q; rewrite E in Q; exact Q).
  rewrite <- Q. unfold sample_num_mfp, rotate_direction. cbn [draw]. cbv zeta. destruct (flt _ _); reflexivity.
Qed.
Lemma scatter_tag p m : tag (snd (draw_scatter p m)) = tag p.
Proof. reflexivity. Qed.
Lemma fission_tag p : tag (snd (draw_fission p)) = tag p.
Proof. reflexivity. Qed.
Lemma fissions_tag n : forall p, tag (snd (draw_fission_n n p)) = tag p.
Proof.
  induction n as [|n IH]; intros p; [reflexivity|]. cbn [draw_fission_n]. pose proof (fission_tag p) as E1.
  destruct (draw_fission p) as [[e a] p1]. specialize (IH p1). destruct (draw_fission_n n p1) as [l p2]. cbn [snd] in * . congruence.
Qed.
Lemma spawns_tag n : forall p, tag (snd (spawn_n n p)) = tag p.
Proof.
  induction n as [|n IH]; intros p; [reflexivity|]. cbn [spawn_n]. assert (E1 : tag (snd (spawn p)) = tag p) by (unfold spawn; destruct (spawn_rn_seed _); reflexivity).
  destruct (spawn p) as [s p1]. specialize (IH p1). destruct (spawn_n n p1) as [l p2]. cbn [snd] in * . congruence.
Qed.

Lemma collision_tag p r m n q sec : sample_collision p r m = Ok (n, q, sec) -> Forall (fun x => tag x = tag p) (q :: sec).
Proof.
  unfold sample_collision. destruct (r_type r).
  - intros H. pose proof (scatter_tag p m) as E. destruct (draw_scatter p m) as [[e a] p1]. injection H; intros; subst.
    constructor; [rewrite update_tag; exact E|constructor].
  - intros H. injection H; intros; subst. constructor; [reflexivity|constructor].
  - intros H. pose proof (draw_tag p) as E0. destruct (draw p) as [u p1]. cbn [snd] in E0. rb H as k Ek. clear Ek.
    assert (Multi : forall k, (do _ <- rassert (k <? 5) ;
        (let '(energy, angle, p) := draw_fission p1 in
         let (out, p) := draw_fission_n (N.to_nat (k - 1)) p in
         let (seeds, p) := spawn_n (N.to_nat (k - 1)) p in
         let sec := map (fun '(seed, (e, a)) => secondary p seed e a) (combine seeds out) in
         Ok (k, update_trajectory p energy angle, sec))) = Ok (n, q, sec) -> Forall (fun x => tag x = tag p) (q :: sec)).
    { clear H k. intros k H. rb H as t Et. pose proof (fission_tag p1) as E1. destruct (draw_fission p1) as [[e a] p2].
      pose proof (fissions_tag (N.to_nat (k - 1)) p2) as E2. destruct (draw_fission_n _ p2) as [out p3].
      pose proof (spawns_tag (N.to_nat (k - 1)) p3) as E3. destruct (spawn_n _ p3) as [seeds p4]. cbn [snd] in * . cbv zeta in H.
      injection H; intros; subst; clear H. assert (E4 : tag p4 = tag p) by congruence. constructor; [rewrite update_tag; exact E4|].
      apply Forall_forall. intros x Hx. apply in_map_iff in Hx. destruct Hx as ((seed & e' & a') & <- & _). unfold secondary. rewrite update_tag. exact E4. }
    destruct k as [|[k|k|]].
    + injection H; intros; subst. constructor; [exact E0|constructor].
    + exact (Multi _ H).
    + exact (Multi _ H).
    + pose proof (fission_tag p1) as E1. destruct (draw_fission p1) as [[e a] p2]. injection H; intros; subst. cbn [snd] in E1.
      constructor; [rewrite update_tag; congruence|constructor].
Qed.

Lemma facet_tag dom (p : particle K) fa p2 p' : facet_crossing_event p fa = Ok p2 ->
  match fa_event fa with
  | TransitOnProcessor => p' = p2
  | BoundaryReflection => exists planes pl, vec_get (me_geom (d_mesh dom)) (p_cell p2) = Ok planes /\ vec_get planes (p_facet p2) = Ok pl /\ p' = reflect_particle p2 pl
  | BoundaryEscape => p' = set_species (set_last_event p2 EvEscape) Unknown
  | _ => False
  end -> tag p' = tag p.
Proof.
  unfold facet_crossing_event. intros Hev Hm. destruct (fa_event fa); try contradiction.
  - apply Ok_inj in Hev. subst. reflexivity.
  - apply Ok_inj in Hev. subst p2. destruct Hm as (planes & pl & _ & _ & ->). unfold reflect_particle. destruct (flt _ _); reflexivity.
  - rb Hev as d0 Ed. rb Hev as c0 Ec. rb Hev as f0' Ef. apply Ok_inj in Hev. subst. reflexivity.
Qed.

(** ** The choice of the segment does not change the weight *)
Lemma nf_loop_weight fuel m co di tol planes (p : particle K) : forall i mf nf p',
  mct_nf_loop fuel m co di tol planes p i mf = Ok (nf, p') -> p_weight p' = p_weight p /\ p_cell p' = p_cell p /\ p_energy_group p' = p_energy_group p.
Proof.
  revert p. induction fuel as [|fuel IH]; intros p i mf nf p' H; cbn [mct_nf_loop] in H; [discriminate|].
  rb H as nf0 E0. rb H as [[[rt p1] i1] mf1] E1.
  assert (A : p_weight p1 = p_weight p /\ p_cell p1 = p_cell p /\ p_energy_group p1 = p_energy_group p).
  { unfold check_nearest_validity in E1. destruct (_ || _); [|injection E1; intros; subst; repeat split].
    rb E1 as c Ec. injection E1; intros; subst; repeat split. }
  destruct rt.
  - destruct (IH _ _ _ _ _ H) as (B1 & B2 & B3). intuition congruence.
  - injection H; intros; subst. exact A.
Qed.
Lemma outcome_weight dom (p : particle K) sp fc xs o p' : outcome_after dom p sp fc xs = Ok (o, p') ->
  p_weight p' = p_weight p /\ p_cell p' = p_cell p /\ p_energy_group p' = p_energy_group p.
Proof.
  unfold outcome_after. intros H. rb H as [nf p1] En. unfold nearest_facet, mct_nf_3dg in En. rb En as [nf0 p0] En0. rb En0 as planes Ep.
  apply nf_loop_weight in En0. cbv zeta in En. rb En as t Et. injection En; intros; subst. clear En.
  assert (A : p_weight p1 = p_weight p /\ p_cell p1 = p_cell p /\ p_energy_group p1 = p_energy_group p).
  { destruct En0 as (E1 & E2 & E3). destruct (feq (p_num_mean_free_paths _) f0); (split; [|split]); [etransitivity; [exact E1|reflexivity]|
    etransitivity; [exact E2|reflexivity]|etransitivity; [exact E3|reflexivity]|etransitivity; [exact E1|reflexivity]|etransitivity; [exact E2|reflexivity]|
    etransitivity; [exact E3|reflexivity]]. }
  clear En0. cbv zeta in H.
  match type of H with context [let '(_, _) := ?h in _] => destruct h as [d o'] end.
  rb H as t2 Et2. match type of H with (if ?c then _ else _) = _ => destruct c end; injection H; intros; subst; destruct o; exact A.
Qed.

(** One segment: the weight is that of the particle and of the particles it creates. *)
Lemma step_weight td dom (p : particle K) e keep p' nx : seg_step td dom p e keep p' nx -> Forall (fun q => p_weight q = p_weight p) (p' :: nx).
Proof.
  assert (En : p_weight (entering p) = p_weight p) by (unfold entering; destruct (out_of_paths p); reflexivity).
  intros H. inversion H as [? xs p1 cs cur p2 cfuel r mat n p3 ? gr ? Ho p1' Hcs Hcur Hpick Hmat Hcol Hg Hp'|? xs p1 conn fa p2 ? Ho p1' Hconn Hfa Hev Hm|? xs p1 Ho]; subst;
    apply outcome_weight in Ho; destruct Ho as (Ho & _).
  - apply collision_tag in Hcol. assert (E2 : p_weight p2 = p_weight p).
    { unfold get_current_xs, draw in Hcur. injection Hcur; intros; subst. change (p_weight p1 = p_weight p). congruence. }
    assert (W : forall q, tag q = tag p2 -> p_weight q = p_weight p) by (unfold tag; intros q Q; congruence).
    constructor; [destruct (1 <=? n); apply W; exact (Forall_inv Hcol)|]. eapply Forall_impl; [|exact (Forall_inv_tail Hcol)]. exact W.
  - pose proof (facet_tag dom _ _ _ _ Hev Hm) as T. constructor; [|constructor]. unfold tag in T. injection T; intros _ T1. rewrite T1. change (p_weight p1 = p_weight p). congruence.
  - constructor; [|constructor]. change (p_weight p1 = p_weight p). congruence.
Qed.
Lemma prepared_weight (td : track_data K) (p q : particle K) : prepare_particle td p = Ok q -> p_weight q = p_weight p /\ p_species q = p_species p.
Proof. unfold prepare_particle. intros H. rb H as gr Eg. apply Ok_inj in H. subst q. destruct (fle _ _); split; reflexivity. Qed.
End Any.

(** ** The balance of the weights *)
Local Open Scope R_scope.

Lemma weights_app a b : weights (a ++ b) = weights a + weights b.
Proof. unfold weights. induction a as [|p a IH]; cbn [map Rsum fold_right app] in * ; [symmetry; apply Rplus_0_l|]. unfold Rsum in IH. rewrite IH. symmetry. apply Rplus_assoc. Qed.
Lemma weights_perm a b : Permutation a b -> weights a = weights b.
Proof.
  unfold weights. induction 1 as [|p a b _ IH|p q a|a b c _ I1 _ I2]; cbn [map Rsum fold_right] in * ; [reflexivity| | |congruence].
  - unfold Rsum in IH. rewrite IH. reflexivity.
  - set (x := p_weight p). set (y := p_weight q). clearbody x y. change (F Rops) with R in * . ring.
Qed.
Lemma worths_app k a b : worths k (a ++ b) = worths k a + worths k b.
Proof. unfold worths. induction a as [|h a IH]; cbn [map Rsum fold_right app] in * ; [symmetry; apply Rplus_0_l|]. unfold Rsum in IH. rewrite IH. symmetry. apply Rplus_assoc. Qed.
Lemma weights_same (w : R) l : Forall (fun q : particle Rops => p_weight q = w) l -> weights l = INR (length l) * w.
Proof.
  induction 1 as [|q l E _ IH]; [cbn; ring|]. unfold weights in * . cbn [map Rsum fold_right]. unfold Rsum in IH. rewrite IH, E. cbn [length]. rewrite S_INR. change (F Rops) with R in * . ring.
Qed.

(** What is lost and what is gained, with the weights. *)
Definition lost (hs : list happening) : R := worths EAbsorb hs + worths EEscape hs + worths EFission hs.

Lemma lost_app a b : lost (a ++ b) = lost a + lost b.
Proof. unfold lost. rewrite !worths_app. ring. Qed.

Definition kept (p : particle Rops) : R := if is_valid p then p_weight p else 0.

Definition stays (keep : bool) (p : particle Rops) : R := if keep then p_weight p else kept p.

Lemma step_balance td dom (p : particle Rops) e keep p' nx : seg_step td dom p e keep p' nx -> p_species p = Known ->
  stays keep p' + weights nx + lost [Flew p e p'] = p_weight p + worths EProduce [Flew p e p'].
Proof.
  intros H Hk. destruct (seg_step_count _ _ _ _ _ _ _ H Hk) as (_ & V1 & V2 & C & _). pose proof (step_weight _ _ _ _ _ _ _ H) as W.
  rewrite (weights_same _ _ (Forall_inv_tail W)). pose proof (Forall_inv W) as W1. cbn beta in W1.
  unfold lost, worths. cbn [map Rsum fold_right worth]. 
  assert (E : stays keep p' = real_of (if keep then 1 else counts ECensus e)%N * p_weight p).
  { unfold stays. destruct keep; [rewrite W1; symmetry; apply Rmult_1_l|]. unfold kept. specialize (V2 eq_refl). unfold is_valid. destruct (p_species p') eqn:S.
    - destruct e; cbn [counts] in * ; try (symmetry; apply Rmult_0_l). exfalso. discriminate (proj2 V2 eq_refl).
    - rewrite (proj1 V2 eq_refl), W1. symmetry; apply Rmult_1_l. }
  rewrite E. assert (C' : real_of (if keep then 1 else counts ECensus e)%N + INR (length nx) + real_of (counts EAbsorb e) + real_of (counts EEscape e) + real_of (counts EFission e)
    = 1 + real_of (counts EProduce e)).
  { apply (f_equal real_of) in C. unfold real_of in * . rewrite !N2Z.inj_add, !plus_IZR in C. rewrite INR_IZR_INZ, <- nat_N_Z. exact C. }
  revert C'. unfold Rsum. cbn [fold_right]. set (a := real_of _). set (b := INR _). set (c := real_of _). set (d := real_of _). set (f := real_of _).
  set (w := p_weight p). intros C'. match type of C' with _ = 1 + ?k => set (q := k) in * end. clearbody a b c d f w q. change (F Rops) with R in * .
  replace q with (a + b + c + d + f - 1) by lra. ring.
Qed.

Lemma track_balance td dom p hs p' nx : track_log td dom p hs p' nx -> p_species p = Known ->
  kept p' + weights nx + lost hs = p_weight p + worths EProduce hs.
Proof.
  induction 1 as [p e p' nx H|p e p1 nx1 hs p' nx2 H Hl IH]; intros Hk; pose proof (step_balance _ _ _ _ _ _ _ H Hk) as B.
  - exact B.
  - destruct (seg_step_count _ _ _ _ _ _ _ H Hk) as (_ & V1 & _). specialize (IH (V1 eq_refl)). cbn [stays] in B.
    change (Flew p e p1 :: hs) with ([Flew p e p1] ++ hs). rewrite weights_app, lost_app, worths_app. change (F Rops) with R in * . lra.
Qed.

Lemma weights_cons p l : weights (p :: l) = p_weight p + weights l.
Proof. reflexivity. Qed.

Lemma track_valid td dom p hs p' nx : track_log td dom p hs p' nx -> p_species p = Known -> all_valid nx.
Proof.
  induction 1 as [p e p' nx H|p e p1 nx1 hs p' nx2 H Hl IH]; intros Hk; destruct (seg_step_count _ _ _ _ _ _ _ H Hk) as (V & V1 & _); [exact V|].
  apply Forall_app. split; [exact V|apply IH, V1; reflexivity].
Qed.
Lemma slice_balance td dom ps hs ps' nxs : slice_log td dom ps hs ps' nxs -> all_valid ps ->
  all_valid nxs /\ weights (filter is_valid ps') + weights nxs + lost hs = weights ps + worths EProduce hs.
Proof.
  induction 1 as [|p q p' ps ps' h hs nx nxs Hp Ht Hl IH]; intros V; [split; [constructor|unfold lost, worths, weights; cbn; ring]|].
  destruct (prepared_weight _ _ _ Hp) as (Wq & Sq). pose proof (Forall_inv V) as V1. destruct (IH (Forall_inv_tail V)) as (I1 & I2).
  assert (Kq : p_species q = Known) by (rewrite Sq; exact V1).
  split; [apply Forall_app; split; [exact (track_valid _ _ _ _ _ _ Ht Kq)|exact I1]|].
  pose proof (track_balance _ _ _ _ _ _ Ht Kq) as B. rewrite Wq in B. cbn [filter]. unfold kept in B.
  rewrite weights_app, lost_app, worths_app, weights_cons. destruct (is_valid p'); [rewrite weights_cons|]; change (F Rops) with R in * ; lra.
Qed.
Lemma rounds_balance td dom ps hs kept' : rounds_log td dom ps hs kept' -> all_valid ps ->
  weights ps + worths EProduce hs = weights kept' + worths EAbsorb hs + worths EEscape hs + worths EFission hs.
Proof.
  intros H V. enough (E : weights kept' + lost hs = weights ps + worths EProduce hs) by (unfold lost in E; change (F Rops) with R in * ; lra).
  revert V. induction H as [|ps ps0 ps1 h nxs next hs kept' Pm Hl Pm' Hr IH]; intros V; [unfold lost, worths, weights; cbn; ring|].
  destruct (slice_balance _ _ _ _ _ _ Hl (Permutation_Forall Pm V)) as (V1 & B).
  specialize (IH (Permutation_Forall (Permutation_sym Pm') V1)). rewrite (weights_perm _ _ Pm') in IH. rewrite (weights_perm _ _ Pm).
  rewrite weights_app, lost_app, worths_app. change (F Rops) with R in * . lra.
Qed.
