(** Reasoning about the values a program can return, whatever it reads from shared memory. *)
From Coq Require Import NArith List Bool Lia.
From Verif Require Import Float ParticleModel Balance TrackModel CycleModel.
From Coq Require Import Permutation.
Import ListNotations.

Section ProgLemmas.
Context {K : FloatOps}.

(** [leaves P p]: every value returned by [p] satisfies [P], for all values read. *)
Inductive leaves {A} (P : A -> Prop) : prog K A -> Prop :=
| lv_ret : forall a, P a -> leaves P (Ret a)
| lv_fail : leaves P Fail
| lv_stuck : leaves P Stuck
| lv_load : forall c g f, (forall v, leaves P (f v)) -> leaves P (LoadXs c g f)
| lv_store : forall c g v q, leaves P q -> leaves P (StoreXs c g v q)
| lv_flux : forall c g v q, leaves P q -> leaves P (AddFlux c g v q).

Lemma leaves_bind {A B} (P : A -> Prop) (Q : B -> Prop) p (k : A -> prog K B) :
  leaves P p -> (forall a, P a -> leaves Q (k a)) -> leaves Q (pbind p k).
Proof.
  intros Hp Hk. induction Hp; cbn [pbind]; try constructor; auto.
Qed.

Lemma leaves_lift {A} (P : A -> Prop) r : (forall a, r = Ok a -> P a) -> leaves P (lift r).
Proof. intros H. destruct r; cbn; constructor; auto. Qed.

Lemma leaves_weaken {A} (P Q : A -> Prop) (p : prog K A) :
  (forall a, P a -> Q a) -> leaves P p -> leaves Q p.
Proof. intros H Hp. induction Hp; constructor; auto. Qed.

Lemma leaves_run_seq {A} (P : A -> Prop) ng (p : prog K A) m a m' :
  leaves P p -> run_seq ng p m = Ok (a, m') -> P a.
Proof.
  intros Hp. revert m. induction Hp as [x Hx| | |c g f Hf IH|c g v q Hq IH|c g v q Hq IH]; intros m; cbn [run_seq]; intros E.
  - congruence.
  - discriminate.
  - discriminate.
  - destruct (vec_get (m_cache m) (slot ng c g)); cbn [rbind] in E; try discriminate; eauto.
  - destruct (vec_get (m_cache m) (slot ng c g)); cbn [rbind] in E; try discriminate; eauto.
  - destruct (vec_get (m_flux m) (slot ng c g)); cbn [rbind] in E; try discriminate; eauto.
Qed.

Lemma leaves_load_inv {A} (P : A -> Prop) c g f (v : F K) : leaves P (LoadXs c g f) -> leaves P (f v).
Proof. intros H. inversion H; subst. auto. Qed.
Lemma leaves_store_inv {A} (P : A -> Prop) c g v (q : prog K A) : leaves P (StoreXs c g v q) -> leaves P q.
Proof. intros H. inversion H; subst. auto. Qed.
Lemma leaves_flux_inv {A} (P : A -> Prop) c g v (q : prog K A) : leaves P (AddFlux c g v q) -> leaves P q.
Proof. intros H. inversion H; subst. auto. Qed.
Lemma leaves_ret_inv {A} (P : A -> Prop) (a : A) : leaves P (Ret a : prog K A) -> P a.
Proof. intros H. inversion H; subst. auto. Qed.


(** The same for a set of tasks under any schedule: [P] speaks about the value the task
    will return, [e] is what it has appended so far to the common collection. *)
Definition tinv1 (P : slice_result K -> Prop) (t : task K) (e : list (particle K)) : Prop :=
  match t with
  | Running p => leaves P p /\ e = []
  | Casing _ _ _ _ q => leaves P q /\ e = []
  | Done ps b => P (ps, b, e)
  end.

Inductive tinv : list (slice_result K -> Prop) -> list (task K) -> list (list (particle K)) -> Prop :=
| tinv_nil : tinv [] [] []
| tinv_cons : forall P Ps t ts e es, tinv1 P t e -> tinv Ps ts es -> tinv (P :: Ps) (t :: ts) (e :: es).

Lemma tinv_split Ps l1 t l2 es : tinv Ps (l1 ++ t :: l2) es ->
  exists Ps1 P Ps2 es1 e es2, Ps = Ps1 ++ P :: Ps2 /\ es = es1 ++ e :: es2 /\
    tinv Ps1 l1 es1 /\ tinv1 P t e /\ tinv Ps2 l2 es2.
Proof.
  revert Ps es. induction l1 as [|u l1 IH]; intros Ps es H; cbn [app] in H;
    inversion H as [|P Ps0 t0 ts e es0 Ht Hts]; subst.
  - exists [], P, Ps0, [], e, es0. repeat split; auto. constructor.
  - destruct (IH _ _ Hts) as (Ps1 & P' & Ps2 & es1 & e' & es2 & -> & -> & G1 & G2 & G3).
    exists (P :: Ps1), P', Ps2, (e :: es1), e', es2. repeat split; auto. constructor; auto.
Qed.

Lemma tinv_join Ps1 P Ps2 l1 t l2 es1 e es2 :
  tinv Ps1 l1 es1 -> tinv1 P t e -> tinv Ps2 l2 es2 ->
  tinv (Ps1 ++ P :: Ps2) (l1 ++ t :: l2) (es1 ++ e :: es2).
Proof. intros H1 H2 H3. induction H1; cbn [app]; constructor; auto. Qed.

Definition conf_inv (Ps : list (slice_result K -> Prop)) (ex0 : list (particle K)) (c : conf K) : Prop :=
  exists es, tinv Ps (cf_tasks c) es /\ Permutation (cf_extra c) (ex0 ++ concat es).

Lemma conf_inv_step ng Ps ex0 c c' : cstep ng c c' -> conf_inv Ps ex0 c -> conf_inv Ps ex0 c'.
Proof.
  intros Hs (es & Ht & Hp). destruct Hs; cbn [cf_tasks cf_extra] in *;
    destruct (tinv_split _ _ _ _ _ Ht) as (Ps1 & P & Ps2 & es1 & e & es2 & -> & -> & G1 & G2 & G3);
    cbn [tinv1] in G2.
  1-5: destruct G2 as (G2 & ->); exists (es1 ++ [] :: es2); cbn [cf_tasks cf_extra];
    (split; [apply tinv_join; auto; cbn [tinv1]; split; auto|exact Hp]).
  - eapply leaves_load_inv; eauto.
  - eapply leaves_store_inv; eauto.
  - eapply leaves_flux_inv; eauto.
  - destruct G2 as (G2 & ->). apply leaves_ret_inv in G2.
    exists (es1 ++ exl :: es2); cbn [cf_tasks cf_extra].
    split; [apply tinv_join; auto|].
    rewrite concat_app in Hp. rewrite concat_app. cbn [concat app] in Hp |- * .
    rewrite Hp. rewrite <- !app_assoc. do 2 apply Permutation_app_head. apply Permutation_app_comm.
Qed.

Lemma conf_inv_steps ng Ps ex0 c c' : csteps ng c c' -> conf_inv Ps ex0 c -> conf_inv Ps ex0 c'.
Proof. induction 1; eauto using conf_inv_step. Qed.

Lemma tinv_init Ps tasks : Forall2 leaves Ps tasks -> tinv Ps (map (@Running K) tasks) (map (fun _ => []) tasks).
Proof. induction 1; cbn [map]; constructor; auto. split; auto. Qed.

Lemma concat_map_nil {A B} (l : list A) : concat (map (fun _ => []) l) = [] :> list B.
Proof. induction l; cbn; auto. Qed.

(** The results a parallel region can return. *)
Inductive results3 : list (slice_result K -> Prop) -> list (list (particle K)) -> list balance -> list (list (particle K)) -> Prop :=
| r3_nil : results3 [] [] [] []
| r3_cons : forall (P : slice_result K -> Prop) Ps s ss b bs e es,
    P (s, b, e) -> results3 Ps ss bs es -> results3 (P :: Ps) (s :: ss) (b :: bs) (e :: es).

Lemma tinv_results Ps slices bals es :
  length slices = length bals ->
  tinv Ps (map (fun sb => Done (fst sb) (snd sb)) (combine slices bals)) es -> results3 Ps slices bals es.
Proof.
  revert Ps bals es. induction slices as [|s ss IH]; intros Ps [|b bs] es Hl H; cbn in *; try lia.
  - inversion H; subst. constructor.
  - inversion H; subst. constructor; auto.
Qed.

Lemma par_exec_ok ng tasks m extra Ps slices bals m' ex :
  Forall2 leaves Ps tasks ->
  par_exec ng tasks m extra (Ok (slices, bals, m', ex)) ->
  exists es, results3 Ps slices bals es /\ Permutation ex (extra ++ concat es).
Proof.
  intros HP H. inversion H as [sl bl h fl ex' cache Hsteps Hl1 Hl2 Hset| |]; subst.
  assert (Hi : conf_inv Ps extra (mkConf (map (@Running K) tasks) (map (fun v => [v]) (m_cache m)) (m_flux m) extra)).
  { exists (map (fun _ => []) tasks). cbn [cf_tasks cf_extra]. split.
    - apply tinv_init; auto.
    - rewrite concat_map_nil, app_nil_r. apply Permutation_refl. }
  destruct (conf_inv_steps _ _ _ _ _ Hsteps Hi) as (es & Ht & Hp). cbn [cf_tasks cf_extra] in * .
  exists es. split; auto. apply tinv_results; auto. congruence.
Qed.

End ProgLemmas.
