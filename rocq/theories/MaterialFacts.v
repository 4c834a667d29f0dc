(** C44: the material of a point. *)
From Coq Require Import NArith List Bool String.
From Verif Require Import Float ParticleModel MeshModel TrackAccount.
Import ListNotations.
Local Open Scope float_scope.

Section Material.
Context {K : FloatOps}.

(** Containment, shape by shape. *)
Definition contains (g : geometry_params K) (r : vec K) : Prop :=
  match gp_shape g with
  | Brick => gp_x_min g <=. vx r = true /\ vx r <=. gp_x_max g = true /\
             gp_y_min g <=. vy r = true /\ vy r <=. gp_y_max g = true /\
             gp_z_min g <=. vz r = true /\ vz r <=. gp_z_max g = true
  | Sphere => vlength (vsub r (mkVec (gp_x_center g) (gp_y_center g) (gp_z_center g))) <=. gp_radius g = true
  | ShUndefined => False
  end.

(** [g] is the first geometry of the list that contains the point. *)
Inductive first_containing (r : vec K) : list (geometry_params K) -> geometry_params K -> Prop :=
| first_here g l : contains g r -> first_containing r (g :: l) g
| first_later g0 g l : ~ contains g0 r -> first_containing r l g -> first_containing r (g0 :: l) g.

Lemma is_inside_spec g r : gp_shape g <> ShUndefined ->
  exists b, is_inside g r = Ok b /\ (b = true <-> contains g r).
Proof.
  intros H. unfold is_inside, contains. destruct (gp_shape g); [congruence| |]; eexists; (split; [reflexivity|]).
  - rewrite !andb_true_iff. tauto.
  - tauto.
Qed.

Lemma rfold_app {A S} (f : S -> A -> result S) l1 l2 s : rfold f (l1 ++ l2) s = (do s' <- rfold f l1 s ; rfold f l2 s').
Proof. revert s. induction l1 as [|a l1 IH]; intros s; cbn; [reflexivity|]. destruct (f s a); cbn; auto. Qed.

Lemma find_material_spec (geoms : list (geometry_params K)) r : Forall (fun g => gp_shape g <> ShUndefined) geoms ->
  exists name, find_material geoms r = Ok name /\
    ((exists g, first_containing r geoms g /\ name = gp_material_name g) \/
     (Forall (fun g => ~ contains g r) geoms /\ name = ""%string)).
Proof.
  unfold find_material. induction geoms as [|g geoms IH]; intros H.
  - exists ""%string. split; [reflexivity|]. right. auto.
  - inversion H as [|? ? Hg Hl]; subst. destruct (IH Hl) as (name & E & D). cbn [rev]. rewrite rfold_app, E. cbn [rbind rfold].
    destruct (is_inside_spec g r Hg) as (b & -> & Hb). cbn [rbind]. destruct b.
    + eexists. split; [reflexivity|]. left. exists g. split; [constructor; apply Hb; reflexivity|reflexivity].
    + eexists. split; [reflexivity|].
      assert (Hn : ~ contains g r) by (intros C; apply Hb in C; discriminate).
      destruct D as [(g' & F & Hname)|(F & ->)].
      * left. exists g'. split; [constructor; auto|exact Hname].
      * right. auto.
Qed.

(** An undefined shape anywhere in the list stops the program, whatever the point. *)
Lemma find_material_undefined (geoms : list (geometry_params K)) r g : In g geoms -> gp_shape g = ShUndefined -> find_material geoms r = Panic.
Proof.
  intros Hin Hs. unfold find_material. apply in_split in Hin. destruct Hin as (l1 & l2 & ->).
  rewrite rev_app_distr. cbn [rev]. rewrite <- app_assoc, rfold_app.
  assert (Hp : forall l s, rfold (fun name geom => do b <- is_inside geom r ; Ok (if (b : bool) then gp_material_name geom else name)) l s <> NoFuel).
  { clear. induction l as [|x l IH]; intros s; cbn [rfold]; [discriminate|]. unfold is_inside at 1.
    destruct (gp_shape x); cbn [rbind]; auto; discriminate. }
  destruct (rfold _ (rev l2) _) eqn:E; cbn [rbind]; [|reflexivity|exfalso; eapply Hp; eauto].
  cbn [app rfold]. unfold is_inside at 1. rewrite Hs. reflexivity.
Qed.

(** No geometry contains the point exactly when the name is empty, if no material has an empty name. *)
Lemma find_material_exists (geoms : list (geometry_params K)) r name : Forall (fun g => gp_shape g <> ShUndefined /\ gp_material_name g <> ""%string) geoms ->
  find_material geoms r = Ok name -> (name <> ""%string <-> Exists (fun g => contains g r) geoms).
Proof.
  intros H E. destruct (find_material_spec geoms r) as (name' & E' & D).
  { eapply Forall_impl; [|exact H]. cbn. tauto. }
  rewrite E in E'. injection E' as <-. destruct D as [(g & F & ->)|(F & ->)].
  - split; [|].
    + intros _. clear - F. induction F; [left|right]; auto.
    + intros _. clear E. induction F; inversion H; subst; [tauto|auto].
  - split; [congruence|]. intros Ex. exfalso. rewrite Exists_exists in Ex. destruct Ex as (g & Hg & C).
    rewrite Forall_forall in F. apply (F g Hg C).
Qed.

End Material.
