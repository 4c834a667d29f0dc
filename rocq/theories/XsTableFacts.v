(** Proofs about the table of cross-sections: the values. *)
From Coq Require Import Arith NArith List Bool Reals String Lia Lra Permutation.
From Verif Require Import Float RealOps ParticleModel NuclearModel MeshTypes TrackModel CycleModel ParamModel ParamLemmas CsvModel CsvLemmas SegmentFacts
  CrossingLemmas PopSpec NuclearSpec NuclearFacts NuclearReal PartnerLemmas TrackAccount XsTableModel XsTableSpec.
Import ListNotations.
Local Open Scope N_scope.

(** ** Any arithmetic: no panic *)
Section Any.
Context {K : FloatOps}.

Lemma vec_get_in {A} (l : list A) i : (N.to_nat i < List.length l)%nat -> exists x, vec_get l i = Ok x /\ nth_error l (N.to_nat i) = Some x.
Proof. intros H. destruct (nth_error l (N.to_nat i)) as [x|] eqn:E; [|apply nth_error_None in E; lia]. exists x. split; [unfold vec_get; rewrite E|]; reflexivity. Qed.

Lemma add_reaction_spec (r : reaction K) n : forall vec ii, (N.to_nat ii + List.length vec <= List.length (r_cross_section r))%nat ->
  exists vec', xs_add_reaction r n ii vec = Ok vec' /\ List.length vec' = List.length vec /\
    forall j d, nth_error vec j = Some d -> exists x, nth_error (r_cross_section r) (N.to_nat ii + j) = Some x /\
      nth_error vec' j = Some (xs_add (r_type r) (fdiv x n) d).
Proof.
  induction vec as [|d vec IH]; intros ii H.
  - exists []. split; [reflexivity|]. split; [reflexivity|]. intros [|j] d H'; discriminate H'.
  - cbn [List.length] in H. destruct (vec_get_in (r_cross_section r) ii) as (x & E & En); [lia|].
    destruct (IH (ii + 1)%N) as (vec' & Ev & El & Hv); [lia|]. cbn [xs_add_reaction]. rewrite E. cbn [rbind]. rewrite Ev. cbn [rbind].
    eexists. split; [reflexivity|]. split; [cbn [List.length]; rewrite El; reflexivity|].
    intros [|j] d' Hd.
    + injection Hd as <-. exists x. rewrite Nat.add_0_r. split; [exact En|reflexivity].
    + cbn [nth_error] in Hd. destruct (Hv j d' Hd) as (y & Ey & Hy). exists y. split; [|exact Hy].
      replace (N.to_nat ii + S j)%nat with (N.to_nat (ii + 1) + j)%nat by lia. exact Ey.
Qed.

(** One entry, after the reactions [rs]. *)
Definition entry_after (g : nat) (n : F K) (rs : list (reaction K)) (d : xs_data K) : xs_data K :=
  fold_left (fun d r => xs_add (r_type r) (fdiv (nth g (r_cross_section r) f0) n) d) rs d.

Lemma add_reactions_spec n : forall (rs : list (reaction K)) vec, Forall (fun r => (List.length vec <= List.length (r_cross_section r))%nat) rs ->
  exists vec', rfold (fun vec r => xs_add_reaction r n 0 vec) rs vec = Ok vec' /\ List.length vec' = List.length vec /\
    forall g d, nth_error vec g = Some d -> nth_error vec' g = Some (entry_after g n rs d).
Proof.
  induction rs as [|r rs IH]; intros vec H.
  - exists vec. split; [reflexivity|]. split; [reflexivity|]. intros g d E. exact E.
  - destruct (add_reaction_spec r n vec 0) as (v1 & E1 & L1 & H1); [exact (Forall_inv H)|]. cbn [rfold]. rewrite E1. cbn [rbind].
    destruct (IH v1) as (v2 & E2 & L2 & H2); [rewrite L1; exact (Forall_inv_tail H)|]. exists v2. split; [exact E2|]. split; [congruence|].
    intros g d E. destruct (H1 g d E) as (x & Ex & Hx). cbn [N.to_nat Nat.add] in Ex. rewrite (H2 _ _ Hx). unfold entry_after. cbn [fold_left].
    rewrite (nth_error_nth _ _ f0 Ex). reflexivity.
Qed.

(** The isotopes exist and have a cross-section for each of the [n] groups. *)
Definition known_isotopes (nd : nuclear_data K) (n : nat) (isos : list (isotope K)) : Prop :=
  Forall (fun iso => exists rs, nth_error (nd_isotopes nd) (N.to_nat (iso_gid iso)) = Some rs /\
    Forall (fun r => (n <= List.length (r_cross_section r))%nat) rs) isos.
(** All the reactions of the isotopes, in order. *)
Definition reactions_of (nd : nuclear_data K) (isos : list (isotope K)) : list (reaction K) :=
  flat_map (fun iso => match nth_error (nd_isotopes nd) (N.to_nat (iso_gid iso)) with Some rs => rs | None => [] end) isos.

Lemma xs_vec_from nd n : forall isos vec, known_isotopes nd (List.length vec) isos ->
  exists vec', rfold (fun vec iso => do reactions <- vec_get (nd_isotopes nd) (iso_gid iso) ;
      rfold (fun vec r => xs_add_reaction r n 0 vec) reactions vec) isos vec = Ok vec' /\ List.length vec' = List.length vec /\
    forall g d, nth_error vec g = Some d -> nth_error vec' g = Some (entry_after g n (reactions_of nd isos) d).
Proof.
  induction isos as [|iso isos IH]; intros vec H.
  - exists vec. split; [reflexivity|]. split; [reflexivity|]. intros g d E. exact E.
  - destruct (Forall_inv H) as (rs & Er & Hr). cbn [rfold]. unfold vec_get at 1. rewrite Er. cbn [unwrap rbind].
    destruct (add_reactions_spec n rs vec Hr) as (v1 & E1 & L1 & H1). rewrite E1. cbn [rbind].
    destruct (IH v1) as (v2 & E2 & L2 & H2); [rewrite L1; exact (Forall_inv_tail H)|]. exists v2. split; [exact E2|]. split; [congruence|].
    intros g d E. rewrite (H2 _ _ (H1 _ _ E)). unfold reactions_of. cbn [flat_map]. rewrite Er. unfold entry_after. rewrite fold_left_app. reflexivity.
Qed.

Lemma xs_vec_spec nd n (mat : material K) : known_isotopes nd (N.to_nat n) (mat_iso mat) ->
  exists vec, xs_vec nd n mat = Ok vec /\ List.length vec = N.to_nat n /\
    forall g, (g < N.to_nat n)%nat -> nth_error vec g = Some (entry_after g (fof_N (N.of_nat (List.length (mat_iso mat)))) (reactions_of nd (mat_iso mat)) xs_zero).
Proof.
  intros H. destruct (xs_vec_from nd (fof_N (N.of_nat (List.length (mat_iso mat)))) (mat_iso mat) (repeat xs_zero (N.to_nat n))) as (v & E & L & Hv).
  { rewrite repeat_length. exact H. }
  exists v. split; [exact E|]. rewrite repeat_length in L. split; [exact L|]. intros g Hg. apply Hv. rewrite nth_error_repeat by exact Hg. reflexivity.
Qed.

(** The table, from any table. *)
Lemma xs_table_from nd n : forall mats table, Forall (fun m => known_isotopes nd (N.to_nat n) (mat_iso m)) mats ->
  Forall (fun e => List.length (snd e) = N.to_nat n) table ->
  exists table', rfold (fun table mat => do vec <- xs_vec nd n mat ; Ok (map_insert table (mat_name mat) vec)) mats table = Ok table' /\
    Forall (fun e => List.length (snd e) = N.to_nat n) table' /\
    (NoDup (map mat_name mats) -> forall name,
      ((~ In name (map mat_name mats)) -> map_get table' name = map_get table name) /\
      (forall mat vec, In mat mats -> mat_name mat = name -> xs_vec nd n mat = Ok vec -> map_get table' name = Some vec)).
Proof.
  induction mats as [|mat mats IH]; intros table H Ht.
  - exists table. split; [reflexivity|]. split; [exact Ht|]. intros _ name. split; [reflexivity|]. intros mat vec [].
  - destruct (xs_vec_spec nd n mat (Forall_inv H)) as (vec & Ev & Lv & _). cbn [rfold]. rewrite Ev. cbn [rbind].
    destruct (IH (map_insert table (mat_name mat) vec) (Forall_inv_tail H)) as (t & Et & Lt & G).
    { apply Forall_insert; [exact Ht|exact Lv]. }
    exists t. split; [exact Et|]. split; [exact Lt|]. intros D name. cbn [map] in D. apply NoDup_cons_iff in D. destruct D as [Dn D].
    destruct (G D name) as [G1 G2]. split.
    + intros Hn. cbn [map In] in Hn. rewrite G1 by tauto. rewrite get_insert. destruct (String.eqb_spec (mat_name mat) name); [exfalso; tauto|reflexivity].
    + intros m v [<-|Hm] En Em.
      * rewrite G1 by (rewrite <- En; exact Dn). rewrite get_insert. destruct (String.eqb_spec (mat_name mat) name); [|contradiction].
        rewrite Ev in Em. injection Em as <-. reflexivity.
      * apply (G2 m v Hm En Em).
Qed.

Lemma rmap_total {A B} (f : A -> result B) l : Forall (fun a => exists b, f a = Ok b) l -> exists bs, rmap f l = Ok bs /\ Forall2 (fun a b => f a = Ok b) l bs.
Proof.
  induction l as [|a l IH]; intros H; [exists []; split; [reflexivity|constructor]|].
  destruct (Forall_inv H) as (b & E). destruct (IH (Forall_inv_tail H)) as (bs & Eb & F2). exists (b :: bs). cbn [rmap]. rewrite E. cbn [rbind]. rewrite Eb.
  split; [reflexivity|constructor; assumption].
Qed.

Lemma pairs_length {A B} (R : A -> B -> Prop) l l' : Forall2 R l l' -> List.length l' = List.length l.
Proof. induction 1; cbn; congruence. Qed.
Lemma range_length n : forall lo, List.length (nrange lo n) = n.
Proof. induction n as [|n IH]; intros lo; cbn; [reflexivity|rewrite IH; reflexivity]. Qed.
Lemma in_nrange n : forall lo x, In x (nrange lo n) -> lo <= x < lo + N.of_nat n.
Proof. induction n as [|n IH]; intros lo x H; [destruct H|]. destruct H as [<-|H]; [lia|]. specialize (IH _ _ H). lia. Qed.

(** The energies. *)
Lemma xs_energies_spec nd n : ((N.to_nat n < List.length (nd_energies (K := K) nd))%nat \/ n = 0) ->
  exists es, xs_energies nd n = Ok es /\ Forall2 (fun ii e => exists a b, nth_error (nd_energies nd) (N.to_nat ii) = Some a /\
    nth_error (nd_energies nd) (S (N.to_nat ii)) = Some b /\ e = fdiv (fadd a b) (fadd f1 f1)) (nrange 0 (N.to_nat n)) es.
Proof.
  intros H. destruct (rmap_total (fun ii => do a <- vec_get (nd_energies nd) ii ; do b <- vec_get (nd_energies nd) (ii + 1) ; Ok (fdiv (fadd a b) (fadd f1 f1)))
    (nrange 0 (N.to_nat n))) as (es & E & F2).
  - apply Forall_forall. intros ii Hi. apply in_nrange in Hi. destruct (vec_get_in (nd_energies nd) ii) as (a & Ea & _); [lia|].
    destruct (vec_get_in (nd_energies nd) (ii + 1)) as (b & Eb & _); [lia|]. rewrite Ea. cbn [rbind]. rewrite Eb. cbn [rbind]. eexists. reflexivity.
  - exists es. split; [exact E|]. clear E. induction F2 as [|ii e l es Hb F2 IH]; constructor; [|exact IH].
    rb Hb as a Ea. rb Hb as b Eb. apply Ok_inj in Hb. apply vec_get_nth in Ea, Eb. exists a, b. split; [exact Ea|]. split; [|symmetry; exact Hb].
    replace (S (N.to_nat ii)) with (N.to_nat (ii + 1)) by lia. exact Eb.
Qed.

(** Built materials. *)
Lemma built_known mps (nd nd' : nuclear_data K) xs nus mats : init_materials mps nd xs nus = Ok (nd', mats) ->
  Forall (fun m => known_isotopes nd' (List.length (nd_energies nd) - 1) (mat_iso m)) mats.
Proof.
  intros H. destruct (init_materials_mix _ _ _ _ _ _ H) as (_ & Ee & _ & F2 & _). clear H.
  induction F2 as [|mp mat mps mats A F2 IH]; constructor; [|exact IH]. destruct A as (_ & _ & _ & A). revert A. apply Forall_impl.
  intros iso (_ & rs & nu & _ & Er & (_ & Hr & _)). exists rs. split; [exact Er|]. apply Forall_forall. intros r Hin.
  apply In_nth_error in Hin. destruct Hin as (i & Hi). destruct (Hr i r Hi) as (_ & _ & ->). rewrite Ee. reflexivity.
Qed.

Lemma new_energies_length n (lo hi : F K) : List.length (nd_energies (nuclear_new n lo hi)) = S (N.to_nat n).
Proof.
  unfold nuclear_new. cbn [nd_energies]. unfold nuclear_energies. destruct n as [|q]; [reflexivity|]. cbn [List.length]. rewrite app_length, map_length. cbn [List.length].
  rewrite range_length. lia.
Qed.

Variables show12 show13 : F K -> string.

Lemma xs_line_total n energies (table : list (string * list (xs_data K))) ii : (N.to_nat ii < n)%nat -> List.length energies = n ->
  Forall (fun e => List.length (snd e) = n) table -> exists s, xs_line show12 show13 energies table ii = Ok s.
Proof.
  intros Hi He Ht. unfold xs_line. destruct (vec_get_in energies ii) as (e & Ee & _); [lia|]. rewrite Ee. cbn [rbind].
  destruct (rmap_total (fun entry : string * list (xs_data K) => do d <- vec_get (snd entry) ii ; Ok (xs_cells show13 d)) table) as (cs & Ec & _).
  - revert Ht. apply Forall_impl. intros x Hx. destruct (vec_get_in (snd x) ii) as (d & Ed & _); [lia|]. rewrite Ed. eexists. reflexivity.
  - rewrite Ec. eexists. reflexivity.
Qed.

Lemma xs_text_total order nd n mats : (forall t, Permutation (order t) t) -> ((N.to_nat n < List.length (nd_energies nd))%nat \/ n = 0) ->
  Forall (fun m => known_isotopes nd (N.to_nat n) (mat_iso m)) mats ->
  exists energies table lines, xs_energies nd n = Ok energies /\ xs_table nd n mats = Ok table /\
    Forall2 (fun ii s => xs_line show12 show13 energies (order table) ii = Ok s) (nrange 0 (N.to_nat n)) lines /\
    Forall (fun e => List.length (snd e) = N.to_nat n) table /\
    xs_text show12 show13 order nd n mats = Ok (xs_header (order table) ++ String.concat "" lines)%string.
Proof.
  intros Ho He Hm. destruct (xs_energies_spec nd n He) as (es & Ees & F2).
  destruct (xs_table_from nd n mats [] Hm) as (t & Et & Lt & _); [constructor|].
  assert (Lo : Forall (fun e => List.length (snd e) = N.to_nat n) (order t)).
  { apply Forall_forall. intros x Hx. rewrite Forall_forall in Lt. apply Lt. apply (Permutation_in _ (Ho t) Hx). }
  destruct (rmap_total (xs_line show12 show13 es (order t)) (nrange 0 (N.to_nat n))) as (ls & El & Fl).
  { apply Forall_forall. intros ii Hi. apply in_nrange in Hi. apply (xs_line_total (N.to_nat n)); [lia| |exact Lo].
    rewrite (pairs_length _ _ _ F2), range_length. reflexivity. }
  exists es, t, ls. split; [exact Ees|]. split; [exact Et|]. split; [exact Fl|]. split; [exact Lt|].
  unfold xs_text. rewrite Ees. cbn [rbind]. change (xs_table nd n mats = Ok t) in Et. rewrite Et. cbn [rbind]. rewrite El. reflexivity.
Qed.

(** The file can always be written. *)
Theorem file_written order (p : params K) md : (forall t, Permutation (order t) t) -> init_mcdata p = Ok md ->
  exists file, xs_file show12 show13 order p md = Ok file /\ (file = None <-> si_cross_sections_out (pa_sim p) = ""%string).
Proof.
  intros Ho H. unfold xs_file. destruct (String.eqb_spec (si_cross_sections_out (pa_sim p)) ""%string) as [E|E].
  - exists None. split; [reflexivity|]. split; auto.
  - unfold init_mcdata in H. rb H as ei Eei. rb H as [nd mats] Em. apply Ok_inj in H. subst md. cbn [mc_track td_nuclear td_mats].
    pose proof (built_known _ _ _ _ _ _ Em) as Hk. destruct (init_materials_mix _ _ _ _ _ _ Em) as (_ & Ee & _).
    rewrite new_energies_length in Hk. replace (S (N.to_nat (si_n_groups (pa_sim p))) - 1)%nat with (N.to_nat (si_n_groups (pa_sim p))) in Hk by lia.
    destruct (xs_text_total order nd (si_n_groups (pa_sim p)) mats Ho) as (es & t & ls & _ & _ & _ & _ & Et); [|exact Hk|].
    + left. rewrite Ee, new_energies_length. lia.
    + rewrite Et. cbn [rbind]. eexists. split; [reflexivity|]. split; intros X; [discriminate X|contradiction].
Qed.
End Any.
