(** Proofs about the numbering of domains. *)
From Coq Require Import NArith List Bool Lia Permutation.
From Verif Require Import Float NuclearModel CycleModel DecompModel GridLemmas AssignLemmas FloodLemmas MeshFacts CycleFacts TrackAccount.
Import ListNotations.
Local Open Scope N_scope.

Lemma decomposition_spec my_rank n_ranks dpr : my_rank < n_ranks ->
  exists dc, decomposition_new my_rank n_ranks dpr = Ok dc /\
    length (dc_rank dc) = N.to_nat (n_ranks * dpr) /\ length (dc_index dc) = N.to_nat (n_ranks * dpr) /\
    (forall gid, gid < n_ranks * dpr ->
       let r := nth (N.to_nat gid) (dc_rank dc) 0 in let i := nth (N.to_nat gid) (dc_index dc) 0 in
       r < n_ranks /\ i < dpr /\ gid = dpr * r + i) /\
    (forall gid, In gid (dc_assigned dc) <-> gid < n_ranks * dpr /\ nth (N.to_nat gid) (dc_rank dc) 0 = my_rank) /\
    dc_assigned dc = map (fun i => dpr * my_rank + i) (nrange 0 (N.to_nat dpr)).
Proof.
  intros Hr. unfold decomposition_new.
  set (n := n_ranks * dpr).
  assert (Nr : forall (f : N -> N) g, g < n -> nth_error (map f (nrange 0 (N.to_nat n))) (N.to_nat g) = Some (f g)).
  { intros f g Hg. rewrite nth_error_map, nrange_nth by lia. cbn. do 2 f_equal. lia. }
  assert (Nn : forall (f : N -> N) g, g < n -> nth (N.to_nat g) (map f (nrange 0 (N.to_nat n))) 0 = f g).
  { intros f g Hg. apply nth_error_nth_N. apply Nr. exact Hg. }
  assert (DM : forall g, g < n -> g / dpr < n_ranks /\ g mod dpr < dpr /\ g = dpr * (g / dpr) + g mod dpr).
  { intros g Hg. assert (dpr <> 0) by (intros ->; unfold n in Hg; lia).
    split; [apply N.div_lt_upper_bound; [lia|]; unfold n in Hg; lia|]. split; [apply N.mod_lt; auto|apply N.div_mod; auto]. }
  erewrite (rmap_ok_map _ (fun i => dpr * my_rank + i)).
  2:{ intros i Hi. apply nrange_in in Hi.
      assert (Hg : dpr * my_rank + i < n) by (unfold n; nia).
      unfold vec_get. rewrite !Nr by exact Hg. cbn [unwrap rbind]. f_equal. symmetry. apply DM. exact Hg. }
  cbn [rbind]. eexists. split; [reflexivity|]. cbn [dc_assigned dc_rank dc_index].
  rewrite !map_length, nrange_length. split; [reflexivity|]. split; [reflexivity|]. split.
  - intros g Hg. cbn zeta. rewrite !Nn by exact Hg. apply DM. exact Hg.
  - split; [|reflexivity]. intros g. rewrite in_map_iff. split.
    + intros (i & <- & Hi). apply nrange_in in Hi.
      assert (Hg : dpr * my_rank + i < n) by (unfold n; nia). split; [exact Hg|]. rewrite Nn by exact Hg.
      symmetry. apply N.div_unique with i; lia.
    + intros (Hg & Er). rewrite Nn in Er by exact Hg. destruct (DM g Hg) as (H1 & H2 & H3).
      exists (g mod dpr). rewrite Er in H3. split; [symmetry; exact H3|]. apply nrange_in. split; [apply N.le_0_l|]. rewrite Nnat.N2Nat.id. exact H2.
Qed.

Lemma gid_fold n l table : (forall e, In e l -> snd e < n) -> length table = N.to_nat n -> NoDup (map snd l) ->
  exists t', rfold (gid_step n) l table = Ok t' /\ length t' = length table /\
    (forall i g, In (i, g) l -> nth_error t' (N.to_nat g) = Some i) /\
    (forall g, ~ In g (map snd l) -> nth_error t' (N.to_nat g) = nth_error table (N.to_nat g)).
Proof.
  revert table. induction l as [|[i g] l IH]; intros table Hl Lt D.
  - exists table. repeat split; auto. intros ? ? [].
  - cbn [rfold]. unfold gid_step at 1. cbn [fst snd]. pose proof (Hl _ (or_introl eq_refl)) as Hg. cbn in Hg.
    destruct (N.ltb_spec g n); [|lia]. cbn [rassert rbind]. inversion D; subst.
    destruct (IH (list_set table (N.to_nat g) i)) as (t' & E & L' & H1' & H2'); auto.
    { intros; apply Hl; right; auto. }
    { rewrite length_list_set. exact Lt. }
    exists t'. split; [exact E|]. rewrite length_list_set in L'. split; [exact L'|]. split.
    + intros i' g' [[= <- <-]|H']; [|auto]. rewrite H2' by assumption. apply list_set_same. lia.
    + intros g' Hg'. cbn in Hg'. rewrite H2' by tauto. apply list_set_other. intros E'. apply Hg'. left.
      apply Nnat.N2Nat.inj. exact E'.
Qed.

Lemma gid_table_spec gids : NoDup gids -> (forall g, In g gids -> g < N.of_nat (length gids)) ->
  exists table, gid_to_idx gids = Ok table /\ length table = length gids /\
    forall i g, nth_error gids i = Some g -> nth_error table (N.to_nat g) = Some (N.of_nat i).
Proof.
  intros D H. unfold gid_to_idx.
  assert (Es : map snd (combine (nrange 0 (length gids)) gids) = gids).
  { clear. generalize 0. induction gids as [|g gids IH]; intros lo; [reflexivity|]. cbn. f_equal. apply IH. }
  destruct (gid_fold (N.of_nat (length gids)) (combine (nrange 0 (length gids)) gids) (repeat 0 (length gids))) as (t & E & L & H1 & _).
  - intros [i g] He. apply (in_map snd) in He. rewrite Es in He. auto.
  - rewrite repeat_length, Nnat.Nat2N.id. reflexivity.
  - rewrite Es. exact D.
  - exists t. rewrite repeat_length in L. split; [exact E|]. split; [exact L|]. intros i g Eg. apply H1.
    eapply nth_error_In. apply nth_error_combine; [|exact Eg].
    rewrite nrange_nth; [reflexivity|]. apply nth_error_Some. congruence.
Qed.

Lemma gid_table_panics gids g : In g gids -> N.of_nat (length gids) <= g -> gid_to_idx gids = Panic.
Proof.
  intros Hin Hg. unfold gid_to_idx. generalize (N.of_nat (length gids)) Hg. clear Hg. intros n Hg.
  generalize (repeat 0 (length gids)). generalize 0. revert Hin. induction gids as [|x gids IH]; intros Hin lo t; [contradiction|].
  cbn [length nrange combine rfold]. unfold gid_step at 1. cbn [fst snd].
  destruct (N.ltb_spec x n); cbn [rassert rbind]; [|reflexivity].
  destruct Hin as [->|Hin]; [lia|]. apply IH. exact Hin.
Qed.
