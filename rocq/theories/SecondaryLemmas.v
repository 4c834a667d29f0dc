(** Random states and identifiers of the particles that leave a collision (C02, C22). *)
From Coq Require Import NArith List Bool Lia.
From Verif Require Import Float RngModel RngLemmas RngSpec RngFacts ParticleModel TrackAccount SecondarySpec.
Import ListNotations.
Local Open Scope N_scope.
Local Opaque rng_next spawn_rn_seed hash_state.

Section Any.
Context {K : FloatOps}.

Lemma seed_after_add a b s : seed_after a (seed_after b s) = seed_after (a + b) s.
Proof. induction a as [|a IH]; [reflexivity|]. cbn [seed_after Nat.add]. now rewrite IH. Qed.
Lemma spawned_skip n l s : spawned_by (repeat false n ++ l) s = spawned_by l (seed_after n s).
Proof.
  revert s. induction n as [|n IH]; intros s; [reflexivity|]. cbn [repeat app spawned_by]. rewrite IH. change (rng_next s) with (seed_after 1 s).
  rewrite seed_after_add. do 2 f_equal. lia.
Qed.

Lemma rotate_keeps (p : particle K) a b c d : p_random_number_seed (rotate_direction p a b c d) = p_random_number_seed p /\
  p_identifier (rotate_direction p a b c d) = p_identifier p.
Proof. unfold rotate_direction. destruct (flt _ _); split; reflexivity. Qed.
Lemma ok3 {A B C} (a a' : A) (b b' : B) (c c' : C) : Ok (a, b, c) = Ok (a', b', c') -> a = a' /\ b = b' /\ c = c'.
Proof. intros H. injection H as -> -> ->. auto. Qed.
Lemma trajectory_seed (p : particle K) e a : p_random_number_seed (update_trajectory p e a) = seed_after 2 (p_random_number_seed p) /\
  p_identifier (update_trajectory p e a) = p_identifier p.
Proof.
  unfold update_trajectory, sample_num_mfp, draw. cbn -[rotate_direction].
  match goal with |- context [rotate_direction ?p ?a ?b ?c ?d] => destruct (rotate_keeps p a b c d) as (A & B) end. rewrite A, B. split; reflexivity.
Qed.
Lemma fission_draws n : forall (p : particle K), p_random_number_seed (snd (draw_fission_n n p)) = seed_after (2 * n) (p_random_number_seed p) /\
  p_identifier (snd (draw_fission_n n p)) = p_identifier p /\ length (fst (draw_fission_n n p)) = n.
Proof.
  induction n as [|n IH]; intros p; [repeat split; reflexivity|]. cbn [draw_fission_n].
  destruct (draw_fission p) as [[e a] p1] eqn:E. assert (H1 : p_random_number_seed p1 = seed_after 2 (p_random_number_seed p) /\ p_identifier p1 = p_identifier p).
  { unfold draw_fission in E. cbn [draw] in E. injection E as <- <- <-. split; reflexivity. }
  destruct (IH p1) as (A & B & C). destruct (draw_fission_n n p1) as [l q]. cbn [fst snd length] in * .
  rewrite A, B, C, (proj1 H1), (proj2 H1), seed_after_add. repeat split. f_equal. lia.
Qed.
Lemma spawn_draws n : forall (p : particle K), p_random_number_seed (snd (spawn_n n p)) = seed_after n (p_random_number_seed p) /\
  p_identifier (snd (spawn_n n p)) = p_identifier p /\ fst (spawn_n n p) = spawned_by (repeat true n) (p_random_number_seed p).
Proof.
  induction n as [|n IH]; intros p; [repeat split; reflexivity|]. cbn [spawn_n repeat spawned_by].
  assert (Es : spawn p = (fst (spawn_rn_seed (p_random_number_seed p)), set_random_number_seed p (snd (spawn_rn_seed (p_random_number_seed p))))).
  { unfold spawn. destruct (spawn_rn_seed _). reflexivity. }
  rewrite Es. destruct (IH (set_random_number_seed p (snd (spawn_rn_seed (p_random_number_seed p))))) as (A & B & C).
  destruct (spawn_n n _) as [l q]. cbn [fst snd p_random_number_seed p_identifier set_random_number_seed] in * .
  split; [|split; [exact B|now rewrite C]]. rewrite A. assert (En : snd (spawn_rn_seed (p_random_number_seed p)) = seed_after 1 (p_random_number_seed p)).
  { cbn [seed_after]. Local Transparent spawn_rn_seed. reflexivity. }
  rewrite En, seed_after_add. f_equal. lia.
Qed.
Lemma spawned_length n s : length (spawned_by (repeat true n) s) = n.
Proof. revert s. induction n as [|n IH]; intros s; [reflexivity|]. cbn [repeat spawned_by length]. now rewrite IH. Qed.

Lemma secondaries_of (p : particle K) : forall seeds out, length seeds = length out ->
  let sec := map (fun '(seed, (e, a)) => secondary p seed e a) (combine seeds out) in
  map p_identifier sec = seeds /\ Forall (fun y => p_random_number_seed y = seed_after 2 (p_identifier y)) sec /\ length sec = length seeds.
Proof.
  induction seeds as [|s seeds IH]; intros [|[e a] out] H; try discriminate; [repeat split; constructor|]. cbn [combine map length]. destruct (IH out) as (A & B & C); [cbn in H; lia|].
  cbv zeta in * . rewrite A, C. unfold secondary at 1 3.
  pose proof (trajectory_seed (set_identifier (set_random_number_seed p s) s) e a) as (T1 & T2). rewrite T2. split; [reflexivity|]. split; [|reflexivity].
  constructor; [unfold secondary; rewrite T1, T2; reflexivity|exact B].
Qed.

Lemma secondaries_apart (p : particle K) n (sec : list (particle K)) : p_random_number_seed p < 2 ^ 64 -> (N.to_nat n < 5)%nat -> length sec = (N.to_nat n - 1)%nat ->
  map p_identifier sec = spawned_by (repeat false (1 + 2 * N.to_nat n) ++ repeat true (length sec)) (p_random_number_seed p) ->
  Forall (fun y => p_random_number_seed y = seed_after 2 (p_identifier y)) sec ->
  NoDup (map p_identifier sec) /\ NoDup (map p_random_number_seed sec).
Proof.
  intros Hs Hn Hl Hi Hf. assert (D : NoDup (map p_identifier sec) /\ Forall (fun s => s < 2 ^ 64) (map p_identifier sec)).
  { rewrite Hi. apply spawned_seeds_distinct; [exact Hs|]. rewrite app_length, !repeat_length, Hl.
    change (2 ^ 64) with 18446744073709551616. lia. }
  destruct D as (D & B). split; [exact D|]. clear Hi Hl. revert D B. induction Hf as [|y sec Hy Hf IH]; intros D B; [constructor|]. cbn [map] in * .
  constructor; [|apply IH; [now inversion D|now inversion B]]. intros H. apply in_map_iff in H as (z & Ez & Iz). inversion D as [|? ? D1 D2]; subst. apply D1.
  pose proof (proj1 (Forall_forall _ _) Hf z Iz) as Hz. cbn beta in Hz. rewrite Hy, Hz, !seed_after_iter in Ez. apply rng_iter_inj_state in Ez.
  - rewrite <- Ez. apply in_map. exact Iz.
  - inversion B as [|? ? B1 B2]; subst. apply (proj1 (Forall_forall _ _) B2). apply in_map. exact Iz.
  - now inversion B.
Qed.

Lemma collision_identities (p : particle K) r m n q sec : sample_collision p r m = Ok (n, q, sec) -> own_random_states p (r_type r) n q sec.
Proof.
  unfold sample_collision, own_random_states. destruct (r_type r).
  - unfold draw_scatter. cbn [draw]. intros H. apply ok3 in H as (<- & <- & <-). match goal with |- context [update_trajectory ?p ?e ?a] => destruct (trajectory_seed p e a) as (A & B) end.
    rewrite A, B. repeat split; constructor.
  - intros H. apply ok3 in H as (<- & <- & <-). repeat split; constructor.
  - cbn [draw]. set (p1 := set_random_number_seed p (rng_next (p_random_number_seed p))).
    match goal with |- context [unwrap ?x] => destruct x as [k|] end; cbn [unwrap rbind]; [|discriminate].
    assert (one : forall e a p2, draw_fission p1 = (e, a, p2) -> p_random_number_seed p2 = seed_after 3 (p_random_number_seed p) /\ p_identifier p2 = p_identifier p).
    { intros e a p2 E. unfold draw_fission in E. cbn [draw] in E. injection E as <- <- <-. split; reflexivity. }
    destruct (draw_fission p1) as [[e a] p2] eqn:E2. destruct (one e a p2 eq_refl) as (S2 & I2). clear one.
    destruct (N.eq_dec k 0) as [->|Hk0]; [|destruct (N.eq_dec k 1) as [->|Hk1]].
    + intros H. apply ok3 in H as (<- & <- & <-). repeat split; constructor.
    + intros H. apply ok3 in H as (<- & <- & <-). destruct (trajectory_seed p2 e a) as (A & B). rewrite A, B, S2, I2, seed_after_add. repeat split; constructor.
    + assert (G : forall (a b c : result (N * particle K * list (particle K))), match k with 0 => a | 1 => b | _ => c end = c) by (intros; destruct k as [|[|[]|]]; congruence || reflexivity || lia).
      rewrite G. clear G. destruct (k <? 5) eqn:E5; cbn [rassert rbind]; [|discriminate]. apply N.ltb_lt in E5.
      destruct (fission_draws (N.to_nat (k - 1)) p2) as (S3 & I3 & L3). destruct (draw_fission_n _ p2) as [out p3]. cbn [fst snd] in S3, I3, L3.
      destruct (spawn_draws (N.to_nat (k - 1)) p3) as (S4 & I4 & L4). destruct (spawn_n _ p3) as [seeds p4]. cbn [fst snd] in S4, I4, L4.
      intros H. apply ok3 in H as (<- & <- & <-). destruct (trajectory_seed p4 e a) as (A & B).
      rewrite S3, S2, seed_after_add in L4. rewrite S3, S2, !seed_after_add in S4.
      assert (Ls : length seeds = N.to_nat (k - 1)) by (rewrite L4; apply spawned_length).
      destruct (secondaries_of p4 seeds out ltac:(congruence)) as (M1 & M2 & M3). cbv zeta in M1, M2, M3.
      set (sec := map _ (combine seeds out)) in * .
      assert (Hi : map p_identifier sec = spawned_by (repeat false (1 + 2 * N.to_nat k) ++ repeat true (length sec)) (p_random_number_seed p)).
      { rewrite M1, M3, Ls, L4, spawned_skip. do 2 f_equal. lia. }
      assert (Hl : length sec = (N.to_nat k - 1)%nat) by lia.
      split; [rewrite B; congruence|]. split; [|split; [exact Hl|split; [exact Hi|split; [exact M2|]]]].
      * rewrite A, S4, seed_after_add. unfold draws_used. destruct (N.to_nat k) as [|k'] eqn:Ek; [lia|]. f_equal. lia.
      * intros Hs. apply (secondaries_apart p k sec Hs); [lia|exact Hl|exact Hi|exact M2].
Qed.
End Any.
