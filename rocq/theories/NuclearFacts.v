(** Energy groups (C16, C17) and reaction mix (C19), for every kind of float. *)
From Coq Require Import NArith ZArith QArith List Bool Reals Lra Lia String Sorted.
From Flocq Require Import Core IEEE754.BinarySingleNaN.
From Verif Require Import Float RngIeee Ieee RealOps ParticleModel NuclearModel MeshTypes Balance TrackModel CycleModel
  TrackAccount FloodLemmas CrossingLemmas SourceCount NuclearSpec.
Import ListNotations.
Local Open Scope N_scope.
Local Open Scope float_scope.

(** ** The search *)

Lemma middle low high : low < high -> high <> low + 1 -> low < (high + low) / 2 /\ (high + low) / 2 < high.
Proof.
  intros H E. assert (low + 1 <= (high + low) / 2) by (apply N.div_le_lower_bound; lia).
  split; [lia|apply N.div_lt_upper_bound; lia].
Qed.

Section AnyFloat.
Context {K : FloatOps}.

(** The search ends inside of its range, whatever the comparisons answer. *)
Lemma search_total fuel : forall (es : list (F K)) (e : F K) low high,
  low < high -> high < N.of_nat (List.length es) -> (N.to_nat (high - low) <= fuel)%nat ->
  exists g, energy_search fuel es e low high = Ok g /\ low <= g < high.
Proof.
  induction fuel as [|fuel IH]; intros es e low high Hl Hh Hf; [lia|]. cbn [energy_search].
  destruct (N.eqb_spec high (low + 1)) as [E|E]; [exists low; split; [reflexivity|lia]|].
  destruct (middle low high Hl E) as [Hm1 Hm2].
  destruct (vec_get_lt es ((high + low) / 2)) as [em ->]; [lia|]. cbn [rbind].
  destruct (e <. em).
  - destruct (IH es e low ((high + low) / 2)) as (g & -> & Hg); [lia|lia|lia|]. exists g. split; [reflexivity|lia].
  - destruct (IH es e ((high + low) / 2) high) as (g & -> & Hg); [lia|lia|lia|]. exists g. split; [reflexivity|lia].
Qed.

Lemma lookup_total (nd : nuclear_data K) e : (2 <= List.length (nd_energies nd))%nat ->
  exists g, get_energy_groups nd e = Ok g /\ (N.to_nat g < List.length (nd_energies nd))%nat.
Proof.
  intros H. unfold get_energy_groups.
  destruct (vec_get_lt (nd_energies nd) 0) as [e0 ->]; [lia|]. cbn [rbind].
  destruct (e <=. e0); [exists 0; split; [reflexivity|lia]|].
  destruct (vec_get_lt (nd_energies nd) (N.of_nat (List.length (nd_energies nd)) - 1)) as [el ->]; [lia|]. cbn [rbind].
  destruct (el <. e); [eexists; split; [reflexivity|lia]|].
  destruct (search_total (List.length (nd_energies nd)) (nd_energies nd) e 0 (N.of_nat (List.length (nd_energies nd)) - 1))
    as (g & -> & Hg); [lia|lia|lia|]. exists g. split; [reflexivity|lia].
Qed.

(** With a single boundary (no group at all) and an energy that compares neither way, the search never ends. *)
Lemma no_group_loops fuel (e0 e : F K) : energy_search fuel [e0] e 0 0 = NoFuel.
Proof.
  induction fuel as [|fuel IH]; cbn [energy_search]; [reflexivity|].
  change (0 =? 0 + 1) with false. cbn iota. change ((0 + 0) / 2) with 0. cbn [vec_get nth_error N.to_nat rbind].
  unfold vec_get. cbn [N.to_nat nth_error rbind unwrap]. destruct (e <. e0); exact IH.
Qed.

(** *** The group found, for floats ordered as their values are *)

Section Ordered.
Variable val : F K -> R.
Variable good : F K -> Prop.
Hypothesis Hlt : forall a b, good a -> good b -> (a <. b = true <-> (val a < val b)%R).
Hypothesis Hle : forall a b, good a -> good b -> (a <=. b = true <-> (val a <= val b)%R).

Lemma lt_false a b : good a -> good b -> a <. b = false -> (val b <= val a)%R.
Proof. intros Ha Hb H. apply Rnot_lt_le. intros C. apply Hlt in C; auto. congruence. Qed.
Lemma le_false a b : good a -> good b -> a <=. b = false -> (val b < val a)%R.
Proof. intros Ha Hb H. apply Rnot_le_lt. intros C. apply Hle in C; auto. congruence. Qed.

Lemma increasing_nth es : increasing val es -> forall i j a b, (i < j)%nat ->
  nth_error es i = Some a -> nth_error es j = Some b -> (val a < val b)%R.
Proof.
  induction 1 as [|x es Hs IH Hx]; intros i j a b Hij Ha Hb; [destruct i; discriminate|].
  destruct j as [|j]; [lia|]. cbn [nth_error] in Hb. destruct i as [|i]; cbn [nth_error] in Ha.
  - injection Ha as <-. apply nth_error_In in Hb. exact (proj1 (Forall_forall _ _) Hx b Hb).
  - apply (IH i j); auto; lia.
Qed.
Lemma increasing_nth_le es : increasing val es -> forall i j a b, (i <= j)%nat ->
  nth_error es i = Some a -> nth_error es j = Some b -> (val a <= val b)%R.
Proof.
  intros Hs i j a b Hij Ha Hb. destruct (Nat.eq_dec i j) as [->|E].
  - rewrite Ha in Hb. injection Hb as ->. lra.
  - apply Rlt_le, (increasing_nth es Hs i j); auto. lia.
Qed.

Lemma group_unique es e g g' : increasing val es -> in_group val es e g -> in_group val es e g' -> g = g'.
Proof.
  intros Hs (lo & hi & L & U & Hlo & Hhi) (lo' & hi' & L' & U' & Hlo' & Hhi').
  assert (D : forall g g' lo hi lo', nth_error es (N.to_nat g) = Some lo -> nth_error es (S (N.to_nat g)) = Some hi ->
            nth_error es (N.to_nat g') = Some lo' -> (val e < val hi)%R \/ (val e = val hi /\ List.length es = S (S (N.to_nat g))) ->
            (val lo' <= val e)%R -> nth_error es (S (N.to_nat g')) <> None -> g' <= g).
  { clear - Hs. intros g g' lo hi lo' L U L' Hhi Hlo' Hb. apply N.le_ngt. intros C.
    destruct Hhi as [Hhi|[Hhi Hlen]].
    - pose proof (increasing_nth_le es Hs (S (N.to_nat g)) (N.to_nat g') hi lo' ltac:(lia) U L'). lra.
    - apply Hb. apply nth_error_None. lia. }
  assert (g' <= g) by (apply (D g g' lo hi lo'); auto; congruence).
  assert (g <= g') by (apply (D g' g lo' hi' lo); auto; congruence). lia.
Qed.

Lemma search_correct fuel : forall es e low high lo hi,
  Forall good es -> good e -> low < high -> high < N.of_nat (List.length es) -> (N.to_nat (high - low) <= fuel)%nat ->
  nth_error es (N.to_nat low) = Some lo -> nth_error es (N.to_nat high) = Some hi -> (val lo <= val e)%R ->
  (val e < val hi)%R \/ (val e = val hi /\ List.length es = S (N.to_nat high)) ->
  exists g, energy_search fuel es e low high = Ok g /\ in_group val es e g.
Proof.
  induction fuel as [|fuel IH]; intros es e low high lo hi Hg He Hl Hh Hf L U Hlo Hhi; [lia|]. cbn [energy_search].
  destruct (N.eqb_spec high (low + 1)) as [E|E].
  - exists low. split; [reflexivity|]. exists lo, hi. subst high. replace (N.to_nat (low + 1)) with (S (N.to_nat low)) in * by lia. auto.
  - destruct (middle low high Hl E) as [Hm1 Hm2].
    destruct (vec_get_lt es ((high + low) / 2)) as [em Em]; [lia|]. rewrite Em. cbn [rbind].
    apply vec_get_nth in Em.
    assert (Hem : good em) by (apply nth_error_In in Em; exact (proj1 (Forall_forall _ _) Hg em Em)).
    destruct (e <. em) eqn:C.
    + apply Hlt in C; auto. apply (IH es e low ((high + low) / 2) lo em); auto; lia.
    + apply lt_false in C; auto. apply (IH es e ((high + low) / 2) high em hi); auto; lia.
Qed.

Lemma lookup_correct (nd : nuclear_data K) e first last : Forall good (nd_energies nd) -> good e ->
  (2 <= List.length (nd_energies nd))%nat -> increasing val (nd_energies nd) ->
  nth_error (nd_energies nd) 0 = Some first -> nth_error (nd_energies nd) (List.length (nd_energies nd) - 1) = Some last ->
  ((val e <= val first)%R -> get_energy_groups nd e = Ok 0) /\
  ((val first <= val e <= val last)%R -> exists g, get_energy_groups nd e = Ok g /\
    in_group val (nd_energies nd) e g /\ forall g', in_group val (nd_energies nd) e g' -> g' = g).
Proof.
  set (es := nd_energies nd). intros Hg He Hn Hs Hf Hla.
  assert (Gf : good first) by (apply nth_error_In in Hf; exact (proj1 (Forall_forall _ _) Hg first Hf)).
  assert (Gl : good last) by (apply nth_error_In in Hla; exact (proj1 (Forall_forall _ _) Hg last Hla)).
  assert (E0 : vec_get es 0 = Ok first) by (apply vec_get_nth; exact Hf).
  assert (E1 : vec_get es (N.of_nat (List.length es) - 1) = Ok last).
  { apply vec_get_nth. replace (N.to_nat (N.of_nat (List.length es) - 1)) with (List.length es - 1)%nat by lia. exact Hla. }
  unfold get_energy_groups. fold es. rewrite E0, E1. cbn [rbind].
  assert (A : (val e <= val first)%R -> (if e <=. first then Ok 0 else if last <. e then Ok (N.of_nat (List.length es) - 1)
                 else energy_search (List.length es) es e 0 (N.of_nat (List.length es) - 1)) = Ok 0).
  { intros C. apply Hle in C; auto. rewrite C. reflexivity. }
  split; [exact A|]. intros [H1 H2].
  assert (Hu : exists g, (if e <=. first then Ok 0 else if last <. e then Ok (N.of_nat (List.length es) - 1)
                 else energy_search (List.length es) es e 0 (N.of_nat (List.length es) - 1)) = Ok g /\ in_group val es e g).
  { destruct (Rle_lt_dec (val e) (val first)) as [C|C].
    - rewrite (A C). exists 0. split; [reflexivity|].
      destruct (nth_error es 1) as [hi|] eqn:Eh; [|apply nth_error_None in Eh; fold es in Hn; lia].
      exists first, hi. split; [exact Hf|]. split; [exact Eh|]. split; [exact H1|]. left.
      pose proof (increasing_nth es Hs 0 1 first hi ltac:(lia) Hf Eh). lra.
    - destruct (e <=. first) eqn:D; [apply Hle in D; auto; lra|].
      destruct (last <. e) eqn:D'; [apply Hlt in D'; auto; lra|].
      apply (search_correct (List.length es) es e 0 (N.of_nat (List.length es) - 1) first last); auto; try (fold es in Hn; lia).
      + replace (N.to_nat (N.of_nat (List.length es) - 1)) with (List.length es - 1)%nat by lia. exact Hla.
      + destruct (Rle_lt_or_eq_dec _ _ H2) as [Q|Q]; [left; exact Q|right]. split; [exact Q|]. fold es in Hn. lia. }
  destruct Hu as (g & -> & Hin). exists g. split; [reflexivity|]. split; [exact Hin|].
  intros g' Hin'. apply (group_unique es e); auto.
Qed.

End Ordered.

(** ** Above the highest boundary *)

Lemma lookup_above (nd : nuclear_data K) e first last : nth_error (nd_energies nd) 0 = Some first ->
  nth_error (nd_energies nd) (List.length (nd_energies nd) - 1) = Some last ->
  e <=. first = false -> last <. e = true ->
  get_energy_groups nd e = Ok (N.of_nat (List.length (nd_energies nd) - 1)).
Proof.
  intros Hf Hl E1 E2. unfold get_energy_groups.
  rewrite (proj2 (vec_get_nth (nd_energies nd) 0 first) Hf). cbn [rbind]. rewrite E1.
  rewrite (proj2 (vec_get_nth (nd_energies nd) (N.of_nat (List.length (nd_energies nd)) - 1) last)).
  - cbn [rbind]. rewrite E2. f_equal. lia.
  - replace (N.to_nat (N.of_nat (List.length (nd_energies nd)) - 1)) with (List.length (nd_energies nd) - 1)%nat by lia. exact Hl.
Qed.

Lemma vec_get_out {A} (l : list A) i : (List.length l <= N.to_nat i)%nat -> vec_get l i = Panic.
Proof. intros H. unfold vec_get. apply nth_error_None in H. rewrite H. reflexivity. Qed.

Lemma total_out (nd : nuclear_data K) gid g rs : nth_error (nd_isotopes nd) (N.to_nat gid) = Some rs -> rs <> [] ->
  Forall (fun r => (List.length (r_cross_section r) <= N.to_nat g)%nat) rs ->
  get_total_cross_section nd gid g = Panic.
Proof.
  intros H Hn F. unfold get_total_cross_section. rewrite (proj2 (vec_get_nth (nd_isotopes nd) gid rs) H). cbn [rbind].
  destruct rs as [|r rs]; [contradiction|]. cbn [rmap]. rewrite vec_get_out; [reflexivity|]. exact (Forall_inv F).
Qed.

Lemma slot_next ng c : slot ng c ng = slot ng (c + 1) 0.
Proof. unfold slot. lia. Qed.

(** The entry of the next cell, when it is filled, is returned for the cell of the particle. *)
Lemma lookup_aliases (td : track_data K) (dom : domain K) ng c m v :
  vec_get (m_cache m) (slot ng (c + 1) 0) = Ok v -> f0 <. v = true ->
  run_seq ng (get_xs td dom c ng) m = Ok (v, m).
Proof.
  intros H P. unfold get_xs. cbn [run_seq]. rewrite slot_next, H. cbn [rbind]. rewrite P. reflexivity.
Qed.
(** In the last cell there is no such entry. *)
Lemma lookup_past_end (td : track_data K) (dom : domain K) ng c m :
  List.length (m_cache m) = N.to_nat ((c + 1) * ng) -> run_seq ng (get_xs td dom c ng) m = Panic.
Proof.
  intros H. unfold get_xs. cbn [run_seq]. rewrite vec_get_out; [reflexivity|]. rewrite H. unfold slot. lia.
Qed.
(** When the entry is empty the cross-section is computed, and its table has no such group. *)
Lemma lookup_computes (td : track_data K) (dom : domain K) ng c m v cs mat iso isos rs :
  vec_get (m_cache m) (slot ng (c + 1) 0) = Ok v -> f0 <. v = false ->
  vec_get (d_cells dom) c = Ok cs -> vec_get (td_mats td) (cs_material cs) = Ok mat -> mat_iso mat = iso :: isos ->
  iso_atom_fraction iso ==. f0 = false -> cs_number_density cs ==. f0 = false ->
  nth_error (nd_isotopes (td_nuclear td)) (N.to_nat (iso_gid iso)) = Some rs -> rs <> [] ->
  Forall (fun r => (List.length (r_cross_section r) <= N.to_nat ng)%nat) rs ->
  run_seq ng (get_xs td dom c ng) m = Panic.
Proof.
  intros H P Ec Em Ei Ef Ed Er Hn Hr. unfold get_xs. cbn [run_seq]. rewrite slot_next, H. cbn [rbind]. rewrite P.
  unfold cell_cross_section. rewrite Ec. cbn [rbind]. unfold weighted_macroscopic_cross_section. rewrite Em. cbn [rbind].
  rewrite Ei. cbn [rmap]. unfold macroscopic_total_cross_section. rewrite Ef, Ed. cbn [orb].
  rewrite (total_out (td_nuclear td) (iso_gid iso) ng rs Er Hn Hr). reflexivity.
Qed.
(** The flux of the segment goes to the next cell. *)
Lemma flux_aliases ng c v m old (q : prog K unit) :
  vec_get (m_flux m) (slot ng (c + 1) 0) = Ok old ->
  run_seq ng (AddFlux c ng v q) m = run_seq ng q (mkMem (m_cache m) (list_set (m_flux m) (N.to_nat (slot ng (c + 1) 0)) (old +. v))).
Proof. intros H. cbn [run_seq]. rewrite slot_next, H. reflexivity. Qed.

(** ** Reaction mix *)

Lemma reaction_values_cons p (e0 e1 : F K) es n : reaction_values p (e0 :: e1 :: es) n =
  let x := fpow10 (poly_val p (flog10 ((e0 +. e1) /. ftwo))) in
  let (l, m) := reaction_values p (e1 :: es) (if (f1 <=. e1) && (n ==. f0) then x else n) in (x :: l, m).
Proof. reflexivity. Qed.
Lemma reaction_values_length p : forall (es : list (F K)) n, List.length (fst (reaction_values p es n)) = (List.length es - 1)%nat.
Proof.
  induction es as [|e0 es IH]; intros n; [reflexivity|]. destruct es as [|e1 es]; [reflexivity|].
  rewrite reaction_values_cons. cbv zeta. specialize (IH (if (f1 <=. e1) && (n ==. f0) then fpow10 (poly_val p (flog10 ((e0 +. e1) /. ftwo))) else n)).
  destruct (reaction_values p (e1 :: es) _) as [l n']. cbn [fst] in IH |- * . cbn [List.length] in IH |- * . lia.
Qed.

Lemma reaction_new_shape t nu (es : list (F K)) p x : let r := reaction_new t nu es p x in
  r_type r = t /\ r_nu_bar r = nu /\ List.length (r_cross_section r) = (List.length es - 1)%nat.
Proof.
  cbv zeta. unfold reaction_new. pose proof (reaction_values_length p es f0) as H.
  destruct (reaction_values p es f0) as [l n]. cbn [fst] in H. cbn [r_type r_nu_bar r_cross_section]. rewrite map_length. auto.
Qed.

Lemma how_many_app k (a b : list (reaction K)) : how_many k (a ++ b) = (how_many k a + how_many k b)%nat.
Proof. unfold how_many. rewrite filter_app, app_length. reflexivity. Qed.

Lemma mix_of (mk : N -> reaction K) groups nu : (forall i, r_type (mk i) = kind_at (N.to_nat i) /\ r_nu_bar (mk i) = nu /\
    List.length (r_cross_section (mk i)) = groups) ->
  forall n, reaction_mix n groups nu (map mk (nrange 0 n)).
Proof.
  intros H n. unfold reaction_mix. split; [rewrite map_length; apply nrange_length|]. split.
  - intros i r Hi. assert (Hl : (i < n)%nat).
    { assert (nth_error (map mk (nrange 0 n)) i <> None) as Q by congruence.
      apply nth_error_Some in Q. rewrite map_length, nrange_length in Q. exact Q. }
    rewrite nth_error_map, nrange_nth in Hi by exact Hl. cbn [option_map] in Hi. rewrite N.add_0_l in Hi. injection Hi as <-.
    destruct (H (N.of_nat i)) as (A & B & C). rewrite A, Nat2N.id. auto.
  - assert (T : forall n, (how_many Scatter (map mk (nrange 0 n)) = (n + 2) / 3 /\
       how_many Fission (map mk (nrange 0 n)) = (n + 1) / 3 /\ how_many Absorption (map mk (nrange 0 n)) = n / 3)%nat).
    { clear n. induction n as [|n (A & B & C)]; [repeat split; reflexivity|].
      rewrite nrange_snoc, map_app, !how_many_app, A, B, C. cbn [map].
      destruct (H (0 + N.of_nat n)) as (T & _ & _). replace (N.to_nat (0 + N.of_nat n)) with n in T by lia.
      unfold how_many, is_kind. cbn [filter]. rewrite T. unfold kind_at.
      pose proof (Nat.div_mod n 3 ltac:(lia)) as D. pose proof (Nat.mod_upper_bound n 3 ltac:(lia)) as M.
      set (q := (n / 3)%nat) in * . set (r := (n mod 3)%nat) in * . clearbody q r.
      assert (Q : forall a b k, (k < 3 -> a = 3 * b + k -> a / 3 = b)%nat).
      { intros a b k Hk ->. rewrite (Nat.mul_comm 3 b), Nat.div_add_l by lia. rewrite Nat.div_small by exact Hk. lia. }
      destruct r as [|[|[|r]]]; [| | |lia]; cbn [List.length].
      - rewrite (Q (n + 2) q 2)%nat by lia. rewrite (Q (n + 1) q 1)%nat by lia. rewrite (Q (S n + 2) (q + 1) 0)%nat by lia.
        rewrite (Q (S n + 1) q 2)%nat by lia. rewrite (Q (S n) q 1)%nat by lia. lia.
      - rewrite (Q (n + 2) (q + 1) 0)%nat by lia. rewrite (Q (n + 1) q 2)%nat by lia. rewrite (Q (S n + 2) (q + 1) 1)%nat by lia.
        rewrite (Q (S n + 1) (q + 1) 0)%nat by lia. rewrite (Q (S n) q 2)%nat by lia. lia.
      - rewrite (Q (n + 2) (q + 1) 1)%nat by lia. rewrite (Q (n + 1) (q + 1) 0)%nat by lia. rewrite (Q (S n + 2) (q + 1) 2)%nat by lia.
        rewrite (Q (S n + 1) (q + 1) 1)%nat by lia. rewrite (Q (S n) (q + 1) 0)%nat by lia. lia. }
    apply T.
Qed.

Lemma mod3_kind i : (N.to_nat i mod 3)%nat = N.to_nat (i mod 3).
Proof. rewrite N2Nat.inj_mod. reflexivity. Qed.

Lemma add_isotope_mix (nd nd' : nuclear_data K) xs mp nu gid : add_isotope nd xs mp nu = Ok (nd', gid) ->
  nd_num_energy_groups nd' = nd_num_energy_groups nd /\ nd_energies nd' = nd_energies nd /\
  gid = N.of_nat (List.length (nd_isotopes nd)) /\
  exists rs, nd_isotopes nd' = nd_isotopes nd ++ [rs] /\
    reaction_mix (N.to_nat (mp_n_reactions mp)) (List.length (nd_energies nd) - 1) nu rs.
Proof.
  unfold add_isotope. intros H. rb H as ff E1. rb H as sf E2. rb H as af E3. injection H; intros; subst; clear H.
  cbn [nd_num_energy_groups nd_energies nd_isotopes]. split; [reflexivity|]. split; [reflexivity|]. split; [reflexivity|].
  eexists. split; [reflexivity|]. apply mix_of. intros i. unfold kind_at. rewrite mod3_kind.
  pose proof (N.mod_upper_bound i 3 ltac:(lia)) as M.
  destruct (i mod 3) as [|[p|p|]]; cbn [N.to_nat].
  - apply reaction_new_shape.
  - assert (p~1 = 3 \/ p~1 > 3)%positive as [?|?] by lia; lia.
  - destruct p; [lia|lia|]. change (Pos.to_nat 2) with 2%nat. apply reaction_new_shape.
  - change (Pos.to_nat 1) with 1%nat. apply reaction_new_shape.
Qed.

Lemma add_isotopes_mix xs mp nu : forall n (nd nd' : nuclear_data K) l, add_isotopes n nd xs mp nu = Ok (nd', l) ->
  nd_num_energy_groups nd' = nd_num_energy_groups nd /\ nd_energies nd' = nd_energies nd /\
  map iso_gid l = nrange (N.of_nat (List.length (nd_isotopes nd))) n /\
  Forall (fun iso => iso_atom_fraction iso = f1 /. fof_N (mp_n_isotopes mp)) l /\
  exists more, nd_isotopes nd' = nd_isotopes nd ++ more /\ List.length more = n /\
    Forall (reaction_mix (N.to_nat (mp_n_reactions mp)) (List.length (nd_energies nd) - 1) nu) more.
Proof.
  induction n as [|n IH]; intros nd nd' l H; cbn [add_isotopes] in H.
  - injection H; intros; subst; clear H. repeat split; auto. exists []. rewrite app_nil_r. auto.
  - rb H as [nd1 gid] E1. rb H as [nd2 l2] E2. injection H; intros; subst; clear H.
    apply add_isotope_mix in E1. destruct E1 as (A1 & A2 & A3 & rs & A4 & A5).
    apply IH in E2. destruct E2 as (B1 & B2 & B3 & B4 & more & B5 & B6 & B7).
    split; [congruence|]. split; [congruence|]. split; [|split].
    + cbn [map iso_gid nrange]. rewrite B3, A4, app_length. cbn [List.length]. rewrite A3. f_equal. f_equal. lia.
    + constructor; [reflexivity|exact B4].
    + exists (rs :: more). rewrite B5, A4, <- app_assoc. split; [reflexivity|]. cbn [List.length]. split; [lia|].
      constructor; [exact A5|]. rewrite A2 in B7. exact B7.
Qed.

Lemma init_materials_mix xs nus : forall mps (nd nd' : nuclear_data K) mats, init_materials mps nd xs nus = Ok (nd', mats) ->
  nd_num_energy_groups nd' = nd_num_energy_groups nd /\ nd_energies nd' = nd_energies nd /\
  (exists more, nd_isotopes nd' = nd_isotopes nd ++ more) /\
  Forall2 (material_for nd' nus) mps mats /\
  flat_map (fun m => map iso_gid (mat_iso m)) mats =
    nrange (N.of_nat (List.length (nd_isotopes nd))) (List.length (nd_isotopes nd') - List.length (nd_isotopes nd)).
Proof.
  induction mps as [|mp mps IH]; intros nd nd' mats H; cbn [init_materials] in H.
  - injection H; intros; subst; clear H. split; [reflexivity|]. split; [reflexivity|]. split; [exists []; symmetry; apply app_nil_r|]. split; [constructor|].
    rewrite Nat.sub_diag. reflexivity.
  - rb H as [nd1 iso] E1. rb H as [nd2 mats2] E2. injection H; intros; subst; clear H.
    assert (H1 : nd_num_energy_groups nd1 = nd_num_energy_groups nd /\ nd_energies nd1 = nd_energies nd /\
      map iso_gid iso = nrange (N.of_nat (List.length (nd_isotopes nd))) (N.to_nat (mp_n_isotopes mp)) /\
      Forall (fun iso => iso_atom_fraction iso = f1 /. fof_N (mp_n_isotopes mp)) iso /\
      exists more, nd_isotopes nd1 = nd_isotopes nd ++ more /\ List.length more = N.to_nat (mp_n_isotopes mp) /\
        Forall (fun rs => exists nu, map_get nus (mp_fission_cross_section mp) = Some nu /\
          reaction_mix (N.to_nat (mp_n_reactions mp)) (List.length (nd_energies nd) - 1) nu rs) more).
    { destruct (N.to_nat (mp_n_isotopes mp)) as [|k].
      - injection E1; intros; subst; clear E1. repeat split; auto. exists []. rewrite app_nil_r. auto.
      - rb E1 as nu En. apply add_isotopes_mix in E1. destruct E1 as (A1 & A2 & A3 & A4 & more & A5 & A6 & A7).
        repeat split; auto. exists more. split; [exact A5|]. split; [exact A6|]. eapply Forall_impl; [|exact A7].
        intros rs Hr. exists nu. split; [|exact Hr]. unfold map_index in En. destruct (map_get nus _); [|discriminate]. injection En as ->. reflexivity. }
    clear E1. destruct H1 as (A1 & A2 & A3 & A4 & more & A5 & A6 & A7).
    apply IH in E2. destruct E2 as (B1 & B2 & (more2 & B3) & B4 & B5).
    split; [congruence|]. split; [congruence|]. split; [exists (more ++ more2); rewrite B3, A5, app_assoc; reflexivity|].
    split.
    + constructor; [|exact B4]. unfold material_for. cbn [mat_name mat_mass mat_iso]. split; [reflexivity|]. split; [reflexivity|].
      split; [rewrite <- (map_length iso_gid), A3; apply nrange_length|].
      apply Forall_forall. intros i Hi. split; [exact (proj1 (Forall_forall _ _) A4 i Hi)|].
      assert (Hg : In (iso_gid i) (map iso_gid iso)) by (apply in_map; exact Hi). rewrite A3 in Hg. apply nrange_in in Hg.
      set (k := (N.to_nat (iso_gid i) - List.length (nd_isotopes nd))%nat).
      destruct (nth_error more k) as [rs|] eqn:Er; [|apply nth_error_None in Er; unfold k in Er; lia].
      pose proof (proj1 (Forall_forall _ _) A7 rs (nth_error_In _ _ Er)) as (nu & Hnu & Hm).
      exists rs, nu. split; [exact Hnu|]. split; [|rewrite B2, A2; exact Hm].
      rewrite B3, A5, <- app_assoc, nth_error_app2 by lia. fold k. rewrite nth_error_app1; [exact Er|].
      apply nth_error_Some. congruence.
    + cbn [flat_map mat_iso]. rewrite A3, B5, A5, B3, A5, !app_length, A6.
      replace (List.length (nd_isotopes nd) + N.to_nat (mp_n_isotopes mp) + List.length more2 - (List.length (nd_isotopes nd)))%nat
        with (N.to_nat (mp_n_isotopes mp) + List.length more2)%nat by lia.
      replace (List.length (nd_isotopes nd) + N.to_nat (mp_n_isotopes mp) + List.length more2 - (List.length (nd_isotopes nd) + N.to_nat (mp_n_isotopes mp)))%nat
        with (List.length more2)%nat by lia.
      assert (Happ : forall lo a b, nrange lo (a + b) = nrange lo a ++ nrange (lo + N.of_nat a) b).
      { clear. intros lo a. revert lo. induction a as [|a IH]; intros lo b; cbn [Nat.add nrange app]; [f_equal; lia|].
        rewrite IH. do 2 f_equal. f_equal. lia. }
      rewrite Happ. do 2 f_equal. lia.
Qed.

End AnyFloat.
