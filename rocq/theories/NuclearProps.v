(** Claims about nuclear data and collisions (C16 to C22). *)
From Coq Require Import NArith ZArith QArith Qreals List Bool String Reals Lra Lia.
From Flocq Require Import Core IEEE754.BinarySingleNaN.
From Verif Require Import Float RngModel RngIeee Ieee RealOps ParticleModel NuclearModel MeshTypes Balance TrackModel CycleModel SeqRun
  PopSpec NuclearSpec NuclearFacts NuclearReal NuclearIeee PartnerLemmas OutcomeLemmas NuclearDemo SecondarySpec SecondaryLemmas.
Import ListNotations.
Local Open Scope N_scope.

(** ** C16: energy groups *)

(** In any arithmetic the lookup ends and gives one of the groups, or the number of groups. *)
Theorem c16_lookup_total : forall (K : FloatOps) (nd : nuclear_data K) e, (2 <= List.length (nd_energies nd))%nat ->
  exists g, get_energy_groups nd e = Ok g /\ (N.to_nat g < List.length (nd_energies nd))%nat.
Proof. exact @lookup_total. Qed.
Print Assumptions c16_lookup_total.

(** In exact arithmetic. *)
Theorem c16_lookup_correct_exact : forall (nd : nuclear_data Rops) (e first last : R),
  (2 <= List.length (nd_energies nd))%nat -> increasing (fun x : R => x) (nd_energies nd) ->
  nth_error (nd_energies nd) 0 = Some first -> nth_error (nd_energies nd) (List.length (nd_energies nd) - 1) = Some last ->
  ((e <= first)%R -> get_energy_groups nd e = Ok 0) /\
  ((first <= e <= last)%R -> exists g, get_energy_groups nd e = Ok g /\
    in_group (fun x : R => x) (nd_energies nd) e g /\ forall g', in_group (fun x : R => x) (nd_energies nd) e g' -> g' = g).
Proof. exact lookupR. Qed.
Print Assumptions c16_lookup_correct_exact.

(** In binary64 arithmetic, for finite numbers. *)
Theorem c16_lookup_correct : forall lm (nd : nuclear_data (f64ops lm)) (e first last : F (f64ops lm)),
  Forall (finite64 lm) (nd_energies nd) -> finite64 lm e -> (2 <= List.length (nd_energies nd))%nat ->
  increasing (value64 lm) (nd_energies nd) -> nth_error (nd_energies nd) 0 = Some first ->
  nth_error (nd_energies nd) (List.length (nd_energies nd) - 1) = Some last ->
  ((value64 lm e <= value64 lm first)%R -> get_energy_groups nd e = Ok 0) /\
  ((value64 lm first <= value64 lm e <= value64 lm last)%R -> exists g, get_energy_groups nd e = Ok g /\
    in_group (value64 lm) (nd_energies nd) e g /\ forall g', in_group (value64 lm) (nd_energies nd) e g' -> g' = g).
Proof. exact lookup64. Qed.
Print Assumptions c16_lookup_correct.

Example c16_example : increasing (fun x : R => x) bounds /\ increasing (value64 approx_libm) bounds64 /\
  Forall (finite64 approx_libm) bounds64 /\
  get_energy_groups (mkNuclear (K := K64) 2 [] bounds64) (f64_lit (5 # 2)) = Ok 1.
Proof.
  split; [exact bounds_increasing|]. split; [exact bounds64_increasing|]. split; [exact bounds64_finite|]. vm_compute. reflexivity.
Qed.

(** With no group at all and an energy that is not a number the dichotomy never ends. *)
Theorem c16_no_group_loops : exists (nd : nuclear_data K64) (e : F K64), List.length (nd_energies nd) = 1%nat /\
  (forall e0, In e0 (nd_energies nd) -> fle e e0 = false /\ flt e0 e = false) /\
  forall fuel, energy_search fuel (nd_energies nd) e 0 0 = NoFuel.
Proof.
  exists (mkNuclear (K := K64) 0 [] [f64_lit (20 # 1)]), (B754_nan : f64). split; [reflexivity|]. split.
  - intros e0 [<-|[]]. split; reflexivity.
  - intros fuel. exact (no_group_loops (K := K64) fuel (f64_lit (20 # 1)) (B754_nan : f64)).
Qed.
Print Assumptions c16_no_group_loops.

(** ** C17: energies above the maximum *)

(** The group found is the number of groups, in any arithmetic. *)
Theorem c17_above_maximum : forall (K : FloatOps) (nd : nuclear_data K) e first last,
  nth_error (nd_energies nd) 0 = Some first -> nth_error (nd_energies nd) (List.length (nd_energies nd) - 1) = Some last ->
  fle e first = false -> flt last e = true ->
  get_energy_groups nd e = Ok (N.of_nat (List.length (nd_energies nd) - 1)).
Proof. exact @lookup_above. Qed.
Print Assumptions c17_above_maximum.

(** Reading the cross-sections of an isotope at that group is out of bounds. *)
Theorem c17_no_cross_section : forall (K : FloatOps) (nd : nuclear_data K) gid g rs,
  nth_error (nd_isotopes nd) (N.to_nat gid) = Some rs -> rs <> [] ->
  Forall (fun r => (List.length (r_cross_section r) <= N.to_nat g)%nat) rs -> get_total_cross_section nd gid g = Panic.
Proof. exact @total_out. Qed.
Print Assumptions c17_no_cross_section.

(** For a particle in cell [c], at the group [ng] (the number of groups): a cached value for group 0 of cell
    [c + 1] is used instead; behind the last cell, or when there is no value yet, the program stops. *)
Theorem c17_cache_of_next_cell : forall (K : FloatOps) (td : track_data K) (dom : domain K) ng c m,
  (forall v, vec_get (m_cache m) (slot ng (c + 1) 0) = Ok v -> flt f0 v = true ->
     run_seq ng (get_xs td dom c ng) m = Ok (v, m)) /\
  (List.length (m_cache m) = N.to_nat ((c + 1) * ng) -> run_seq ng (get_xs td dom c ng) m = Panic) /\
  (forall v cs mat iso isos rs, vec_get (m_cache m) (slot ng (c + 1) 0) = Ok v -> flt f0 v = false ->
     vec_get (d_cells dom) c = Ok cs -> vec_get (td_mats td) (cs_material cs) = Ok mat -> mat_iso mat = iso :: isos ->
     feq (iso_atom_fraction iso) f0 = false -> feq (cs_number_density cs) f0 = false ->
     nth_error (nd_isotopes (td_nuclear td)) (N.to_nat (iso_gid iso)) = Some rs -> rs <> [] ->
     Forall (fun r => (List.length (r_cross_section r) <= N.to_nat ng)%nat) rs ->
     run_seq ng (get_xs td dom c ng) m = Panic).
Proof.
  exact (fun K td dom ng c m => conj (lookup_aliases td dom ng c m)
    (conj (lookup_past_end td dom ng c m) (lookup_computes td dom ng c m))).
Qed.
Print Assumptions c17_cache_of_next_cell.

(** The flux of its segment is added to group 0 of the next cell. *)
Theorem c17_flux_of_next_cell : forall (K : FloatOps) ng c v m old (q : prog K unit),
  vec_get (m_flux m) (slot ng (c + 1) 0) = Ok old ->
  run_seq ng (AddFlux c ng v q) m = run_seq ng q (mkMem (m_cache m) (list_set (m_flux m) (N.to_nat (slot ng (c + 1) 0)) (fadd old v))).
Proof. exact @flux_aliases. Qed.
Print Assumptions c17_flux_of_next_cell.

(** Such energies occur: for each fission with [nu_bar] in [1, 4) there is a seed for which the particle
    leaves with an energy of 20, above any smaller maximum. *)
Theorem c17_fission_exceeds : forall (nd : nuclear_data Rops) (p : particle Rops) (r : reaction Rops) (m first last : R),
  r_type r = Fission -> (1 <= r_nu_bar r < 4)%R ->
  nth_error (nd_energies nd) 0 = Some first -> nth_error (nd_energies nd) (List.length (nd_energies nd) - 1) = Some last ->
  (first < 20)%R -> (last < 20)%R ->
  exists s n q sec, s < two64 /\ sample_collision (set_random_number_seed p s) r m = Ok (n, q, sec) /\
    p_kinetic_energy q = 20%R /\ get_energy_groups nd (p_kinetic_energy q) = Ok (N.of_nat (List.length (nd_energies nd) - 1)).
Proof. exact fission_exceeds. Qed.
Print Assumptions c17_fission_exceeds.

Example c17_example : r_type fission_only = Fission /\ (1 <= r_nu_bar fission_only < 4)%R /\
  nth_error bounds 0 = Some (1 / 2)%R /\ nth_error bounds (List.length bounds - 1) = Some 10%R /\ (10 < 20)%R.
Proof. repeat split; cbn; lra. Qed.
(** Two cells, one group, the cell 1 visited before: a particle in cell 0 with too much energy sees the
    cross-section of cell 1. *)
Example c17_alias_example : run_seq (K := Rops) 1 (get_xs collide_td (mkDomain (K := Rops) 0 [] (mkMesh (K := Rops) 0 [] [] [])) 0 1)
   (mkMem (K := Rops) [0%R; 7%R] [0%R; 0%R]) = Ok (7%R, mkMem (K := Rops) [0%R; 7%R] [0%R; 0%R]).
Proof.
  apply (proj1 (c17_cache_of_next_cell Rops collide_td _ 1 0 _)); [reflexivity|]. apply Rltb_iff. cbn. lra.
Qed.

(** ** C18: energy boundaries *)

Theorem c18_boundaries : forall (n : N) (lo hi : R), 1 <= n -> (0 < lo)%R -> (lo < hi)%R ->
  let es := nd_energies (nuclear_new (K := Rops) n lo hi) in
  let delta := (ln (hi / lo) / (INR (N.to_nat n) + 1))%R in
  List.length es = S (N.to_nat n) /\ nth_error es 0 = Some lo /\ nth_error es (N.to_nat n) = Some hi /\
  increasing (fun x : R => x) es /\
  forall i a b, nth_error es i = Some a -> nth_error es (S i) = Some b ->
    ((S i < N.to_nat n)%nat -> ln b - ln a = delta)%R /\ (S i = N.to_nat n -> ln b - ln a = 2 * delta)%R.
Proof. exact boundaries. Qed.
Print Assumptions c18_boundaries.

Example c18_example : 1 <= 230 /\ (0 < 1 / 1000000000)%R /\ (1 / 1000000000 < 20)%R.
Proof. split; [discriminate|]. split; lra. Qed.

(** ** C19: reactions *)

(** The materials and isotopes built are those the parameters ask for, with the kinds of reactions in
    turn, one cross-section per group; the isotopes of all materials are numbered without gaps. *)
Theorem c19_reaction_mix : forall (K : FloatOps) xs nus mps (nd nd' : nuclear_data K) mats,
  init_materials mps nd xs nus = Ok (nd', mats) ->
  nd_num_energy_groups nd' = nd_num_energy_groups nd /\ nd_energies nd' = nd_energies nd /\
  (exists more, nd_isotopes nd' = nd_isotopes nd ++ more) /\
  Forall2 (material_for nd' nus) mps mats /\
  flat_map (fun m => map iso_gid (mat_iso m)) mats =
    nrange (N.of_nat (List.length (nd_isotopes nd))) (List.length (nd_isotopes nd') - List.length (nd_isotopes nd)).
Proof. exact @init_materials_mix. Qed.
Print Assumptions c19_reaction_mix.

Example c19_example : exists nd mats, built_nuclear = Ok (nd, mats).
Proof. exact demo_built. Qed.

(** ** C20: normalisation *)

(** In exact arithmetic, at the first group whose upper boundary is at least 1 MeV, the cross-sections of an
    isotope add up to the requested total, restricted to the kinds of reactions that occur. *)
Theorem c20_isotope_total : forall (nd nd' : nuclear_data Rops) xs mp nu gid g, add_isotope nd xs mp nu = Ok (nd', gid) ->
  first_from_one (nd_energies nd) (N.to_nat g) -> weight_sum mp <> 0%R ->
  get_total_cross_section nd' gid g = Ok (normal_total mp).
Proof. exact isotope_total. Qed.
Print Assumptions c20_isotope_total.

(** With three reactions or more, every kind occurs. *)
Theorem c20_three_reactions : forall mp : material_params Rops, 3 <= mp_n_reactions mp -> weight_sum mp <> 0%R ->
  normal_total mp = mp_total_cross_section mp.
Proof. exact three_reactions. Qed.
Print Assumptions c20_three_reactions.

(** The same for a material in a cell: the macroscopic cross-section is the requested total times the density. *)
Theorem c20_material_total : forall xs nus g mps (nd nd' : nuclear_data Rops) mats i mp (density dt : R),
  init_materials mps nd xs nus = Ok (nd', mats) -> first_from_one (nd_energies nd) (N.to_nat g) ->
  Forall (fun mp => weight_sum mp <> 0%R) mps -> nth_error mps (N.to_nat i) = Some mp -> 1 <= mp_n_isotopes mp -> density <> 0%R ->
  weighted_macroscopic_cross_section (mkTrackData (K := Rops) dt nd' mats) i density g = Ok (density * normal_total mp)%R.
Proof. exact material_total. Qed.
Print Assumptions c20_material_total.

Example c20_example : (exists nd mats, built_nuclear = Ok (nd, mats)) /\ first_from_one bounds 0 /\
  Forall (fun mp => weight_sum mp <> 0%R) [mp_fuel; mp_wall] /\ 3 <= mp_n_reactions mp_fuel.
Proof. split; [exact demo_built|]. split; [exact bounds_one|]. split; [exact demo_weights|discriminate]. Qed.

(** When no boundary (but the first) reaches 1 MeV the normalisation divides by zero: in binary64, whatever the
    mathematical library, no cross-section of the isotope is finite. *)
Theorem c20_below_one_not_finite : forall lm (nd nd' : nuclear_data (f64ops lm)) xs mp nu gid, add_isotope nd xs mp nu = Ok (nd', gid) ->
  Forall (fun e : F (f64ops lm) => fle f1 e = false) (tl (nd_energies nd)) ->
  exists rs, nth_error (nd_isotopes nd') (N.to_nat gid) = Some rs /\ List.length rs = N.to_nat (mp_n_reactions mp) /\
    Forall (fun r : reaction (f64ops lm) => List.length (r_cross_section r) = (List.length (nd_energies nd) - 1)%nat /\
       Forall (fun x : F (f64ops lm) => is_finite (x : f64) = false) (r_cross_section r)) rs.
Proof. exact isotope_never_finite. Qed.
Print Assumptions c20_below_one_not_finite.

Example c20_below_example : exists nd' gid, add_isotope (K := K64) (mkNuclear (K := K64) 1 [] [f64_lit (1 # 4); f64_lit (1 # 2)])
   [("flat"%string, mkPoly (K := K64) f0 f0 f0 f0 f1)] (mkMatParams (K := K64) "fuel" f1 f1 1 3 f1 "flat" "flat" "flat" f1 f1 f1) f1 = Ok (nd', gid) /\
   Forall (fun e : F K64 => fle f1 e = false) (tl [f64_lit (1 # 4); f64_lit (1 # 2)]).
Proof. exact demo_below. Qed.

(** ** C21: partner of a collision *)

(** The total cross-section is the sum of those of the partners. *)
Theorem c21_total_is_sum : forall (td : track_data Rops) (density : R) group, density <> 0%R -> forall mat mat_gid,
  vec_get (td_mats td) mat_gid = Ok mat -> material_data (td_nuclear td) group (mat_iso mat) ->
  weighted_macroscopic_cross_section td mat_gid density group =
    Ok (Rsum (map (sigma density group) (partners (td_nuclear td) (mat_iso mat)))).
Proof. exact total_is_sum. Qed.
Print Assumptions c21_total_is_sum.

(** A collision of a particle with the total cross-section of its cell ends after at most two passes over
    the partners; the threshold falls in the interval of the partner, which has a positive cross-section. *)
Theorem c21_collision_partner : forall fuel (td : track_data Rops) b mat_gid mat (density : R) (p : particle Rops) extra,
  (2 <= fuel)%nat -> density <> 0%R -> vec_get (td_mats td) mat_gid = Ok mat ->
  material_data (td_nuclear td) (p_energy_group p) (mat_iso mat) ->
  Forall (fun pr => 0 <= sigma density (p_energy_group p) pr)%R (partners (td_nuclear td) (mat_iso mat)) ->
  weighted_macroscopic_cross_section td mat_gid density (p_energy_group p) = Ok (p_total_cross_section p) ->
  (0 < p_total_cross_section p)%R ->
  exists k iso r, nth_error (partners (td_nuclear td) (mat_iso mat)) k = Some (iso, r) /\
    (0 < sigma density (p_energy_group p) (iso, r))%R /\
    falls_in (map (sigma density (p_energy_group p)) (partners (td_nuclear td) (mat_iso mat))) (p_total_cross_section p * next_draw p) k /\
    collision_event fuel td b mat_gid density p extra =
      (do (n, q, sec) <- sample_collision (snd (draw p)) r (mat_mass mat) ;
       Ok ((1 <=? n), q, tally_collision b (r_type r) n, extra ++ sec)).
Proof. exact collision_partner. Qed.
Print Assumptions c21_collision_partner.

(** There is only one such partner. *)
Theorem c21_partner_unique : forall ws, Forall (fun w => 0 <= w)%R ws -> forall t k k', falls_in ws t k -> falls_in ws t k' -> k = k'.
Proof. exact falls_in_once. Qed.
Print Assumptions c21_partner_unique.

(** A draw in [0, 1) gives partner [k] exactly when it lies in an interval whose length is the
    share of [k] in the total. *)
Theorem c21_partner_share : forall (ws : list R) k r, Forall (fun w => 0 <= w)%R ws -> (0 < Rsum ws)%R -> (0 <= r < 1)%R ->
  (falls_in ws (Rsum ws * r) k <-> Rsum (firstn k ws) / Rsum ws <= r < Rsum (firstn (S k) ws) / Rsum ws)%R.
Proof. exact partner_share. Qed.
Print Assumptions c21_partner_share.

(** If all partners have a zero cross-section the search never ends. *)
Theorem c21_all_zero_loops : forall (td : track_data Rops) (density : R) group, density <> 0%R -> forall mat mat_gid,
  vec_get (td_mats td) mat_gid = Ok mat -> material_data (td_nuclear td) group (mat_iso mat) ->
  Forall (fun pr => sigma density group pr = 0%R) (partners (td_nuclear td) (mat_iso mat)) ->
  forall fuel t, (0 <= t)%R -> pick_loop fuel td mat_gid density group t = NoFuel.
Proof. exact pick_loop_zero. Qed.
Print Assumptions c21_all_zero_loops.

Example c21_example : exists mat, vec_get (td_mats collide_td) 0 = Ok mat /\
  material_data (td_nuclear collide_td) (p_energy_group collider) (mat_iso mat) /\
  Forall (fun pr => 0 <= sigma 1 (p_energy_group collider) pr)%R (partners (td_nuclear collide_td) (mat_iso mat)) /\
  weighted_macroscopic_cross_section collide_td 0 1%R (p_energy_group collider) = Ok (p_total_cross_section collider) /\
  (0 < p_total_cross_section collider)%R.
Proof.
  eexists. split; [reflexivity|]. split; [exact collide_data|]. split; [exact collide_positive|]. split; [exact collide_total|cbn; lra].
Qed.

(** ** C22: outcome of a collision *)

Theorem c22_scatter : forall (p : particle Rops) r (m : R), r_type r = Scatter ->
  exists q, sample_collision p r m = Ok (1, q, []) /\ same_place p q /\
    p_kinetic_energy q = (p_kinetic_energy p * (1 - next_draw p * (1 / m)))%R /\
    ((0 <= p_kinetic_energy p)%R -> (0 < m)%R ->
      (p_kinetic_energy q <= p_kinetic_energy p)%R /\ ((1 <= m)%R -> (0 <= p_kinetic_energy q)%R)).
Proof. exact scatter_all. Qed.
Print Assumptions c22_scatter.

Theorem c22_absorption : forall (K : FloatOps) (p : particle K) r m, r_type r = Absorption -> sample_collision p r m = Ok (0, p, []).
Proof. exact @absorption_none. Qed.
Print Assumptions c22_absorption.

Theorem c22_fission : forall (p : particle Rops) (r : reaction Rops) (m : R), r_type r = Fission -> (0 <= r_nu_bar r)%R ->
  let x := (r_nu_bar r + next_draw p)%R in
  ((x < 1)%R -> exists q, sample_collision p r m = Ok (0, q, []) /\ same_place p q) /\
  ((1 <= x < 5)%R -> exists q sec, sample_collision p r m = Ok (Z.to_N (Zfloor x), q, sec) /\
     Z.of_nat (List.length sec) = (Zfloor x - 1)%Z /\
     Forall (fun y : particle Rops => same_place p y /\ (5 <= p_kinetic_energy y <= 20)%R) (q :: sec)) /\
  ((5 <= x)%R -> sample_collision p r m = Panic).
Proof. exact fission_real. Qed.
Print Assumptions c22_fission.

Example c22_example : r_type fission_only = Fission /\ (0 <= r_nu_bar fission_only)%R /\
  (1 <= r_nu_bar fission_only + next_draw collider < 5)%R /\ r_type scatter_only = Scatter /\ (0 <= p_kinetic_energy collider)%R.
Proof.
  pose proof (SegmentFacts.draw_unit collider). split; [reflexivity|]. split; [cbn; lra|].
  split; [change (r_nu_bar fission_only) with (24 / 10)%R; lra|]. split; [reflexivity|cbn; lra].
Qed.

(** A mass below one is accepted, and then scattering can leave a negative energy. *)
Theorem c22_light_material_negative : forall (p : particle Rops) (r : reaction Rops) (m : R), r_type r = Scatter -> (0 < m < 1)%R ->
  (0 < p_kinetic_energy p)%R ->
  exists s q, s < two64 /\ sample_collision (set_random_number_seed p s) r m = Ok (1, q, []) /\ (p_kinetic_energy q < 0)%R.
Proof. exact light_material. Qed.
Print Assumptions c22_light_material_negative.

Example c22_light_example : r_type scatter_only = Scatter /\ (0 < 1 / 2 < 1)%R /\ (0 < p_kinetic_energy collider)%R.
Proof. split; [reflexivity|]. cbn. lra. Qed.

(** ** C02 again: random states of the particles that leave a collision, in any arithmetic *)
Theorem c02_collision_random_states : forall (K : FloatOps) (p : particle K) r m n q sec,
  sample_collision p r m = Ok (n, q, sec) -> own_random_states p (r_type r) n q sec.
Proof. exact @collision_identities. Qed.
Print Assumptions c02_collision_random_states.

(** A fission that gives three or four particles out. *)
Example c02_collision_example : match sample_collision (K := K64) particle_default (mkReaction (K := K64) [] Fission (f64_lit (3 # 1))) (f64_lit (1 # 1)) with
  | Ok (n, q, sec) => (3 <=? n) && (2 <=? List.length sec)%nat && negb (existsb (N.eqb (p_random_number_seed q)) (map p_random_number_seed sec))
  | _ => false end = true.
Proof. vm_compute. reflexivity. Qed.
