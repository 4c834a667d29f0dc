(** Claim C62: the laws of the samples, counted over all the 2^64 seeds, in exact arithmetic unless said otherwise. *)
From Coq Require Import NArith ZArith QArith Qreals List Bool Reals Lra Lia String.
From Flocq Require Import Core IEEE754.BinarySingleNaN.
From Verif Require Import Float RealOps RngModel RngIeee ParticleModel NuclearModel MeshTypes Balance TrackModel CycleModel GridModel MeshModel
  GridSpec MeshSpec PopSpec GeomSpec NuclearSpec PartnerLemmas NuclearDemo GeomDemo LawSpec LawCount LawFacts LawAngle.
Import ListNotations.
Local Open Scope R_scope.

(** ** The vocabulary *)
(** A property has one count, and all the seeds are 2^64. *)
Theorem c62_counting : (forall P n m, counts P n -> counts P m -> n = m) /\ counts (fun _ => True) (2 ^ 64).
Proof. exact (conj counts_once counts_all). Qed.
Print Assumptions c62_counting.

(** ** The generator *)
(** In binary64, the sample is at most [x] for a share [x] of the seeds. *)
Theorem c62_uniform : forall x, 0 <= x <= 1 -> share_is (fun s => B2R (fst (rng_sample_f64 s)) <= x) x ulp53.
Proof. exact uniform_f64. Qed.
Print Assumptions c62_uniform.

(** ... and so a share of [1/3] is neither [0] nor [1/2]. *)
Example c62_uniform_case : share_is (fun s => B2R (fst (rng_sample_f64 s)) <= 1 / 3) (1 / 3) ulp53 /\
  ~ share_is (fun s => B2R (fst (rng_sample_f64 s)) <= 1 / 3) (1 / 2) ulp53.
Proof.
  split; [apply uniform_f64; lra|]. destruct (uniform_f64 (1 / 3)) as (n & C & B); [lra|]. intros (m & C' & B').
  rewrite (counts_once _ _ _ C' C) in B'. assert (U : ulp53 < 1 / 100).
  { unfold ulp53. apply Rlt_le_trans with (/ 100); [apply Rinv_lt_contravar; [apply Rmult_lt_0_compat; [lra|apply IZR_lt; reflexivity]|apply IZR_lt; reflexivity]|lra]. }
  apply Rabs_le_inv in B, B'. lra.
Qed.

(** ** Free paths *)
(** The number of mean free paths follows the exponential law. *)
Theorem c62_free_path : forall (p : particle Rops) t, 0 <= t ->
  share_is (fun s => t < p_num_mean_free_paths (sample_num_mfp (seeded p s))) (exp (- t)) ulp52.
Proof. exact free_paths. Qed.
Print Assumptions c62_free_path.

Example c62_free_path_case : share_is (fun s => 1 < p_num_mean_free_paths (sample_num_mfp (seeded collider s))) (exp (- 1)) ulp52.
Proof. apply free_paths. lra. Qed.

(** ** Population control *)
(** A particle survives the russian roulette for a share of the seeds equal to the factor, ... *)
Theorem c62_roulette : forall (p : particle Rops) f, 0 <= f <= 1 ->
  share_is (fun s => fst (over_populated_rr (seeded p s) f) = true) f ulp53.
Proof. exact roulette_share. Qed.
Print Assumptions c62_roulette.

(** ... the one on low weights for a share equal to the cutoff, ... *)
Theorem c62_low_weight : forall (p : particle Rops) cutoff sw, 0 <= cutoff <= 1 -> p_weight p <= cutoff * sw ->
  share_is (fun s => fst (low_weight_rr (seeded p s) cutoff sw) = true) cutoff ulp53.
Proof. exact low_weight_share. Qed.
Print Assumptions c62_low_weight.

(** ... and a split gives one particle more than the whole part of the factor for a share equal to its fractional part. *)
Theorem c62_split : forall (p : particle Rops) f, 1 <= f < IZR (2 ^ 64) ->
  share_is (fun s => exists q l, under_populated_split (seeded p s) f = Ok (q, l) /\ Z.of_nat (List.length (q :: l)) = (Zfloor f + 1)%Z) (f - IZR (Zfloor f)) ulp53 /\
  share_is (fun s => exists q l, under_populated_split (seeded p s) f = Ok (q, l) /\ Z.of_nat (List.length (q :: l)) = Zfloor f) (1 - (f - IZR (Zfloor f))) ulp53.
Proof. exact split_share. Qed.
Print Assumptions c62_split.

Example c62_control_case : 0 <= 1 / 4 <= 1 /\ p_weight (set_weight collider (1 / 100 : F Rops)) <= 1 / 4 * 2 /\ 1 <= 5 / 2 < IZR (2 ^ 64) /\ Zfloor (5 / 2) = 2%Z.
Proof.
  split; [lra|]. split; [cbn; lra|]. split; [split; [lra|apply Rlt_trans with 3; [lra|apply IZR_lt; reflexivity]]|].
  apply Zfloor_imp. change (2 + 1)%Z with 3%Z. lra.
Qed.

(** ** Directions *)
(** The third component of a sampled direction is uniform between -1 and 1, ... *)
Theorem c62_isotropic : forall (p : particle Rops) c, -1 <= c <= 1 ->
  share_is (fun s => vz (p_direction (sample_isotropic (seeded p s))) <= c) ((1 + c) / 2) ulp53.
Proof. exact isotropic_share. Qed.
Print Assumptions c62_isotropic.

(** ... and so is its angle around the vertical. *)
Theorem c62_azimuth : forall (p : particle Rops) psi, - PI < psi < PI ->
  share_is (fun s => let u := p_direction (sample_isotropic (seeded p s)) in in_sector (- PI) psi (vx u) (vy u)) ((psi + PI) / (2 * PI)) ulp51.
Proof. exact isotropic_azimuth. Qed.
Print Assumptions c62_azimuth.

(** A sector is not the whole plane: a quarter of it does not contain the point [(1, 0)]. *)
Example c62_azimuth_case : - PI < - PI / 2 < PI /\ in_sector (- PI) (- PI / 2) (-1) (-1) /\ ~ in_sector (- PI) (- PI / 2) 1 0.
Proof.
  pose proof PI_RGT_0 as Pi. split; [lra|]. split.
  - exists (sqrt 2), (- (3 * (PI / 4))). split; [apply Rlt_sqrt2_0|]. split; [lra|]. rewrite cos_neg, sin_neg, cos_3PI4, sin_3PI4.
    assert (S2 : sqrt 2 <> 0) by (pose proof Rlt_sqrt2_0; lra). split; field; exact S2.
  - intros (rho & phi & Hr & Hp & Ec & Es). assert (C : cos phi <= 0).
    { rewrite <- cos_neg. apply cos_le_0; lra. }
    nra.
Qed.

(** ** Scattering *)
(** The energy kept is uniform between [1 - 1/m] and [1] times the energy, ... *)
Theorem c62_scatter_energy : forall (p : particle Rops) (r : reaction Rops) (m y : R), r_type r = Scatter -> 0 < m -> 0 < p_kinetic_energy p -> 0 <= y <= 1 ->
  share_is (fun s => exists q, sample_collision (seeded p s) r m = Ok (1%N, q, []) /\ p_kinetic_energy p * (1 - y / m) <= p_kinetic_energy q) y ulp53.
Proof. exact scatter_energy_share. Qed.
Print Assumptions c62_scatter_energy.

(** ... the cosine of the angle with the old direction is uniform between -1 and 1, ... *)
Theorem c62_scatter_angle : forall (p : particle Rops) (r : reaction Rops) (m c : R), r_type r = Scatter -> unit_vec (p_direction p) ->
  off_axis (p_direction p) = 0 \/ 1 / 1000000 <= off_axis (p_direction p) -> -1 <= c <= 1 ->
  share_is (fun s => exists q, sample_collision (seeded p s) r m = Ok (1%N, q, []) /\ dot (p_direction q) (p_direction p) <= c) ((1 + c) / 2) ulp53.
Proof. exact scatter_angle_share. Qed.
Print Assumptions c62_scatter_angle.

(** ... and so is the angle around the old direction. *)
Theorem c62_scatter_azimuth : forall (p : particle Rops) (r : reaction Rops) (m psi : R), r_type r = Scatter -> unit_vec (p_direction p) ->
  1 / 1000000 <= off_axis (p_direction p) -> 0 < psi < 2 * PI ->
  share_is (fun s => exists q, sample_collision (seeded p s) r m = Ok (1%N, q, []) /\
    in_sector 0 psi (dot (p_direction q) (upright (p_direction p))) (dot (p_direction q) (sideways (p_direction p)))) (psi / (2 * PI)) ulp51.
Proof. exact scatter_azimuth. Qed.
Print Assumptions c62_scatter_azimuth.

(** The two directions it is measured against form an orthonormal frame with the old one. *)
Theorem c62_frame : forall u : vec Rops, unit_vec u -> 0 < off_axis u ->
  unit_vec (upright u) /\ unit_vec (sideways u) /\ dot u (upright u) = 0 /\ dot u (sideways u) = 0 /\ dot (upright u) (sideways u) = 0.
Proof. exact frame_orthonormal. Qed.
Print Assumptions c62_frame.

(** A particle of that kind. *)
Example c62_scatter_case : let p := set_direction collider (mkVec (K := Rops) (3 / 5) 0 (4 / 5)) in
  r_type scatter_only = Scatter /\ 0 < p_kinetic_energy p /\ unit_vec (p_direction p) /\ 1 / 1000000 <= off_axis (p_direction p) /\ 0 < PI < 2 * PI.
Proof.
  cbv zeta. pose proof PI_RGT_0 as Pi. destruct off_axis_case as [U O]. split; [reflexivity|]. split; [cbn; lra|]. split; [exact U|]. split; [|lra].
  change (p_direction (set_direction _ ?u)) with u. rewrite O. lra.
Qed.

(** ** Fission *)
(** The number of particles out of a fission is [nu_bar] on average: one of the two nearest whole numbers, in the right shares. *)
Theorem c62_fission_number : forall (p : particle Rops) (r : reaction Rops) (m : R), r_type r = Fission -> 0 <= r_nu_bar r < 4 ->
  let k := Zfloor (r_nu_bar r) in let x := r_nu_bar r - IZR k in
  share_is (fun s => exists q sec, sample_collision (seeded p s) r m = Ok (Z.to_N (k + 1), q, sec)) x ulp53 /\
  share_is (fun s => exists q sec, sample_collision (seeded p s) r m = Ok (Z.to_N k, q, sec)) (1 - x) ulp53.
Proof. exact fission_number_share. Qed.
Print Assumptions c62_fission_number.

(** The law of the energy after it. *)
Theorem c62_fission_energy : forall (p : particle Rops) (r : reaction Rops) (m e : R), r_type r = Fission -> 1 <= r_nu_bar r < 4 -> 5 <= e <= 20 ->
  share_is (fun s => exists n q sec, sample_collision (seeded p s) r m = Ok (n, q, sec) /\ p_kinetic_energy q <= e) (2 * sqrt (e / 20) - 1) ulp53.
Proof. exact fission_energy_share. Qed.
Print Assumptions c62_fission_energy.

Example c62_fission_case : r_type fission_only = Fission /\ 1 <= r_nu_bar fission_only < 4 /\ Zfloor (r_nu_bar fission_only) = 2%Z.
Proof. split; [reflexivity|]. cbn [r_nu_bar fission_only]. split; [lra|]. apply Zfloor_imp. change (2 + 1)%Z with 3%Z. lra. Qed.

(** ** Partners of a collision *)
(** The collision is with the partner [k] for a share of the seeds equal to its part of the total cross-section. *)
Theorem c62_partner : forall fuel (td : track_data Rops) b mat_gid mat density (p : particle Rops) extra k iso r,
  (2 <= fuel)%nat -> density <> 0 -> vec_get (td_mats td) mat_gid = Ok mat ->
  material_data (td_nuclear td) (p_energy_group p) (mat_iso mat) ->
  Forall (fun pr => 0 <= sigma density (p_energy_group p) pr) (partners (td_nuclear td) (mat_iso mat)) ->
  weighted_macroscopic_cross_section td mat_gid density (p_energy_group p) = Ok (p_total_cross_section p) ->
  0 < p_total_cross_section p ->
  nth_error (partners (td_nuclear td) (mat_iso mat)) k = Some (iso, r) ->
  share_is (fun s => falls_in (map (sigma density (p_energy_group p)) (partners (td_nuclear td) (mat_iso mat))) (p_total_cross_section p * next_draw (seeded p s)) k /\
      collision_event fuel td b mat_gid density (seeded p s) extra =
      (do (n, q, sec) <- sample_collision (snd (draw (seeded p s))) r (mat_mass mat) ;
       Ok ((1 <=? n)%N, q, tally_collision b (r_type r) n, extra ++ sec)))
    (sigma density (p_energy_group p) (iso, r) / p_total_cross_section p) ulp52.
Proof. exact partner_law. Qed.
Print Assumptions c62_partner.

Example c62_partner_case : exists mat iso r, vec_get (td_mats collide_td) 0 = Ok mat /\
  material_data (td_nuclear collide_td) (p_energy_group collider) (mat_iso mat) /\
  Forall (fun pr => 0 <= sigma 1 (p_energy_group collider) pr) (partners (td_nuclear collide_td) (mat_iso mat)) /\
  weighted_macroscopic_cross_section collide_td 0 1 (p_energy_group collider) = Ok (p_total_cross_section collider) /\
  0 < p_total_cross_section collider /\ nth_error (partners (td_nuclear collide_td) (mat_iso mat)) 2 = Some (iso, r) /\
  0 < sigma 1 (p_energy_group collider) (iso, r) < p_total_cross_section collider.
Proof.
  eexists _, _, _. split; [reflexivity|]. split; [exact collide_data|]. split; [exact collide_positive|]. split; [exact collide_total|].
  split; [cbn; lra|]. split; [reflexivity|]. unfold sigma; cbn; lra.
Qed.

(** ** The source *)
(** Over all the values of the counter of a cell: direction, energy, time to census and free paths of the particle created. *)
Theorem c62_source : forall (g : grid Rops) bc pt geoms mats dom, built_domain g bc pt geoms mats dom -> sized g ->
  forall (md : mcdata Rops) (w : R) i, (i < List.length (d_cells dom))%nat ->
  let created := source_particle md w dom (N.of_nat i) (g_dx g * g_dy g * g_dz g) in
  let lo := sp_e_min (mc_params md) in let hi := sp_e_max (mc_params md) in let dt := td_dt (mc_track md) in
  (forall c, -1 <= c <= 1 -> share_is (fun x => exists p, created x = Ok p /\ vz (p_direction p) <= c) ((1 + c) / 2) ulp53) /\
  (forall y, 0 <= y <= 1 -> lo < hi -> share_is (fun x => exists p, created x = Ok p /\ p_kinetic_energy p <= lo + y * (hi - lo)) y ulp53) /\
  (forall y, 0 <= y <= 1 -> 0 < dt -> share_is (fun x => exists p, created x = Ok p /\ p_time_to_census p <= y * dt) y ulp53) /\
  (forall t, 0 <= t -> share_is (fun x => exists p, created x = Ok p /\ t < p_num_mean_free_paths p) (exp (- t)) ulp52).
Proof. exact source_law. Qed.
Print Assumptions c62_source.

Example c62_source_case : exists p dom, built_domain box "octant" p box_geoms box_mats dom /\ sized box /\ (23 < List.length (d_cells dom))%nat.
Proof.
  destruct box_source as (p & dom & _ & _ & _ & D & _). exists p, dom. split; [exact D|]. split; [exact box_sized|].
  rewrite (SourcePoint.domain_size _ _ _ _ _ _ D). change (N.to_nat (total_cells (g_dims box))) with 24%nat. lia.
Qed.
