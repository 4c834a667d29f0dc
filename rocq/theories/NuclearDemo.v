(** Concrete cases for the claims about nuclear data and collisions. *)
From Coq Require Import NArith ZArith QArith Qreals List Bool String Reals Lra Lia Sorted.
From Flocq Require Import Core IEEE754.BinarySingleNaN.
From Verif Require Import Float RngModel RngIeee Ieee RealOps ParticleModel NuclearModel MeshTypes Balance TrackModel CycleModel
  PopSpec NuclearSpec NuclearFacts NuclearReal NuclearIeee PartnerLemmas OutcomeLemmas.
Import ListNotations.
Local Open Scope R_scope.

(** Three groups: from 1/2 to 2, to 3, to 10. *)
Definition bounds : list R := [1 / 2; 2; 3; 10].
(** A constant cross-section. *)
Definition flat : polynomial Rops := mkPoly (K := Rops) 0 0 0 0 1.
(** Two materials: four reactions of two isotopes, two reactions of one. *)
Definition mp_fuel : material_params Rops := mkMatParams (K := Rops) "fuel" 12 1 2 4 6 "flat" "flat" "flat" 1 2 3.
Definition mp_wall : material_params Rops := mkMatParams (K := Rops) "wall" 20 0 1 2 8 "flat" "flat" "flat" 1 0 3.
Definition built_nuclear : result (nuclear_data Rops * list (material Rops)) :=
  init_materials [mp_fuel; mp_wall] (mkNuclear (K := Rops) 3 [] bounds) [("flat"%string, flat)] [("flat"%string, 2 : F Rops)].

Lemma bounds_increasing : increasing (fun x : R => x) bounds.
Proof. apply increasing_steps. intros [|[|[|[|i]]]] a b Ha Hb; cbn in Ha, Hb; try discriminate; try (destruct i; discriminate); injection Ha as <-; injection Hb as <-; lra. Qed.

Lemma bounds_one : first_from_one bounds 0.
Proof. split; [exists 2; split; [reflexivity|lra]|]. intros j x Hj _. lia. Qed.

Lemma demo_built : exists nd mats, built_nuclear = Ok (nd, mats).
Proof. eexists. eexists. unfold built_nuclear. cbn [init_materials]. reflexivity. Qed.

Lemma demo_weights : Forall (fun mp => weight_sum mp <> 0) [mp_fuel; mp_wall].
Proof. repeat constructor; unfold weight_sum; cbn; lra. Qed.

(** *** A collision *)

(** Scattering and absorption are possible, fission is not, in the only group. *)
Definition reactions3 : list (reaction Rops) :=
  [mkReaction (K := Rops) [1] Scatter 2; mkReaction (K := Rops) [0] Fission 2; mkReaction (K := Rops) [3] Absorption 2].
Definition collide_td : track_data Rops :=
  mkTrackData (K := Rops) 1 (mkNuclear (K := Rops) 1 [reactions3] [1; 2]) [mkMaterial (K := Rops) "fuel" 12 [mkIsotope (K := Rops) 0 1]].
Definition collider : particle Rops := set_total_cross_section (set_kinetic_energy particle_default (3 / 2 : F Rops)) (4 : F Rops).

Lemma collide_data : material_data (td_nuclear collide_td) 0 [mkIsotope (K := Rops) 0 1].
Proof. constructor; [|constructor]. split; [cbn; lra|]. exists reactions3. split; [reflexivity|]. repeat constructor. Qed.

Lemma collide_positive : Forall (fun pr => 0 <= sigma 1 0 pr) (partners (td_nuclear collide_td) [mkIsotope (K := Rops) 0 1]).
Proof. cbn [partners flat_map]. repeat constructor; unfold sigma; cbn; lra. Qed.

Lemma collide_total : weighted_macroscopic_cross_section collide_td 0 1 0 = Ok (p_total_cross_section collider).
Proof.
  rewrite (total_is_sum collide_td 1 0%N R1_neq_R0 (mkMaterial (K := Rops) "fuel" 12 [mkIsotope (K := Rops) 0 1]) 0%N eq_refl collide_data).
  apply (f_equal (@Ok R)). unfold Rsum, sigma. cbn. lra.
Qed.

Definition fission_only : reaction Rops := mkReaction (K := Rops) [1] Fission (24 / 10).
Definition scatter_only : reaction Rops := mkReaction (K := Rops) [1] Scatter 0.

(** *** Binary64 *)

Definition bounds64 : list f64 := [f64_lit (1 # 2); f64_lit (2 # 1); f64_lit (3 # 1)].
Lemma bounds64_finite : Forall (finite64 approx_libm) bounds64.
Proof. repeat constructor. Qed.
Lemma bounds64_increasing : increasing (value64 approx_libm) bounds64.
Proof.
  assert (L : forall q r, is_finite (f64_lit q) = true -> is_finite (f64_lit r) = true -> Bltb (f64_lit q) (f64_lit r) = true ->
    value64 approx_libm (f64_lit q) < value64 approx_libm (f64_lit r)).
  { intros q r Hq Hr H. apply ltb_iff64; assumption. }
  unfold increasing, bounds64. repeat constructor; apply L; reflexivity.
Qed.

(** All boundaries below one. *)
Lemma demo_below : exists nd' gid, add_isotope (K := K64) (mkNuclear (K := K64) 1 [] [f64_lit (1 # 4); f64_lit (1 # 2)])
   [("flat"%string, mkPoly (K := K64) f0 f0 f0 f0 f1)] (mkMatParams (K := K64) "fuel" f1 f1 1 3 f1 "flat" "flat" "flat" f1 f1 f1) f1 = Ok (nd', gid) /\
   Forall (fun e : F K64 => fle f1 e = false) (tl [f64_lit (1 # 4); f64_lit (1 # 2)]).
Proof. eexists. eexists. split; [unfold add_isotope; cbn [map_index map_get String.eqb Ascii.eqb Bool.eqb unwrap rbind mp_fission_cross_section mp_scattering_cross_section mp_absorption_cross_section]; reflexivity|]. repeat constructor. Qed.
