(** Vocabulary for the claim that what the problem excludes does not happen (C66). *)
From Coq Require Import NArith List Bool.
From Verif Require Import Float ParticleModel NuclearModel MeshTypes Balance TrackModel CycleModel.
Import ListNotations.
Local Open Scope N_scope.

(** The counters that tell of a kind of reaction. *)
Definition tells_of (k : reaction_type) : list tallied_event :=
  match k with Scatter => [EScatter] | Absorption => [EAbsorb] | Fission => [EFission; EProduce] end.

Section Exclude.
Context {K : FloatOps}.

(** [iso] is an isotope of the material of cell [cs]. *)
Definition isotope_of (td : track_data K) (cs : cell_state K) (iso : isotope K) : Prop :=
  exists mat, nth_error (td_mats td) (N.to_nat (cs_material cs)) = Some mat /\ In iso (mat_iso mat).
(** [r] is a reaction of the material of cell [cs]. *)
Definition reaction_of (td : track_data K) (cs : cell_state K) (r : reaction K) : Prop :=
  exists iso rs, isotope_of td cs iso /\ nth_error (nd_isotopes (td_nuclear td)) (N.to_nat (iso_gid iso)) = Some rs /\ In r rs.

(** In cell [cs] the cross-sections of all the reactions of kind [k] are zero. *)
Definition inert (td : track_data K) (cs : cell_state K) (k : reaction_type) : Prop :=
  forall r, reaction_of td cs r -> r_type r = k -> Forall (fun x => feq x f0 = true) (r_cross_section r).
(** Neither the density of the cell nor the fraction of one of its isotopes is zero. *)
Definition dense (td : track_data K) (cs : cell_state K) : Prop :=
  forall iso, isotope_of td cs iso -> feq (iso_atom_fraction iso) f0 = false /\ feq (cs_number_density cs) f0 = false.

(** Everywhere. *)
Definition excluded (td : track_data K) (dom : domain K) (k : reaction_type) : Prop :=
  Forall (fun cs => dense td cs /\ inert td cs k) (d_cells dom).
(** No facet lets particles out. *)
Definition closed (m : mesh K) : Prop :=
  forall conn fa, In conn (me_conn m) -> In fa (cc_facet conn) -> fa_event fa <> BoundaryEscape.

(** All the rows of a run, and its totals. *)
Definition all_rows (s : sim K) : list balance := rs_balance (s_results s) :: map rp_balance (s_reports s).

(** The share of the reactions of kind [k] that a material asks for. *)
Definition ratio_of (k : reaction_type) (mp : material_params K) : F K :=
  match k with Scatter => mp_scattering_ratio mp | Absorption => mp_absorption_ratio mp | Fission => mp_fission_ratio mp end.

End Exclude.

(** Taking away a multiple of zero from what is not negative leaves what is not negative. *)
Definition zero_takes_nothing (K : FloatOps) : Prop :=
  forall c x y : F K, feq y f0 = true -> flt x f0 = false -> flt (fsub x (fmul c y)) f0 = false.
