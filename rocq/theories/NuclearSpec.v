(** Vocabulary for the claims about nuclear data: energy groups, reactions of an isotope, choice of
    the partner of a collision. *)
From Coq Require Import NArith ZArith QArith List Bool Reals String Sorted.
From Verif Require Import Float RealOps ParticleModel NuclearModel TrackModel PopSpec.
Import ListNotations.
Local Open Scope N_scope.

(** ** Energy groups *)

(** The boundaries are strictly increasing; [val] is the value of a float. *)
Definition increasing {A} (val : A -> R) (es : list A) : Prop := StronglySorted (fun a b => val a < val b)%R es.

(** [e] lies in group [g] of the boundaries [es]: from its lower boundary, included, to its
    upper boundary, which only the last group includes. *)
Definition in_group {A} (val : A -> R) (es : list A) (e : A) (g : N) : Prop :=
  exists lo hi, nth_error es (N.to_nat g) = Some lo /\ nth_error es (S (N.to_nat g)) = Some hi /\
    (val lo <= val e)%R /\
    ((val e < val hi)%R \/ (val e = val hi /\ List.length es = S (S (N.to_nat g)))).

(** ** Reactions of an isotope *)

(** The kind of the reaction at position [i]. *)
Definition kind_at (i : nat) : reaction_type :=
  match (i mod 3)%nat with O => Scatter | 1%nat => Fission | _ => Absorption end.
Definition is_kind (k : reaction_type) {K : FloatOps} (r : reaction K) : bool :=
  match k, r_type r with
  | Scatter, Scatter | Fission, Fission | Absorption, Absorption => true
  | _, _ => false
  end.

Section Spec.
Context {K : FloatOps}.

Definition how_many (k : reaction_type) (rs : list (reaction K)) : nat := List.length (filter (is_kind k) rs).

(** [rs] are [n] reactions, scattering, fission and absorption in turn, each with [nu_bar] and one
    cross-section per group. *)
Definition reaction_mix (n groups : nat) (nu_bar : F K) (rs : list (reaction K)) : Prop :=
  List.length rs = n /\
  (forall i r, nth_error rs i = Some r ->
    r_type r = kind_at i /\ r_nu_bar r = nu_bar /\ List.length (r_cross_section r) = groups) /\
  how_many Scatter rs = ((n + 2) / 3)%nat /\ how_many Fission rs = ((n + 1) / 3)%nat /\ how_many Absorption rs = (n / 3)%nat.

(** [mat] is built for the parameters [mp] in [nd]: the isotopes number [mp_n_isotopes], they have equal atom
    fractions and the reactions that [mp] asks for. *)
Definition material_for (nd : nuclear_data K) (nu_bars : list (string * F K)) (mp : material_params K) (mat : material K) : Prop :=
  mat_name mat = mp_name mp /\ mat_mass mat = mp_mass mp /\
  List.length (mat_iso mat) = N.to_nat (mp_n_isotopes mp) /\
  Forall (fun iso => iso_atom_fraction iso = fdiv f1 (fof_N (mp_n_isotopes mp)) /\
    exists rs nu, map_get nu_bars (mp_fission_cross_section mp) = Some nu /\
      nth_error (nd_isotopes nd) (N.to_nat (iso_gid iso)) = Some rs /\
      reaction_mix (N.to_nat (mp_n_reactions mp)) (List.length (nd_energies nd) - 1) nu rs) (mat_iso mat).

End Spec.

(** The first group with an upper boundary of at least one (the normalisation energy, 1 MeV). *)
Definition first_from_one (es : list R) (g : nat) : Prop :=
  (exists hi, nth_error es (S g) = Some hi /\ 1 <= hi)%R /\
  (forall j x, (j < g)%nat -> nth_error es (S j) = Some x -> (x < 1)%R).

(** The share of the total cross-section that belongs to the kinds of reactions that occur. *)
Definition present (n : N) (mp : material_params Rops) : R :=
  ((if (1 <=? n)%N then mp_scattering_ratio mp else 0)
   + (if (2 <=? n)%N then mp_fission_ratio mp else 0)
   + (if (3 <=? n)%N then mp_absorption_ratio mp else 0))%R.

(** The sum of the three ratios, and the total cross-section of the kinds that occur. *)
Definition weight_sum (mp : material_params Rops) : R := (mp_scattering_ratio mp + mp_fission_ratio mp + mp_absorption_ratio mp)%R.
Definition normal_total (mp : material_params Rops) : R :=
  (mp_total_cross_section mp * present (mp_n_reactions mp) mp / weight_sum mp)%R.

(** ** Choice of a partner *)

Section Partner.
Variable nd : nuclear_data Rops.
Variables (density : R) (group : N).

(** The pairs (isotope, reaction) of a material, in order. *)
Definition partners (isos : list (isotope Rops)) : list (isotope Rops * reaction Rops) :=
  flat_map (fun iso => match nth_error (nd_isotopes nd) (N.to_nat (iso_gid iso)) with
                       | Some rs => map (pair iso) rs
                       | None => []
                       end) isos.
(** The macroscopic cross-section of a pair. *)
Definition sigma (pr : isotope Rops * reaction Rops) : R :=
  (iso_atom_fraction (fst pr) * density * nth (N.to_nat group) (r_cross_section (snd pr)) 0)%R.

(** The data of a material: known isotopes, no missing cross-section, no zero fraction. *)
Definition material_data (isos : list (isotope Rops)) : Prop :=
  Forall (fun iso : isotope Rops => iso_atom_fraction iso <> 0%R /\
    exists rs, nth_error (nd_isotopes nd) (N.to_nat (iso_gid iso)) = Some rs /\
      Forall (fun r => (N.to_nat group < List.length (r_cross_section r))%nat) rs) isos.

End Partner.

(** The threshold [t] falls in the interval of entry [k] when the entries are laid side by side, over
    and over again. *)
Definition falls_in (weights : list R) (t : R) (k : nat) : Prop :=
  exists turns : nat,
    (INR turns * Rsum weights + Rsum (firstn k weights) <= t < INR turns * Rsum weights + Rsum (firstn (S k) weights))%R.

(** ** Outcome of a collision *)

(** [q] is where [p] is, with the same weight and the same time left. *)
Definition same_place {K : FloatOps} (p q : particle K) : Prop :=
  p_coordinate q = p_coordinate p /\ p_weight q = p_weight p /\ p_time_to_census q = p_time_to_census p /\
  p_age q = p_age p /\ p_domain q = p_domain p /\ p_cell q = p_cell p /\ p_facet q = p_facet p /\ p_species q = p_species p.
