(** Model of /repo/fastiron/src/data/nuclear_data.rs, data/material_database.rs and of
    the part of init.rs that fills them. *)
From Coq Require Import NArith QArith List Bool String.
From Verif Require Import Float ParticleModel.
Import ListNotations.
Local Open Scope N_scope.
Local Open Scope float_scope.

(** [lo, lo+1, ..., lo+n-1]: the range [lo..lo+n]. *)
Fixpoint nrange (lo : N) (n : nat) : list N :=
  match n with O => [] | S n => lo :: nrange (N.succ lo) n end.

Section Nuclear.
Context {K : FloatOps}.

(** nuclear_data.rs lines 26-37, [Polynomial]. *)
Record polynomial : Type := mkPoly { aa : F K; bb : F K; cc : F K; dd : F K; ee : F K }.
(** lines 41-43. *)
Definition poly_val (p : polynomial) (xx : F K) : F K :=
  ee p +. xx *. (dd p +. xx *. (cc p +. xx *. (bb p +. xx *. aa p))).

(** lines 80-89: one entry per pair of consecutive energies.  The state is
    [normal_value]. *)
Fixpoint reaction_values (p : polynomial) (energies : list (F K)) (normal : F K) : list (F K) * F K :=
  match energies with
  | e0 :: (e1 :: _) as rest =>
      let energy := (e0 +. e1) /. ftwo in
      let x := fpow10 (poly_val p (flog10 energy)) in
      let normal := if (f1 <=. e1) && (normal ==. f0) then x else normal in
      let (l, n) := reaction_values p rest normal in (x :: l, n)
  | _ => ([], normal)
  end.

(** lines 68-105, [NuclearDataReaction::new].  Simplification: the code
    computes this in f64 and converts the result to T; here everything is in the one
    carrier, which is the same thing when T = f64.  [energies.len() - 1] underflows for an
    empty slice (panic in debug); [NuclearData::new] always gives at least one energy. *)
Definition reaction_new (rtype : reaction_type) (nu_bar : F K) (energies : list (F K))
    (p : polynomial) (reaction_cross_section : F K) : reaction K :=
  let (xsection, normal_value) := reaction_values p energies f0 in
  let scale := reaction_cross_section /. normal_value in
  mkReaction (map (fun x => x *. scale) xsection) rtype nu_bar.

(** lines 147-154, [NuclearData].  An isotope (line 142) is a vector of species and has
    exactly one species (line 201); it is modelled by its list of reactions, so that
    [isotopes[gid][0].reactions] is [nd_isotopes gid]. *)
Record nuclear_data : Type := mkNuclear {
  nd_num_energy_groups : N;
  nd_isotopes : list (list (reaction K));
  nd_energies : list (F K)
}.

(** lines 158-179, [NuclearData::new].  With [num_groups = 0] the two assignments of lines
    162-163 write the same entry, the second wins. *)
Definition nuclear_energies (num_groups : N) (energy_low energy_high : F K) : list (F K) :=
  let length := fof_N (num_groups + 1) in
  let log_low := fln energy_low in
  let log_high := fln energy_high in
  let delta := (log_high -. log_low) /. length in
  match num_groups with
  | 0 => [energy_high]
  | _ => energy_low :: map (fun ii => fexp (log_low +. delta *. fof_N ii)) (nrange 1 (N.to_nat (num_groups - 1)))
         ++ [energy_high]
  end.
Definition nuclear_new (num_groups : N) (energy_low energy_high : F K) : nuclear_data :=
  mkNuclear num_groups [] (nuclear_energies num_groups energy_low energy_high).

(** parameters.rs lines 144-169, the fields of [MaterialParameters] used here; the
    cross-section names are kept as strings. *)
Record material_params : Type := mkMatParams {
  mp_name : string;
  mp_mass : F K;
  mp_total_cross_section : F K;
  mp_n_isotopes : N;
  mp_n_reactions : N;
  mp_source_rate : F K;
  mp_scattering_cross_section : string;
  mp_absorption_cross_section : string;
  mp_fission_cross_section : string;
  mp_scattering_ratio : F K;
  mp_absorption_ratio : F K;
  mp_fission_ratio : F K
}.

(** A hash map with string keys (FxHashMap<String, _>) is an association list in which
    the keys are distinct; [map[&key]] panics when the key is absent. *)
Fixpoint map_get {A} (m : list (string * A)) (key : string) : option A :=
  match m with
  | [] => None
  | (k, v) :: m => if String.eqb k key then Some v else map_get m key
  end.
Definition map_index {A} (m : list (string * A)) (key : string) : result A := unwrap (map_get m key).

(** lines 204-219: number of fission, scatter and absorption reactions. *)
Definition n_fission (n_reactions : N) : N :=
  n_reactions / 3 + (if n_reactions mod 3 =? 2 then 1 else 0).
Definition n_scatter (n_reactions : N) : N :=
  n_reactions / 3 + (if n_reactions mod 3 =? 2 then 1 else if n_reactions mod 3 =? 1 then 1 else 0).
Definition n_absorption (n_reactions : N) : N := n_reactions / 3.

(** lines 185-255, [add_isotope]: returns the new data and the index of the isotope. *)
Definition add_isotope (nd : nuclear_data) (cross_section : list (string * polynomial))
    (mp : material_params) (nu_bar : F K) : result (nuclear_data * N) :=
  let n_reactions := mp_n_reactions mp in
  do fission_function <- map_index cross_section (mp_fission_cross_section mp) ;
  do scatter_function <- map_index cross_section (mp_scattering_cross_section mp) ;
  do absorption_function <- map_index cross_section (mp_absorption_cross_section mp) ;
  let total_cross_section := mp_total_cross_section mp in
  let total_weight := mp_fission_ratio mp +. mp_scattering_ratio mp +. mp_absorption_ratio mp in
  let share ratio n := (total_cross_section *. ratio) /. (fof_N n *. total_weight) in
  let fission_xsection := share (mp_fission_ratio mp) (n_fission n_reactions) in
  let scatter_xsection := share (mp_scattering_ratio mp) (n_scatter n_reactions) in
  let absorption_xsection := share (mp_absorption_ratio mp) (n_absorption n_reactions) in
  let mk ii :=
    match ii mod 3 with
    | 0 => reaction_new Scatter nu_bar (nd_energies nd) scatter_function scatter_xsection
    | 1 => reaction_new Fission nu_bar (nd_energies nd) fission_function fission_xsection
    | _ => reaction_new Absorption nu_bar (nd_energies nd) absorption_function absorption_xsection
    end in
  let iso := map mk (nrange 0 (N.to_nat n_reactions)) in
  Ok (mkNuclear (nd_num_energy_groups nd) (nd_isotopes nd ++ [iso]) (nd_energies nd),
      N.of_nat (List.length (nd_isotopes nd))).

(** lines 271-283: the dichotomy; [low] and [high] are usize.  [mid] is always a
    valid index when [low < high < len]; the bounds check is kept. *)
Fixpoint energy_search (fuel : nat) (energies : list (F K)) (energy : F K) (low high : N) : result N :=
  if high =? low + 1 then Ok low else
  match fuel with
  | O => NoFuel
  | S fuel =>
      let mid := (high + low) / 2 in
      do em <- vec_get energies mid ;
      if energy <. em then energy_search fuel energies energy low mid
      else energy_search fuel energies energy mid high
  end.

(** lines 258-284, [get_energy_groups].  The fuel is the number of energies. *)
Definition get_energy_groups (nd : nuclear_data) (energy : F K) : result N :=
  let num_energies := N.of_nat (List.length (nd_energies nd)) in
  do e0 <- vec_get (nd_energies nd) 0 ;
  if energy <=. e0 then Ok 0 else
  do elast <- vec_get (nd_energies nd) (num_energies - 1) ;
  if energy >. elast then Ok (num_energies - 1) else
  energy_search (List.length (nd_energies nd)) (nd_energies nd) energy 0 (num_energies - 1).

(** lines 287-294, [get_total_cross_section]. *)
Definition get_total_cross_section (nd : nuclear_data) (isotope_index group : N) : result (F K) :=
  do reactions <- vec_get (nd_isotopes nd) isotope_index ;
  do l <- rmap (fun r => vec_get (r_cross_section r) group) reactions ;
  Ok (fsum l).

(** ** material_database.rs *)

(** material_database.rs lines 10-16, [Isotope]. *)
Record isotope : Type := mkIsotope { iso_gid : N; iso_atom_fraction : F K }.
(** lines 20-27, [Material]. *)
Record material : Type := mkMaterial { mat_name : string; mat_mass : F K; mat_iso : list isotope }.

(** lines 52-54, [find_material]: position of the first material with that name. *)
Fixpoint find_material_from (mats : list material) (name : string) (i : N) : option N :=
  match mats with
  | [] => None
  | m :: ms => if String.eqb (mat_name m) name then Some i else find_material_from ms name (N.succ i)
  end.
Definition find_material_idx (mats : list material) (name : string) : option N :=
  find_material_from mats name 0.

(** init.rs lines 163-174: the isotopes of one material. *)
Fixpoint add_isotopes (n : nat) (nd : nuclear_data) (cross_section : list (string * polynomial))
    (mp : material_params) (nu_bar : F K) : result (nuclear_data * list isotope) :=
  match n with
  | O => Ok (nd, [])
  | S n =>
      do (nd, gid) <- add_isotope nd cross_section mp nu_bar ;
      do (nd, l) <- add_isotopes n nd cross_section mp nu_bar ;
      Ok (nd, mkIsotope gid (f1 /. fof_N (mp_n_isotopes mp)) :: l)
  end.

(** init.rs lines 156-176: the loop over the materials, in the iteration
    order of the hash map (the order of the list).  [nu_bars] maps the name of a cross-section
    to its [nu_bar] (line 167). *)
Fixpoint init_materials (mps : list material_params) (nd : nuclear_data)
    (cross_section : list (string * polynomial)) (nu_bars : list (string * F K))
  : result (nuclear_data * list material) :=
  match mps with
  | [] => Ok (nd, [])
  | mp :: mps =>
      do (nd, iso) <-
        (match N.to_nat (mp_n_isotopes mp) with
         | O => Ok (nd, [])
         | S _ as n =>
           do nu_bar <- map_index nu_bars (mp_fission_cross_section mp) ;
           add_isotopes n nd cross_section mp nu_bar
         end) ;
      do (nd, mats) <- init_materials mps nd cross_section nu_bars ;
      Ok (nd, mkMaterial (mp_name mp) (mp_mass mp) iso :: mats)
  end.

End Nuclear.
Arguments polynomial : clear implicits.
Arguments nuclear_data : clear implicits.
Arguments material_params : clear implicits.
Arguments isotope : clear implicits.
Arguments material : clear implicits.
