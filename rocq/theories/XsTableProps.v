(** C60: the table of cross-sections. *)
From Coq Require Import Arith NArith List Bool Reals String Ascii Lia Lra Permutation.
From Verif Require Import Float RealOps ParticleModel NuclearModel MeshTypes TrackModel CycleModel ParamModel ParamSpec ParamLemmas IntegrityLemmas CsvModel
  PopSpec NuclearSpec NuclearDemo ParamDemo XsTableModel XsTableSpec XsTableFacts XsTableReal XsTableText.
Import ListNotations.
Local Open Scope N_scope.

(** Once the data are built, the table is written whatever the parameters; it is written exactly when a name is given. *)
Theorem c60_written : forall (K : FloatOps) (show12 show13 : F K -> string) order (p : params K) md,
  (forall t, Permutation (order t) t) -> init_mcdata p = Ok md ->
  exists file, xs_file show12 show13 order p md = Ok file /\ (file = None <-> si_cross_sections_out (pa_sim p) = ""%string).
Proof. exact @file_written. Qed.
Print Assumptions c60_written.

(** In exact arithmetic the three values of a material in a group are the macroscopic cross-sections, for a density of one, of the reactions of that kind. *)
Theorem c60_values : forall xs nus mps (nd nd' : nuclear_data Rops) mats n, init_materials mps nd xs nus = Ok (nd', mats) ->
  List.length (nd_energies nd) = S (N.to_nat n) -> forall mat, NoDup (map mp_name mps) -> In mat mats ->
  exists table vec, xs_table nd' n mats = Ok table /\ map_get table (mat_name mat) = Some vec /\ List.length vec = N.to_nat n /\
  forall g d, nth_error vec (N.to_nat g) = Some d ->
    xs_abs d = kind_part nd' g Absorption mat /\ xs_fis d = kind_part nd' g Fission mat /\ xs_sca d = kind_part nd' g Scatter mat.
Proof. exact table_values. Qed.
Print Assumptions c60_values.

(** Together they give the cross-section that the tracking uses in a cell of that material, up to the values too small to be printed. *)
Theorem c60_total : forall xs nus mps (nd nd' : nuclear_data Rops) mats n (dt density : R) i mat g,
  init_materials mps nd xs nus = Ok (nd', mats) -> nd_isotopes nd = [] -> List.length (nd_energies nd) = S (N.to_nat n) -> (exists g1, first_from_one (nd_energies nd) g1) ->
  NoDup (map mp_name mps) -> Forall nonneg_params mps -> nth_error mats (N.to_nat i) = Some mat -> g < n -> (0 < density)%R ->
  exists table vec d total, xs_table nd' n mats = Ok table /\ map_get table (mat_name mat) = Some vec /\ nth_error vec (N.to_nat g) = Some d /\
    weighted_macroscopic_cross_section (mkTrackData (K := Rops) dt nd' mats) i density g = Ok total /\
    (0 <= total - density * (xs_clip (xs_abs d) + xs_clip (xs_fis d) + xs_clip (xs_sca d)) < 3 * density * ftiny (f := Rops))%R.
Proof. exact table_printed. Qed.
Print Assumptions c60_total.

(** The energy of a line is one for which the lookup gives the group of the line. *)
Theorem c60_energy : forall (n : N) (lo hi : R) (nd : nuclear_data Rops), 1 <= n -> (0 < lo)%R -> (lo < hi)%R ->
  nd_energies nd = nd_energies (nuclear_new (K := Rops) n lo hi) ->
  exists es, xs_energies nd n = Ok es /\ List.length es = N.to_nat n /\
    forall g e, nth_error es (N.to_nat g) = Some e -> get_energy_groups nd e = Ok g.
Proof. exact energy_of_line. Qed.
Print Assumptions c60_energy.

Example c60_values_case : exists nd' mats, init_materials [mp_fuel; mp_wall] (mkNuclear (K := Rops) 3 [] bounds) [("flat"%string, flat)] [("flat"%string, 2%R : F Rops)] = Ok (nd', mats) /\
  List.length bounds = S (N.to_nat 3) /\ (exists g1, first_from_one bounds g1) /\ NoDup (map mp_name [mp_fuel; mp_wall]) /\ Forall nonneg_params [mp_fuel; mp_wall] /\ List.length mats = 2%nat.
Proof.
  destruct demo_built as (nd' & mats & E). exists nd', mats. split; [exact E|]. split; [reflexivity|]. split; [exists 0%nat; exact bounds_one|]. split; [repeat constructor; cbn; intuition discriminate|].
  split; [repeat constructor; unfold weight_sum; cbn; lra|]. unfold built_nuclear in E. injection E as _ <-. reflexivity.
Qed.
Example c60_energy_case : 1 <= 230 /\ (0 < 1 / 1000000000)%R /\ (1 / 1000000000 < 20)%R.
Proof. split; [discriminate|]. split; lra. Qed.

(** For one material the file is a table of five columns with a line of names and a line for each group. *)
Theorem c60_one_material : forall (K : FloatOps) (show12 show13 : F K -> string), (forall x, word (show12 x)) -> (forall x, word (show13 x)) ->
  forall order nd n (mat : material K) text, (forall t, Permutation (order t) t) -> word (mat_name mat) -> xs_text show12 show13 order nd n [mat] = Ok text ->
  exists es table vec header lines, xs_energies nd n = Ok es /\ xs_table nd n [mat] = Ok table /\ map_get table (mat_name mat) = Some vec /\
    split_on is_eol text = (header :: lines ++ [""%string])%list /\ List.length lines = N.to_nat n /\
    cells_of header = ["group"; "energy"; mat_name mat ++ "_absorb"; mat_name mat ++ "_fission"; mat_name mat ++ "_scatter"]%string /\
    forall g, g < n -> exists l e d, nth_error lines (N.to_nat g) = Some l /\ nth_error es (N.to_nat g) = Some e /\ nth_error vec (N.to_nat g) = Some d /\
      cells_of l = [show_N g; show12 e; show13 (xs_clip (xs_abs d)); show13 (xs_clip (xs_fis d)); show13 (xs_clip (xs_sca d))].
Proof. exact @text_one_material. Qed.
Print Assumptions c60_one_material.

(** For [m] materials a line has [3 + 2 m] cells, fewer than the [2 + 3 m] values when [m] is at least two. *)
Theorem c60_cells : forall (K : FloatOps) (show12 show13 : F K -> string), (forall x, word (show12 x)) -> (forall x, word (show13 x)) ->
  forall order nd n mats text, (forall t, Permutation (order t) t) -> NoDup (map mat_name mats) -> Forall (fun m => word (mat_name m)) mats ->
  xs_text show12 show13 order nd n mats = Ok text ->
  exists header lines, split_on is_eol text = (header :: lines ++ [""%string])%list /\ List.length lines = N.to_nat n /\
    Forall (fun l => List.length (split_on is_bar l) = (3 + 2 * List.length mats)%nat) (header :: lines).
Proof. exact @text_shape. Qed.
Print Assumptions c60_cells.

(** The materials come in the same order in the line of names and in the lines of values; each value is that of the table, under the name of its material. *)
Theorem c60_columns : forall (K : FloatOps) (show12 show13 : F K -> string), (forall x, word (show12 x)) -> (forall x, word (show13 x)) ->
  forall order nd n mats text, (forall t, Permutation (order t) t) -> NoDup (map mat_name mats) -> Forall (fun m => word (mat_name m)) mats ->
  xs_text show12 show13 order nd n mats = Ok text ->
  exists es table columns header lines, xs_energies nd n = Ok es /\ xs_table nd n mats = Ok table /\ Permutation columns table /\
    split_on is_eol text = (header :: lines ++ [""%string])%list /\ List.length lines = N.to_nat n /\
    cells_of header = "group"%string :: "energy"%string :: side_by_side "" (map material_names columns) /\
    forall g, g < n -> exists l e ds, nth_error lines (N.to_nat g) = Some l /\ nth_error es (N.to_nat g) = Some e /\
      Forall2 (fun column d => nth_error (snd column) (N.to_nat g) = Some d) columns ds /\
      cells_of l = show_N g :: show12 e :: side_by_side "" (map (material_values show13) ds).
Proof. exact @text_columns. Qed.
Print Assumptions c60_columns.

(** The name of the last column of a material and that of the first column of the next one make one name. *)
Theorem c60_names_run_together : forall (K : FloatOps) (show12 show13 : F K -> string), (forall x, word (show12 x)) -> (forall x, word (show13 x)) ->
  forall order nd n mats text, (forall t, Permutation (order t) t) -> NoDup (map mat_name mats) -> Forall (fun m => word (mat_name m)) mats ->
  (2 <= List.length mats)%nat -> xs_text show12 show13 order nd n mats = Ok text ->
  exists header lines a b, split_on is_eol text = header :: lines /\ In a (map mat_name mats) /\ In b (map mat_name mats) /\ a <> b /\
    nth_error (cells_of header) 4 = Some (a ++ "_scatter" ++ b ++ "_absorb")%string.
Proof. exact @text_several. Qed.
Print Assumptions c60_names_run_together.

(** Parameters read from a file that ask for the table, with two materials; and the table of one material. *)
Example c60_file_case : forall (K : FloatOps) (a : F K) (show : F K -> string), exists p md text,
  get_parameters (demo_real a) demo_yaml demo_read (demo_cli (Some "demo"%string)) = Ok (inl p) /\ init_mcdata p = Ok md /\
  xs_file show show (fun t => t) p md = Ok (Some ("xs.csv.dat"%string, text)) /\
  xs_text show show (fun t => t) (td_nuclear (mc_track md)) (si_n_groups (pa_sim p)) (td_mats (mc_track md)) = Ok text /\
  si_n_groups (pa_sim p) = 230 /\ NoDup (map mat_name (td_mats (mc_track md))) /\ List.length (td_mats (mc_track md)) = 2%nat /\ Forall (fun m => word (mat_name m)) (td_mats (mc_track md)).
Proof.
  intros K a show. destruct (demo_params a) as (p & E & _ & _ & _ & _ & _ & Eo & _). destruct (accepted_means _ _ demo_distinct _ _ _ E) as (_ & _ & _ & _ & W & I).
  assert (Q : si_n_units (pa_sim p) <> 0 /\ si_n_groups (pa_sim p) = 230 /\ map fst (pa_mats p) = ["wall"; "fuel"]%string).
  { clear - E. revert E. vm_compute. intros E. injection E as <-. repeat split. discriminate. }
  destruct Q as (Q1 & Q2 & Q3). destruct (accepted_initialises p I W Q1) as (md & Em & Nm & _). rewrite Q3 in Nm.
  destruct (c60_written K show show (fun t => t) p md (fun t => Permutation_refl t) Em) as (file & Ef & Hf).
  unfold xs_file in Ef. rewrite Eo in Ef. cbn [String.eqb Ascii.eqb Bool.eqb] in Ef.
  destruct (xs_text show show (fun t => t) (td_nuclear (mc_track md)) (si_n_groups (pa_sim p)) (td_mats (mc_track md))) as [text| |] eqn:Et; try discriminate Ef.
  exists p, md, text. split; [exact E|]. split; [exact Em|]. split; [unfold xs_file; rewrite Eo; cbn [String.eqb Ascii.eqb Bool.eqb]; rewrite Et; reflexivity|].
  split; [exact Et|]. split; [exact Q2|]. rewrite Nm. split; [repeat constructor; cbn; intuition discriminate|].
  split; [rewrite <- (map_length mat_name), Nm; reflexivity|].
  apply Forall_forall. intros m Hm. apply (in_map mat_name) in Hm. rewrite Nm in Hm. destruct Hm as [ <- |[ <- |[]]]; repeat constructor.
Qed.

Example c60_one_material_case : exists (nd : nuclear_data Rops) mat text, xs_text (fun _ : F Rops => "0.5"%string) (fun _ : F Rops => "0.25"%string) (fun t => t) nd 3 [mat] = Ok text /\
  word (mat_name mat) /\ word "0.5" /\ word "0.25".
Proof.
  exists (mkNuclear (K := Rops) 3 [[mkReaction (K := Rops) [1%R; 2%R; 3%R] Scatter 2%R]] bounds), (mkMaterial (K := Rops) "fuel" 12%R [mkIsotope (K := Rops) 0 1%R]).
  destruct (xs_text_total (K := Rops) (fun _ : F Rops => "0.5"%string) (fun _ : F Rops => "0.25"%string) (fun t => t)
    (mkNuclear (K := Rops) 3 [[mkReaction (K := Rops) [1%R; 2%R; 3%R] Scatter 2%R]] bounds) 3 [mkMaterial (K := Rops) "fuel" 12%R [mkIsotope (K := Rops) 0 1%R]])
    as (es & t & ls & _ & _ & _ & _ & E).
  - intros t. apply Permutation_refl.
  - left. cbn. lia.
  - repeat constructor. exists [mkReaction (K := Rops) [1%R; 2%R; 3%R] Scatter 2%R]. split; [reflexivity|]. repeat constructor.
  - eexists. split; [exact E|]. repeat split; repeat constructor.
Qed.
