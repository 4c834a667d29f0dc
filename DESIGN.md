# Formal model of fastiron in Rocq/Coq

Source: cea-hpc/fastiron at the pinned commit, read as text in /repo. Nothing of it is built or run.
The properties are in `properties.jsonl`, the state of each claim in `MANIFEST.json`, the wrong-program
experiments in `seeded/LOG.jsonl`, the Coq development in `rocq/theories`.

## 1. Approach

The program is generic in its float type (`T: CustomFloat`, f32 or f64). The model keeps that genericity.

* `FloatOps` (file `Float.v`) is a record holding a carrier and the operations the program uses (add, sub, mul, div,
  sqrt, sin, cos, ln, floor, ceil, abs, min, max, comparisons, conversions, literals, constants). It carries **no laws**.
  Theorems about accounting, containers, schedules, indices, numbering, parameters and reports are proved for an arbitrary
  `FloatOps`, so they hold for f32 and f64, NaN and rounding errors included.
* Theorems about geometry, physics and probabilities are about *exact arithmetic*: the same functions instantiated
  with `Rops : FloatOps` over the standard library's real numbers (`RealOps.v`). Each such property says "exact arithmetic".
  There is no NaN and no infinity there, `x / 0 = 0` and `ln 0 = 0` as Coq defines them; theorems that would otherwise lean
  on this carry the hypothesis that excludes it (a positive sum of ratios, a source, a non-zero distance).
* Facts that depend on IEEE rounding are about `f64ops lm` (`Ieee.v`): Flocq's `BinarySingleNaN` binary64 numbers, rounding
  to nearest even, with the functions Rust takes from the C library (sin, cos, ln, exp, log10, pow) as a parameter `lm`.
  Theorems assume of `lm` only what they state (for instance that ln of [0,1] is not positive). The concrete
  cases use `K64 = f64ops approx_libm`, some computable `lm`.
* Integers: `usize`/`u64`/`u32` are `N`. Wrap-around is written out where the code wraps on purpose (random
  generator) and where the code converts to a narrower type (grid coordinates). Counters and indices are unbounded `N`; that
  abstraction is stated in the comments.
* A panic (`unwrap` on `None`, index out of range, `assert!`, `unreachable!`, `todo!`) is the explicit value `Panic`.
* A loop that is not structurally bounded takes explicit fuel and returns `NoFuel` when it runs out. Theorems are about the
  executions that return a value, for every amount of fuel, or prove that a stated amount is enough.
* Tracking code that touches shared memory (cross-section cache, flux tally) is a program tree `prog K A` whose nodes are the
  shared-memory actions. `run_seq` runs it alone; `cstep` interleaves any number of them, reads of the cache being allowed to
  return any value an entry has held.
* Iteration over hash maps is a parameter `order` constrained by `any_order order` (some permutation of the entries).

## 2. Properties, models and proofs

| id | model | proof |
|----|-------|-------|
| C01 | `rng_next` on N mod 2^64 | Hull-Dobell argument: closed form of the n-th state, 2-adic valuation of (a^n-1)/(a-1) |
| C02 | `hash_state`, `pseudo_des`, Feistel rounds over N with explicit masks | inverse of each round; injectivity; combination with C01 |
| C03 | `sample` as an integer, its rounding, and the same computation in Flocq's binary64 | case analysis on the magnitude, agreement with Flocq; `_refuted` for the documented range [0,1[ |
| C04 | `source_now` with per-cell counters and ids, several cycles | invariant "counter = number of seeds given", injectivity of id*2^32+counter, then C01/C02 |
| C05 | `source_now` over R | floor bounds, sums over cells |
| C06 | `cycle_process`/`cycle_sync` over any FloatOps | per-particle balance lemma on the tracking loop, sums over particles, induction on rounds |
| C07 | `run` (all cycles), `missing_particle_test` | induction on cycles from C06, C10 |
| C08 | balance updates of `collision_event` | same induction as C06 |
| C09 | same, with a log of facet crossings | same induction |
| C10 | `cycle_sync`, `cycle_finalize`, `update_stats` | induction on cycles |
| C11 | containers | induction on rounds; invariant of the tracked particle |
| C12 | program trees, chunked tasks, interleaving small-step semantics | every schedule simulates the sequential run; commutative sums |
| C13 | whole cycle and run under schedules | permutation-equivariance of each phase, then C12 |
| C14 | cache as shared memory with non deterministic (stale) reads | invariant: each entry holds the initial or the right value |
| C15 | flux log, fold over any order | Permutation and commutativity in R; witness in binary64 for the negative part |
| C16 | `get_energy_groups` binary search | loop invariant, measure |
| C17 | same + index functions | arithmetic on indices |
| C18 | `NuclearData::new` over R | monotonicity of exp |
| C19 | `add_isotope`, `Reaction::new` | induction on the reaction index |
| C20 | same over R | algebra of the normalisation factors, sum over the reaction list |
| C21 | selection loop of `collision_event` over R | induction on the list of reactions |
| C22 | `sample_collision` over R and any FloatOps (counts) | arithmetic |
| C23 | population control functions | unfolding, floor facts |
| C24 | same over R | integral of a step function over [0,1] computed as measure of intervals |
| C25 | `DistanceHandler`, `outcome` | case analysis on comparisons |
| C26 | `outcome` over R | invariant along the track |
| C27 | `mct_nf_compute_nearest` | induction on the list |
| C28 | `mct_nf_3dg` loop | invariant: distances do not depend on the iteration |
| C29 | grid index functions | div/mod arithmetic |
| C30 | `snap_turtle`, `get_face_nbr_gids` | arithmetic |
| C31 | `NODE_INDIRECT`, `OPPOSING_FACET`, node numbering | finite case analysis on 24 facets, arithmetic on symbolic coordinates |
| C32 | `bootstrap_node_map` | induction on the visiting order |
| C33 | flood fill of `MeshPartition` | reachability in the grid graph, invariants of the queue |
| C34 | `make_facet`, `consistency_check` | from C30, C31, C33 |
| C35 | grid geometry over R | algebra, floor |
| C36 | `MCGeneralPlane::new` over R | algebra on symbolic sizes |
| C37 | `reflect_particle` over R | algebra |
| C38 | `sample_isotropic`, `rotate_direction` over R | algebra, sqrt, sin2+cos2=1 |
| C39 | `generate_coordinate_3dg` over R | convexity |
| C40 | `nearest_center` over R | invariant of the pruned search |
| C41 | `get_boundary_conditions`, `make_facet` | case analysis |
| C42 | `check_parameters_integrity` | list reasoning |
| C43 | `supply_defaults` | case analysis |
| C44 | `find_material` | induction on the list |
| C45 | block folding | permutation of keys |
| C46 | fluence tables | invariant: empty |
| C47 | `update_spectrum` | induction |
| C48 | `facet_crossing_event` | case analysis |
| C49 | the whole run, every `Panic` of the model | conditions on indices and values (`SafeSpec.v`) kept by every segment, collision, cycle; derived from accepted parameters in exact arithmetic, from checkable conditions in binary64 |
| C50 | chunking | arithmetic, list concat |
| C51 | stable sort | insertion sort specification |
| C52 | timers over an arbitrary sequence of clock readings | induction over sections, cycles, reports |
| C53 | `Variable`, `covariance`, `correlation` over R; the table for any arithmetic | sums, Cauchy-Schwarz |
| C54 | csv writer of the simulation, csv reader of the statistics tool | what is read is what was written, column by column |
| C55 | decomposition | div/mod |
| C56 | `compute_split_factor`, population phase over R | arithmetic |
| C57 | `ComparisonResults` | the saved lines; the change is that of the means |
| C58 | `ScalingResults` | the saved lines; ideal speedup, `_refuted` when the study does not start at one thread |
| C59 | log of a run: particles created, every segment of every track | a segment ends in the closed cell; crossing a face off the edges enters the neighbour; induction over tracks and cycles; `_refuted` past an edge |
| C60 | `check_cross_sections`: the table and the text of the file | folds over isotopes, reactions and groups; agreement with the sums of the tracking; splitting and trimming of the text; columns run together for several materials |
| C61 | `print_spectrum`, the counts of a run, the group stored in a particle | the stored group follows every change of energy; induction over the cycles; text of the file |
| C62 | every function that draws a number, counted over the 2^64 seeds | the generator is a bijection; thresholds on a draw; set differences of seeds; polar angles |
| C63 | speeds, segments, tracks and runs in exact arithmetic | relativistic speed; triangle inequality along the log of a track or run; energy bounds of the collisions |
| C64 | history of a run: births with their cycles, log of all segments | invariants before, during and after the tracks of a cycle; induction over cycles; `_refuted` for a fission at the very end of a cycle |
| C65 | log of all segments of a run with weights; contributions of each segment to the shared tally | balance by induction over tracks and rounds; the tally as a permutation of the deposits of the log; induction over cycles |
| C66 | zero cross-sections, closed meshes, ratios of the parameters | invariant of the pass over isotopes and reactions in any arithmetic where zero takes nothing away; each event of each row by induction over cycles |
| C67 | tracks, rounds of tracking, generator, mesh | potential argument: distances to the faces and mean free paths left as lower bounds of the way; no two extreme draws in a row by inverting the generator; descendants through rounds by induction |
| C68 | core loop, cycles, rounds of tracking, census and population between cycles | state between cycles as an invariant with sound particles (place, energy, time left); every phase defined; bound of C67 as the fuel; induction over cycles |
| C69 | scattering, speed, outcome of a segment, tracking loop, in binary64 | enclosures of the rounded operations; a speed that is not a number loses every comparison; two flights between walls that lead into each other, checked by computation, then induction on the fuel |
| C70 | source, unit weight, population control, core loop, in binary64 | zeros, infinities and values that are not numbers followed through the operations; induction on the cycles, with the set of outcomes of every cycle exactly determined |
| C71 | source, population control, core loop | state between cycles as an invariant with an empty population; set of outcomes of every cycle exactly determined; floor of a share below one |
| C72 | sampling, segment counter and limit in f32; the counter of the tracking loop and of whole runs, any arithmetic | run invariant through sourcing, population control and tracking; value of the conversion by Flocq, monotonicity of both roundings around the tie below one, bijection of the generator; induction with rounding at 2^24 |

Names: `c12_...` proves (part of) C12; `..._refuted` gives a witness that a reading of the documentation or of the code's intent
is false of the faithful model. There is no `_partial` theorem at present. What is proved in exact arithmetic only, and not
for binary64, is said in the note of the claim in `MANIFEST.json`.

## 3. Layout

For each area `X`: `XModel.v` (definitions citing file and lines), `XSpec.v` (vocabulary of the statements, independent of the
model's helpers), `XLemmas.v`, `XFacts.v`, `XReal.v`, `XIeee.v`, ... (proofs), `XDemo.v` (concrete cases), `XProps.v` (each
theorem closed by `exact`, an example that meets its hypotheses beside it, and `Print Assumptions`).

| area | model | theorems in | claims |
|------|-------|-------------|--------|
| random numbers | `RngModel` | `RngProps` | C01-C03 |
| tracking, cycles, runs | `Balance`, `ParticleModel`, `MeshTypes`, `TrackModel`, `CycleModel`, `ReportModel` | `CycleProps` | C06-C11, C46, C47 |
| parallel executions | the same, small-step semantics in `TrackModel` and `CycleModel` | `ScheduleProps` | C12-C15 |
| source, splitting, sorting, chunks | `CycleModel` | `PopProps` | C04, C05, C23, C24, C50, C51, C56 |
| nuclear data and collisions | `NuclearModel`, `TrackModel` | `NuclearProps` | C02, C16-C22 |
| segments | `TrackModel` | `SegmentProps` | C11, C25-C28, C48 |
| grid, mesh, decomposition | `GridModel`, `AssignModel`, `MeshModel`, `DecompModel` | `MeshProps` | C29-C34, C41, C44, C55 |
| geometry | `GridModel`, `AssignModel`, `MeshModel`, `ParticleModel` | `GeomProps` | C04, C34-C40 |
| parameters and set-up | `ParamModel` | `ParamProps` | C41-C43, C45 |
| timers | `TimerModel` | `TimerProps` | C52 |
| csv reports, statistics tool | `CsvModel`, `StatModel` | `StatProps` | C53, C54, C57, C58 |
| absence of panics | all of the above | `SafeProps` | C49 |
| particles in their cells | all of the above | `StayProps` | C59 |

`Demo`, `DemoRun`, `DemoSound`, `SafeDemo` hold whole runs computed in binary64 (one or two cells, several cycles, with splitting,
roulette, collisions, fission, reflection and escape), `SeqRun` the computable runner that is shown to be a run of the model.

## 4. Trusted base

* Coq 8.16.1 kernel, its `vm_compute` included (checked again with `coqchk`).
* The faithfulness of the transcription from Rust to Gallina (each definition cites the lines it transcribes and says where it
  simplifies).
* The axioms listed by `Print Assumptions` after each theorem. All come from the standard library; none is ours.

**Closed under the global context** (no axiom at all):

`c01_rng_full_period`, `c01_rng_step_injective`, `c02_spawned_seeds_distinct`, `c02_spawn_bijective`,
`c02_collision_random_states`, `c04_sourced_unique`, `c04_every_run`, `c06_particle_conservation`,
`c06_reports_tell_the_story`, `c07_missing_particle_test_passes`, `c08_collision_partition`,
`c08_counters_count_events`, `c09_segment_accounting`, `c10_start_end_chaining`, `c11_containers_drained`,
`c12_schedule_independent`, `c12_sum_of_solo_tracks`, `c12_every_policy_returns`,
`c12_conditions_hold_during_runs`, `c12_every_round_of_a_run`, `c13_run_reproducible`,
`c13_run_under_other_policy`, `c14_lookup_transparent`, `c14_lookup_any_read`, `c14_cache_right_at_all_times`,
`c15_no_lost_update`, `c15_distinct_entries`, `c16_lookup_total`, `c17_above_maximum`, `c17_no_cross_section`,
`c17_cache_of_next_cell`, `c17_flux_of_next_cell`, `c19_reaction_mix`, `c22_absorption`, `c23_roulette`,
`c23_roulette_keeps_the_rest`, `c23_split`, `c23_copies_distinct`, `c28_search_terminates`, `c28_more_iterations`,
`c28_found_stays`, `c29_grid_numbering`, `c30_face_neighbours`, `c30_large_grid_refuted`, `c31_watertight`,
`c31_pairing_z_refuted`, `c31_pairing_refuted`, `c32_node_numbering`, `c33_partition_complete`, `c34_mesh_built`,
`c34_mesh_size`, `c34_crossing_back`, `c34_check_never_fails`, `c34_domain_complete`, `c40_scratch_restored`,
`c41_boundary_events`, `c41_unknown_condition_panics`, `c41_check_ignores_condition`, `c42_accepted_iff_integrity`,
`c42_errors_say`, `c42_order_free`, `c42_lookups_succeed`, `c43_defaults_errors`, `c43_defaults_accepted`,
`c43_material_in_the_box`, `c44_first_geometry`, `c44_material_exists`, `c44_undefined_shape_panics`,
`c45_accepted_meaning`, `c45_acceptance`, `c45_meaning_unique`, `c45_file_pieces`, `c45_key_order`,
`c45_key_order_of_errors_refuted`, `c46_fluence_check_vacuous`, `c47_spectrum_per_group`, `c47_spectrum_total`,
`c48_crossing`, `c49_run_never_panics`, `c49_shared_arrays_in_range`, `c49_set_up_indexed`, `c50_chunks_partition`,
`c50_dynamic_size`, `c51_sort_stable`, `c51_sort_unique`, `c52_section_statistics`, `c52_main_statistics`,
`c52_reported_order`, `c52_columns_add_up`, `c52_timers_defined`, `c52_times_nest`, `c52_all_time_counted_refuted`,
`c52_no_cycle_refuted`, `c53_saved_table`, `c54_tallies`, `c54_run`, `c54_timers`, `c55_domain_numbering`,
`c55_lookup`, `c55_lookup_panics`, `c57_saved_comparison`, `c58_scaling_study`, `c58_no_run_panics`, `c60_written`,
`c60_one_material`, `c60_cells`, `c60_columns`, `c60_names_run_together`, `c61_group_current`, `c61_built`,
`c61_file`, `c62_counting`, `c65_weight_kept`, `c66_collision_partner`, `c66_excluded_kind`, `c66_only_kind`,
`c66_closed`, `c66_reflecting`, `c66_box`, `c71_empty_run`, `c72_track_segments`, `c72_run_segments`,
`c72_source_segments`, `c72_next_cycle`.

**`ClassicalDedekindReals.sig_forall_dec`, `FunctionalExtensionality.functional_extensionality_dep`** (real numbers):

`c21_partner_unique`, `c21_partner_share`, `c57_change`.

**`ClassicalDedekindReals.sig_forall_dec`, `ClassicalDedekindReals.sig_not_dec`, `Classical_Prop.classic`,
`FunctionalExtensionality.functional_extensionality_dep`** (real numbers, Flocq, Coquelicot):

`c03_sample_range`, `c03_literal_is_2_pow_minus_64`, `c03_half_open_range_refuted`, `c04_built_identifiers`,
`c04_built_unique`, `c05_number_sourced`, `c05_source_defined`, `c05_silent_source_panics_refuted`,
`c11_kept_at_census`, `c11_kept_at_census_exact`, `c15_order_free`, `c15_order_matters_in_binary64_refuted`,
`c16_lookup_correct_exact`, `c16_lookup_correct`, `c16_no_group_loops`, `c17_fission_exceeds`, `c18_boundaries`,
`c20_isotope_total`, `c20_three_reactions`, `c20_material_total`, `c20_below_one_not_finite`, `c21_total_is_sum`,
`c21_collision_partner`, `c21_all_zero_loops`, `c22_scatter`, `c22_fission`, `c22_light_material_negative`,
`c23_number_after_split`, `c24_roulette_unbiased`, `c24_low_weight_unbiased`, `c24_split_unbiased`,
`c25_next_event_nearest`, `c25_outcome_defined`, `c26_clock`, `c26_clock_constant`, `c27_facet_distance`,
`c27_inside_facet`, `c27_nearest_facet`, `c33_any_center_refuted`, `c34_any_seed_refuted`,
`c34_initialisation_succeeds`, `c35_point_located`, `c35_center_located`, `c35_position`, `c35_volume`,
`c35_cell_states`, `c36_plane`, `c36_facet_planes`, `c36_normals_are_unit`, `c36_cell_behind_planes`,
`c37_reflection`, `c37_reflection_in_mesh`, `c38_isotropic`, `c38_rotation`, `c38_near_axis_refuted`,
`c39_point_sampled`, `c39_sourced_inside`, `c39_first_source`, `c40_nearest`, `c40_answers`,
`c40_smallest_index_refuted`, `c41_accepted_unknown_panics`, `c42_set_up_succeeds`, `c43_default_run_starts`,
`c49_program_never_panics`, `c49_default_run_never_panics`, `c49_binary64_run_never_panics`, `c52_efficiency`,
`c52_report_lines`, `c52_figure_of_merit`, `c53_variable`, `c53_bounds`, `c53_symmetric`, `c53_self`,
`c53_constant`, `c53_units`, `c53_lengths`, `c53_binary64_constant_refuted`, `c53_binary64_empty_refuted`,
`c56_split_factor`, `c56_foreseen_number`, `c57_change_of_totals_refuted`, `c58_ideal_speedup`,
`c58_ideal_speedup_refuted`, `c59_track_stays`, `c59_run_logged`, `c59_run_stays`, `c59_past_an_edge_refuted`,
`c60_values`, `c60_total`, `c60_energy`, `c61_levels`, `c62_uniform`, `c62_free_path`, `c62_roulette`,
`c62_low_weight`, `c62_split`, `c62_isotropic`, `c62_azimuth`, `c62_scatter_energy`, `c62_scatter_angle`,
`c62_scatter_azimuth`, `c62_frame`, `c62_fission_number`, `c62_fission_energy`, `c62_partner`, `c62_source`,
`c63_speed`, `c63_segment`, `c63_track`, `c63_run_energy`, `c63_run_light`, `c64_run_history`, `c64_ages`,
`c64_no_older_than_run`, `c64_ancestors`, `c64_late_fission_refuted`, `c65_cycle_balance`, `c65_source_weight`,
`c65_run_weights_positive`, `c65_flux_cycle`, `c65_flux_run`, `c65_flux_not_negative`,
`c65_flux_measures_distance`, `c66_zero_takes_nothing`, `c66_ratio_zero`, `c66_program`, `c66_default_closed`,
`c66_without_density_refuted`, `c67_paths`, `c67_path`, `c67_collisions`, `c67_crossings`, `c67_segments`,
`c67_track_ends`, `c67_phase_ends`, `c68_run_returns`, `c68_program_returns`, `c69_light_scatter`, `c69_no_speed`,
`c69_no_census`, `c69_no_census_track`, `c69_tracks_end_refuted`, `c70_silent_run`, `c70_idle_run`,
`c71_thin_source`, `c71_fewer_than_ten`, `c71_fewer_than_ten_binary64`, `c71_equal_cells`, `c72_sample_range`,
`c72_sample_model`, `c72_ones_single`, `c72_ones_double`, `c72_segments`, `c72_segment_limit`,
`c70_silent_run_single`, `c70_idle_run_single`, `c71_fewer_than_ten_single`, `c72_run_segments_single`,
`c72_segments_double`.

## 5. What is modelled and what is not

Modelled, function by function:

* `fastiron/src`: `constants.rs` (the constants used), `init.rs`,
  `main.rs` (the main loop, the two phases of a cycle, the end of the run, where timers start and stop), `montecarlo.rs`, `parameters.rs`,
  `data/` (vector, nuclear data, materials, tallies, spectrum), `geometry/` (all), `particles/` (all; a collection is a list),
  `simulation/` (all), `utils/` (random numbers, input, correctness tests, decomposition, timers, policies and chunk sizes).
* `fastiron-stats/src`: `structures/raw.rs` and `structures/processed.rs` (readers, variables, comparison, correlation, scaling).

Not modelled, or taken as a parameter:

* the yaml reader and the parser of floats of the input file, and the printing and parsing of floats in csv files: parameters; theorems
  ask that a printed number be read back;
* quoted csv fields, file-system errors, invalid UTF-8, plots (only the values of the speedup plot), messages on the terminal;
* memory reservation (`reserve`, capacities);
* the clock: an arbitrary sequence of readings; overflow of the number of calls of a timer;
* command line parsing by clap, thread binding (hwlocality), allocation;
* overflow of integer counters and indices, except where said in section 1;
* the rayon runtime: `par_iter_mut().chunks().map().fold().sum()` is any interleaving of the shared-memory actions of the chunks and any
  association of the sum of the balances;
* more than one processor: the program calls `todo!()` there, and so does the model (`Panic`); with one processor there is one domain, which
  owns every cell;
* f32: theorems for any `FloatOps` apply to it and its arithmetic is the instance `f32ops` (`SingleModel.v`); of the theorems about rounding,
  C70, C71 and C72 are proved for it, the others for binary64 only. The constructor of reactions computes in f64 and converts (nuclear_data.rs
  lines 69-105), which the model does in the type itself.
