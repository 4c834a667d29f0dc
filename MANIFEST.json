{
 "claims": [
  {
   "property": "C01",
   "status": "proved",
   "theorems": [
    "c01_rng_full_period",
    "c01_rng_step_injective"
   ],
   "note": ""
  },
  {
   "property": "C02",
   "status": "proved",
   "theorems": [
    "c02_spawned_seeds_distinct",
    "c02_spawn_bijective",
    "c02_collision_random_states"
   ],
   "note": ""
  },
  {
   "property": "C03",
   "status": "proved",
   "theorems": [
    "c03_sample_range",
    "c03_literal_is_2_pow_minus_64",
    "c03_half_open_range_refuted"
   ],
   "note": "The documented half-open range is refuted."
  },
  {
   "property": "C04",
   "status": "proved",
   "theorems": [
    "c04_sourced_unique",
    "c04_every_run",
    "c04_built_identifiers",
    "c04_built_unique"
   ],
   "note": "any float operations for every mesh whose cells have different identification ranges; that the built domains have them is derived in exact arithmetic (real numbers), not for binary64 rounding"
  },
  {
   "property": "C05",
   "status": "proved",
   "theorems": [
    "c05_number_sourced",
    "c05_source_defined",
    "c05_silent_source_panics_refuted"
   ],
   "note": "Real arithmetic for the counts; the panic of a silent source is shown with binary64 numbers."
  },
  {
   "property": "C06",
   "status": "proved",
   "theorems": [
    "c06_particle_conservation",
    "c06_reports_tell_the_story"
   ],
   "note": "Any arithmetic, policy and schedule."
  },
  {
   "property": "C07",
   "status": "proved",
   "theorems": [
    "c07_missing_particle_test_passes"
   ],
   "note": ""
  },
  {
   "property": "C08",
   "status": "proved",
   "theorems": [
    "c08_collision_partition",
    "c08_counters_count_events"
   ],
   "note": ""
  },
  {
   "property": "C09",
   "status": "proved",
   "theorems": [
    "c09_segment_accounting"
   ],
   "note": ""
  },
  {
   "property": "C10",
   "status": "proved",
   "theorems": [
    "c10_start_end_chaining"
   ],
   "note": ""
  },
  {
   "property": "C11",
   "status": "proved",
   "theorems": [
    "c11_containers_drained",
    "c11_kept_at_census",
    "c11_kept_at_census_exact"
   ],
   "note": "Drained containers and census for any float semantics; zero time left in exact arithmetic (dt not negative) and in binary64 with bounded parameters."
  },
  {
   "property": "C12",
   "status": "proved",
   "theorems": [
    "c12_schedule_independent",
    "c12_sum_of_solo_tracks",
    "c12_every_policy_returns",
    "c12_conditions_hold_during_runs",
    "c12_every_round_of_a_run"
   ],
   "note": "for any float operations with 0 < 0 false; conditions (cells and groups in range, right cache) proved of every round of every run whose energies stay bounded"
  },
  {
   "property": "C13",
   "status": "proved",
   "theorems": [
    "c13_run_reproducible",
    "c13_run_under_other_policy"
   ],
   "note": "reports (cycle, balance), spectrum, particle multisets equal under any implemented policy, chunk size, thread count, schedule"
  },
  {
   "property": "C14",
   "status": "proved",
   "theorems": [
    "c14_lookup_transparent",
    "c14_lookup_any_read",
    "c14_cache_right_at_all_times"
   ],
   "note": "sequential and concurrent lookups; every value of every entry at any moment of any parallel region of a run"
  },
  {
   "property": "C15",
   "status": "proved",
   "theorems": [
    "c15_no_lost_update",
    "c15_distinct_entries",
    "c15_order_free",
    "c15_order_matters_in_binary64_refuted"
   ],
   "note": "each entry receives each contribution once, in some order; exact arithmetic makes the order irrelevant; in binary64 it matters (witness)"
  },
  {
   "property": "C16",
   "status": "proved",
   "theorems": [
    "c16_lookup_total",
    "c16_lookup_correct_exact",
    "c16_lookup_correct",
    "c16_no_group_loops"
   ],
   "note": "Lookup total for any floats; correct group, uniquely, over the reals and over finite binary64 numbers; endless loop shown for zero groups and NaN."
  },
  {
   "property": "C17",
   "status": "proved",
   "theorems": [
    "c17_above_maximum",
    "c17_no_cross_section",
    "c17_cache_of_next_cell",
    "c17_flux_of_next_cell",
    "c17_fission_exceeds"
   ],
   "note": "Group number n_groups for every energy above the last boundary (any floats), consequences for cross-section table, cache and flux, and reachability by fission for every maximum below 20."
  },
  {
   "property": "C18",
   "status": "proved",
   "theorems": [
    "c18_boundaries"
   ],
   "note": "Exact arithmetic, any number of groups >= 1 and 0 < e_min < e_max."
  },
  {
   "property": "C19",
   "status": "proved",
   "theorems": [
    "c19_reaction_mix"
   ],
   "note": "Any floats; whole init_nuclear_data loop over materials and isotopes."
  },
  {
   "property": "C20",
   "status": "proved",
   "theorems": [
    "c20_isotope_total",
    "c20_three_reactions",
    "c20_material_total",
    "c20_below_one_not_finite"
   ],
   "note": "Exact arithmetic, for isotopes and for whole materials; with fewer than three reactions the missing kinds are left out of the total. Binary64: when no boundary reaches 1 MeV no cross-section is finite."
  },
  {
   "property": "C21",
   "status": "proved",
   "theorems": [
    "c21_total_is_sum",
    "c21_collision_partner",
    "c21_partner_unique",
    "c21_partner_share",
    "c21_all_zero_loops"
   ],
   "note": "Exact arithmetic, whole collision_event; densities and atom fractions not zero (the code returns 1e-20 for those)."
  },
  {
   "property": "C22",
   "status": "proved",
   "theorems": [
    "c22_scatter",
    "c22_absorption",
    "c22_fission",
    "c22_light_material_negative"
   ],
   "note": "Exact arithmetic; for a mass below one a negative energy is reachable."
  },
  {
   "property": "C23",
   "status": "proved",
   "theorems": [
    "c23_roulette",
    "c23_roulette_keeps_the_rest",
    "c23_split",
    "c23_copies_distinct",
    "c23_number_after_split"
   ],
   "note": "Any float arithmetic for the outcome of each draw; the number of particles after a split in real arithmetic."
  },
  {
   "property": "C24",
   "status": "proved",
   "theorems": [
    "c24_roulette_unbiased",
    "c24_low_weight_unbiased",
    "c24_split_unbiased"
   ],
   "note": "The model itself is run with the outcome of the draw as a parameter, and integrated over it."
  },
  {
   "property": "C25",
   "status": "proved",
   "theorems": [
    "c25_next_event_nearest",
    "c25_outcome_defined"
   ],
   "note": "Exact arithmetic. The sequential reading of the cross section cache; c12 shows other schedules read the same values."
  },
  {
   "property": "C26",
   "status": "proved",
   "theorems": [
    "c26_clock",
    "c26_clock_constant"
   ],
   "note": "Exact arithmetic, any number of segments."
  },
  {
   "property": "C27",
   "status": "proved",
   "theorems": [
    "c27_facet_distance",
    "c27_inside_facet",
    "c27_nearest_facet"
   ],
   "note": "Exact arithmetic."
  },
  {
   "property": "C28",
   "status": "proved",
   "theorems": [
    "c28_search_terminates",
    "c28_more_iterations",
    "c28_found_stays"
   ],
   "note": "Any float semantics."
  },
  {
   "property": "C29",
   "status": "proved",
   "theorems": [
    "c29_grid_numbering"
   ],
   "note": "cells and nodes, both directions, all dimensions"
  },
  {
   "property": "C30",
   "status": "proved",
   "theorems": [
    "c30_face_neighbours",
    "c30_large_grid_refuted"
   ],
   "note": "fewer than 2^31 cells per axis; refuted beyond"
  },
  {
   "property": "C31",
   "status": "proved",
   "theorems": [
    "c31_watertight",
    "c31_pairing_z_refuted",
    "c31_pairing_refuted"
   ],
   "note": "matching facet exists and is unique; the table of the code is right for x and y faces and refuted for all z faces"
  },
  {
   "property": "C32",
   "status": "proved",
   "theorems": [
    "c32_node_numbering"
   ],
   "note": "any cell list in any order"
  },
  {
   "property": "C33",
   "status": "proved",
   "theorems": [
    "c33_partition_complete",
    "c33_any_center_refuted"
   ],
   "note": "any float operations; for the executions in which the search of the center does not panic; a center outside of the grid is refuted with a seed"
  },
  {
   "property": "C34",
   "status": "proved",
   "theorems": [
    "c34_mesh_built",
    "c34_mesh_size",
    "c34_crossing_back",
    "c34_check_never_fails",
    "c34_any_seed_refuted",
    "c34_initialisation_succeeds",
    "c34_domain_complete"
   ],
   "note": "any float operations; that the initialisation succeeds is proved in exact arithmetic"
  },
  {
   "property": "C35",
   "status": "proved",
   "theorems": [
    "c35_point_located",
    "c35_center_located",
    "c35_position",
    "c35_volume",
    "c35_cell_states"
   ],
   "note": "exact arithmetic"
  },
  {
   "property": "C36",
   "status": "proved",
   "theorems": [
    "c36_plane",
    "c36_facet_planes",
    "c36_normals_are_unit",
    "c36_cell_behind_planes"
   ],
   "note": "exact arithmetic"
  },
  {
   "property": "C37",
   "status": "proved",
   "theorems": [
    "c37_reflection",
    "c37_reflection_in_mesh"
   ],
   "note": "exact arithmetic"
  },
  {
   "property": "C38",
   "status": "proved",
   "theorems": [
    "c38_isotropic",
    "c38_rotation",
    "c38_near_axis_refuted"
   ],
   "note": "exact arithmetic; the angle is exact except for directions within 1e-6 of the z axis, where it is off by at most 2e-6 (refuted that it is exact there)"
  },
  {
   "property": "C39",
   "status": "proved",
   "theorems": [
    "c39_point_sampled",
    "c39_sourced_inside",
    "c39_first_source"
   ],
   "note": "exact arithmetic; every particle created by the source in every run from a built domain"
  },
  {
   "property": "C40",
   "status": "proved",
   "theorems": [
    "c40_nearest",
    "c40_answers",
    "c40_scratch_restored",
    "c40_smallest_index_refuted"
   ],
   "note": "exact arithmetic; restoring the scratch state for any float operations; the tie by computation in binary64"
  },
  {
   "property": "C41",
   "status": "proved",
   "theorems": [
    "c41_boundary_events",
    "c41_unknown_condition_panics",
    "c41_check_ignores_condition",
    "c41_accepted_unknown_panics"
   ],
   "note": "Any float type for the events; the panic of accepted parameters is in exact arithmetic."
  },
  {
   "property": "C42",
   "status": "proved",
   "theorems": [
    "c42_accepted_iff_integrity",
    "c42_errors_say",
    "c42_order_free",
    "c42_lookups_succeed",
    "c42_set_up_succeeds"
   ],
   "note": "Any float type; the success of the whole set-up is in exact arithmetic."
  },
  {
   "property": "C43",
   "status": "proved",
   "theorems": [
    "c43_defaults_errors",
    "c43_defaults_accepted",
    "c43_material_in_the_box",
    "c43_default_run_starts"
   ],
   "note": "Any float type; the start of the default run is in exact arithmetic."
  },
  {
   "property": "C44",
   "status": "proved",
   "theorems": [
    "c44_first_geometry",
    "c44_material_exists",
    "c44_undefined_shape_panics"
   ],
   "note": "any float operations"
  },
  {
   "property": "C45",
   "status": "proved",
   "theorems": [
    "c45_accepted_meaning",
    "c45_acceptance",
    "c45_meaning_unique",
    "c45_file_pieces",
    "c45_key_order",
    "c45_key_order_of_errors_refuted"
   ],
   "note": "The reader of yaml texts and the parser of reals are parameters; blocks have distinct keys."
  },
  {
   "property": "C46",
   "status": "proved",
   "theorems": [
    "c46_fluence_check_vacuous"
   ],
   "note": ""
  },
  {
   "property": "C47",
   "status": "proved",
   "theorems": [
    "c47_spectrum_per_group",
    "c47_spectrum_total"
   ],
   "note": ""
  },
  {
   "property": "C48",
   "status": "proved",
   "theorems": [
    "c48_crossing"
   ],
   "note": "Any float semantics, any grid."
  },
  {
   "property": "C49",
   "status": "proved",
   "theorems": [
    "c49_run_never_panics",
    "c49_shared_arrays_in_range",
    "c49_set_up_indexed",
    "c49_program_never_panics",
    "c49_default_run_never_panics",
    "c49_binary64_run_never_panics"
   ],
   "note": "No outcome of a run is a panic (index out of range, failed assertion, failed conversion), for every schedule; in any arithmetic with the usual signs, in exact arithmetic from the command line on, and in binary64 for problems whose cross-sections, neutron yields and source counts are in stated ranges. Energies above the last boundary are excluded by hypothesis, as in the claim."
  },
  {
   "property": "C50",
   "status": "proved",
   "theorems": [
    "c50_chunks_partition",
    "c50_dynamic_size"
   ],
   "note": ""
  },
  {
   "property": "C51",
   "status": "proved",
   "theorems": [
    "c51_sort_stable",
    "c51_sort_unique"
   ],
   "note": ""
  },
  {
   "property": "C52",
   "status": "proved",
   "theorems": [
    "c52_section_statistics",
    "c52_main_statistics",
    "c52_reported_order",
    "c52_efficiency",
    "c52_columns_add_up",
    "c52_timers_defined",
    "c52_times_nest",
    "c52_all_time_counted_refuted",
    "c52_no_cycle_refuted",
    "c52_report_lines",
    "c52_figure_of_merit"
   ],
   "note": "Over any sequence of clock readings. The efficiency column is in [0,100] in exact arithmetic. Two refutations: the last synchronisation's time is not counted, and a run without cycles reports Duration::MAX as minimum."
  },
  {
   "property": "C53",
   "status": "proved",
   "theorems": [
    "c53_variable",
    "c53_bounds",
    "c53_symmetric",
    "c53_self",
    "c53_constant",
    "c53_units",
    "c53_lengths",
    "c53_saved_table",
    "c53_binary64_constant_refuted",
    "c53_binary64_empty_refuted"
   ],
   "note": "Exact arithmetic for the statistics; any arithmetic for the table; two binary64 refutations."
  },
  {
   "property": "C54",
   "status": "proved",
   "theorems": [
    "c54_tallies",
    "c54_run",
    "c54_timers"
   ],
   "note": "How floats are turned into text and parsed is a parameter, asked to be read back; quoting in csv is not modelled."
  },
  {
   "property": "C55",
   "status": "proved",
   "theorems": [
    "c55_domain_numbering",
    "c55_lookup",
    "c55_lookup_panics"
   ],
   "note": ""
  },
  {
   "property": "C56",
   "status": "proved",
   "theorems": [
    "c56_split_factor",
    "c56_foreseen_number"
   ],
   "note": "Real arithmetic."
  },
  {
   "property": "C57",
   "status": "proved",
   "theorems": [
    "c57_saved_comparison",
    "c57_change",
    "c57_change_of_totals_refuted"
   ],
   "note": "Lines for any arithmetic, meaning of the change in exact arithmetic; refuted for the totals printed beside it."
  },
  {
   "property": "C58",
   "status": "proved",
   "theorems": [
    "c58_scaling_study",
    "c58_ideal_speedup",
    "c58_ideal_speedup_refuted",
    "c58_no_run_panics"
   ],
   "note": "Lines for any arithmetic; the ideal speedup in exact arithmetic; refuted when the study does not start at one thread."
  },
  {
   "property": "C59",
   "status": "proved",
   "theorems": [
    "c59_track_stays",
    "c59_run_logged",
    "c59_run_stays",
    "c59_past_an_edge_refuted"
   ],
   "note": "Exact arithmetic. The log of a run (particles created, every segment of every track) is an inductive relation whose existence is proved for every run; every happening is in the cell of the particle as long as those before are off edges (and, collisions, sources and census, off faces). The exception on edges is real: c59_past_an_edge_refuted gives a particle that leaves its cell."
  },
  {
   "property": "C60",
   "status": "proved",
   "theorems": [
    "c60_written",
    "c60_values",
    "c60_total",
    "c60_energy",
    "c60_one_material",
    "c60_cells",
    "c60_columns",
    "c60_names_run_together"
   ],
   "note": "Written without panic for all built data; values, totals and energies in exact arithmetic; layout for any way of writing numbers without bars, blanks and ends of lines. With several materials the columns run together (c60_names_run_together)."
  },
  {
   "property": "C61",
   "status": "proved",
   "theorems": [
    "c61_group_current",
    "c61_built",
    "c61_file",
    "c61_levels"
   ],
   "note": "The intervals are in exact arithmetic; c16_lookup_correct gives what the lookup means in binary64."
  },
  {
   "property": "C62",
   "status": "proved",
   "theorems": [
    "c62_counting",
    "c62_uniform",
    "c62_free_path",
    "c62_roulette",
    "c62_low_weight",
    "c62_split",
    "c62_isotropic",
    "c62_azimuth",
    "c62_scatter_energy",
    "c62_scatter_angle",
    "c62_scatter_azimuth",
    "c62_frame",
    "c62_fission_number",
    "c62_fission_energy",
    "c62_partner",
    "c62_source"
   ],
   "note": "Exact arithmetic for the laws (ln 0 = 0 concerns one seed range and is inside the tolerance); the uniform law in binary64 too. The shares count seeds exactly; the tolerances are 2^-53, 2^-52 or 2^-51. The azimuth of scattering is stated for directions at least 1e-6 off the vertical, where the code uses the true frame."
  },
  {
   "property": "C63",
   "status": "proved",
   "theorems": [
    "c63_speed",
    "c63_segment",
    "c63_track",
    "c63_run_energy",
    "c63_run_light"
   ],
   "note": "In exact arithmetic. The run theorems use the log of C59: c63_run_energy holds for every log, c63_run_light as long as nothing happened on an edge or face (C59 shows the condition is needed). Materials heavier than a neutron: a lighter one can leave a particle with a negative energy."
  },
  {
   "property": "C64",
   "status": "proved",
   "theorems": [
    "c64_run_history",
    "c64_ages",
    "c64_no_older_than_run",
    "c64_ancestors",
    "c64_late_fission_refuted"
   ],
   "note": "In exact arithmetic. c64_late_fission_refuted shows that the condition in_time (no collision at the very end of a cycle) is needed."
  },
  {
   "property": "C65",
   "status": "proved",
   "theorems": [
    "c65_weight_kept",
    "c65_cycle_balance",
    "c65_source_weight",
    "c65_run_weights_positive",
    "c65_flux_cycle",
    "c65_flux_run",
    "c65_flux_not_negative",
    "c65_flux_measures_distance"
   ],
   "note": "The run-level clauses are in exact arithmetic; that the length counted is the distance flown is for segments before anything happened on an edge or, crossings and reflections apart, on a face (see C59)."
  },
  {
   "property": "C66",
   "status": "proved",
   "theorems": [
    "c66_zero_takes_nothing",
    "c66_collision_partner",
    "c66_excluded_kind",
    "c66_only_kind",
    "c66_closed",
    "c66_reflecting",
    "c66_box",
    "c66_ratio_zero",
    "c66_program",
    "c66_default_closed",
    "c66_without_density_refuted"
   ],
   "note": "In any arithmetic where zero takes nothing away, in particular binary64 with any mathematical library; from the parameters in exact arithmetic. Refuted for a cell of density zero, which no accepted input builds."
  },
  {
   "property": "C67",
   "status": "proved",
   "theorems": [
    "c67_paths",
    "c67_path",
    "c67_collisions",
    "c67_crossings",
    "c67_segments",
    "c67_track_ends",
    "c67_phase_ends"
   ],
   "note": "Exact arithmetic. The bound holds for lines on which nothing happens on an edge between faces (the mesh search is ambiguous there) and no collision at the very end of the cycle (its children get a whole cycle more, see C64). In exact arithmetic ln 0 is 0, in the code minus infinity: a draw of zero gives zero paths here, drawn again, and infinitely many there; the bound on segments holds in both readings."
  },
  {
   "property": "C68",
   "status": "proved",
   "theorems": [
    "c68_run_returns",
    "c68_program_returns"
   ],
   "note": "Run level: given bounds on energies and cross-sections of a built problem, fuel above the bound of C67 is enough, under every policy and interleaving. Program level: the bounds and the fuel are derived from the parameters. Condition in both: no particle about to be tracked starts on a face or has something happen on an edge, or a collision at the very end of the cycle (measure zero); shown for concrete runs on four threads."
  },
  {
   "property": "C69",
   "status": "proved",
   "theorems": [
    "c69_light_scatter",
    "c69_no_speed",
    "c69_no_census",
    "c69_no_census_track",
    "c69_tracks_end_refuted"
   ],
   "note": "binary64, any mathematical library; the endless track is a witness against C67 without its condition on masses"
  },
  {
   "property": "C70",
   "status": "proved",
   "theorems": [
    "c70_silent_run",
    "c70_idle_run",
    "c70_silent_run_single",
    "c70_idle_run_single"
   ],
   "note": "binary64 and binary32, every problem without a source panics and every problem without requested particles runs empty; volumes and rates that overflow are excluded in the first part"
  },
  {
   "property": "C71",
   "status": "proved",
   "theorems": [
    "c71_empty_run",
    "c71_thin_source",
    "c71_equal_cells",
    "c71_fewer_than_ten",
    "c71_fewer_than_ten_binary64",
    "c71_fewer_than_ten_single"
   ],
   "note": "any arithmetic from the numbers of the cells; exact arithmetic from shares; exact arithmetic, binary64 (sum of weights between 2^-1000 and 2^1000, a condition of this kind is needed) and binary32 (2^-100 to 2^100) from requested numbers"
  },
  {
   "property": "C72",
   "status": "proved",
   "theorems": [
    "c72_sample_range",
    "c72_sample_model",
    "c72_ones_single",
    "c72_ones_double",
    "c72_segments",
    "c72_segment_limit",
    "c72_track_segments",
    "c72_source_segments",
    "c72_next_cycle",
    "c72_run_segments",
    "c72_run_segments_single",
    "c72_segments_double"
   ],
   "note": "binary32 and binary64 samples over all seeds; the segment counter and its limit in binary32 and binary64, tied to the source, the tracking loop and every run"
  }
 ]
}
