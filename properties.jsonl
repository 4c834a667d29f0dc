{"id": "C01", "title": "Random stream has full period", "statement": "Drawing random numbers from a particle's seed walks through all 2^64 seed values before it returns to the starting seed; in particular two different seeds never produce the same next seed.", "quantifier": "every 64-bit seed, every number of draws", "why_tests_cant": "The state space has 2^64 elements; a unit test can only look at a few draws.", "anchors": ["fastiron/src/utils/mc_rng_state.rs:rng_sample"]}
{"id": "C02", "title": "Spawned seeds never collide", "statement": "The seed handed to a spawned particle is a one-to-one function of the parent seed at spawn time, so the seeds spawned one after the other from one parent are pairwise distinct (for fewer than 2^64 spawns and draws). In particular a colliding particle keeps its identifier and advances its own random state by a known number of draws, and each secondary gets an identifier spawned by the colliding particle and a random state derived from that identifier: identifiers and random states of the secondaries are pairwise different.", "quantifier": "every parent seed, every sequence of draws and spawns", "why_tests_cant": "Collision freedom is a statement about all pairs of 2^64 seeds.", "anchors": ["fastiron/src/utils/mc_rng_state.rs:spawn_rn_seed", "fastiron/src/utils/mc_rng_state.rs:hash_state", "fastiron/src/utils/mc_rng_state.rs:pseudo_des"]}
{"id": "C03", "title": "Range of a random sample", "statement": "A sampled number lies in [0,1]; it equals 1 exactly when the new seed is at least 2^64-1024 (so the documented half-open range [0,1[ does not hold) and it equals 0 exactly when the new seed is 0.", "quantifier": "every 64-bit seed, f64 arithmetic with round-to-nearest-even", "why_tests_cant": "The offending seeds are 1024 out of 2^64; no random test finds them.", "anchors": ["fastiron/src/utils/mc_rng_state.rs:rng_sample"]}
{"id": "C04", "title": "Sourced particles are unique", "statement": "All particles created by the source during a whole run have pairwise distinct identifiers and pairwise distinct random seeds, as long as each cell sources fewer than 2^32 particles and there are fewer than 2^32 cells.", "quantifier": "every mesh, every sequence of cycles and per-cell source counts", "why_tests_cant": "Depends on every history of source calls over all cells and cycles.", "anchors": ["fastiron/src/simulation/population_control.rs:source_now", "fastiron/src/geometry/mc_domain.rs:MCDomain::new", "fastiron/src/utils/mc_rng_state.rs:spawn_rn_seed"]}
{"id": "C05", "title": "Number of sourced particles", "statement": "Each cell sources its share of one tenth of the requested number of particles, rounded down: the total never exceeds that tenth and is larger than it minus the number of cells; the Source tally, the population and the cells' source counters grow by exactly that number. A problem in which nothing is emitted is not run with an empty source: it panics.", "quantifier": "every set of cells with non negative volumes and source rates (not all zero), every requested number (exact arithmetic)", "why_tests_cant": "Quantifies over all meshes, volumes and rates.", "anchors": ["fastiron/src/simulation/population_control.rs:source_now"]}
{"id": "C06", "title": "Particle conservation in a cycle", "statement": "At the end of each cycle Start + Source + Produce + Split = Absorb + Census + Escape + OverRr + WeightRr + Fission, and the number of particles kept for the next cycle is the End tally, which equals Census.", "quantifier": "every configuration, every population, every arithmetic (any float semantics, NaN included) and every schedule in which the cycle completes without panic", "why_tests_cant": "Requires summing over all particle histories of a cycle.", "anchors": ["fastiron/src/main.rs:cycle_process", "fastiron/src/main.rs:cycle_sync", "fastiron/src/particles/particle_container.rs:process_particles", "fastiron/src/simulation/cycle_tracking.rs:cycle_tracking_function", "fastiron/src/data/tallies.rs:Balance"]}
{"id": "C07", "title": "Missing-particle test always passes", "statement": "After any completed run the cumulative balance is conserved: gains equal losses plus the particles left, so the missing-particle check of the benchmark report always says PASS.", "quantifier": "every configuration, number of cycles and schedule in which the run completes", "why_tests_cant": "Induction over all cycles of all runs.", "anchors": ["fastiron/src/utils/coral_benchmark_correctness.rs:missing_particle_test", "fastiron/src/data/tallies.rs:Tallies::cycle_finalize", "fastiron/src/main.rs:game_over"]}
{"id": "C08", "title": "Collisions are exactly partitioned by reaction kind", "statement": "In each cycle and cumulatively, Collision = Scatter + Absorb + Fission, and Produce (particles coming out of fissions) equals the number of fission outcomes; each Fission with n outgoing particles adds exactly n to Produce.", "quantifier": "every configuration and schedule, any float semantics", "why_tests_cant": "Holds over all histories of all particles.", "anchors": ["fastiron/src/simulation/collision_event.rs:collision_event", "fastiron/src/data/tallies.rs:Balance"]}
{"id": "C09", "title": "Segment accounting", "statement": "NumSegments = Collision + Census + facet crossings in every cycle and cumulatively, so the facet crossing count computed by the benchmark report as NumSegments - Census - Collision never underflows and equals the real number of facet crossings.", "quantifier": "every configuration and schedule, any float semantics", "why_tests_cant": "Holds over all histories of all particles.", "anchors": ["fastiron/src/utils/coral_benchmark_correctness.rs:balance_event_test", "fastiron/src/simulation/cycle_tracking.rs:cycle_tracking_function"]}
{"id": "C10", "title": "Start/End chaining", "statement": "Start of a cycle equals End of the previous cycle (0 for the first one), and the cumulative tallies are the sums of the per-cycle ones with nothing lost or counted twice.", "quantifier": "every number of cycles, every configuration", "why_tests_cant": "Induction over the number of cycles.", "anchors": ["fastiron/src/main.rs:cycle_sync", "fastiron/src/data/tallies.rs:Tallies::cycle_finalize"]}
{"id": "C11", "title": "Containers are drained", "statement": "When a cycle completes, no particle is left waiting for tracking or in the extra storage, every particle kept for the next cycle is a valid one that reached census, and its time to census is zero.", "quantifier": "every configuration and schedule", "why_tests_cant": "Statement about all reachable states at cycle end.", "anchors": ["fastiron/src/main.rs:cycle_process", "fastiron/src/particles/particle_container.rs"]}
{"id": "C12", "title": "Tracking result is independent of the parallel schedule", "statement": "Processing a population in parallel, with any chunk size, any number of threads and any order of completion, gives the same tallies and the same processed particles in the same order as processing it sequentially, and the same set (multiset) of newly created particles.", "quantifier": "every population, chunk size, thread count and interleaving, any float semantics", "why_tests_cant": "There are factorially many interleavings.", "anchors": ["fastiron/src/particles/particle_container.rs:process_particles"]}
{"id": "C13", "title": "Whole-run reproducibility", "statement": "For fixed parameters, the balance tallies of every cycle do not depend on the execution policy, the chunk size or the number of threads, nor on the order in which extra particles are appended.", "quantifier": "every configuration, number of cycles, schedule", "why_tests_cant": "Quantifies over all schedules of all cycles.", "anchors": ["fastiron/src/main.rs:cycle_process", "fastiron/src/particles/particle_container.rs:process_particles", "fastiron/src/particles/particle_container.rs:sort_processing"]}
{"id": "C14", "title": "Cross-section cache is transparent", "statement": "Whatever the state of the cache reachable during a run, looking up a total cross section gives the value that a fresh computation would give; concurrent fillers can only write the same value.", "quantifier": "every cell, energy group, history of lookups and interleaving", "why_tests_cant": "Cache states are built by arbitrary concurrent histories.", "anchors": ["fastiron/src/simulation/macro_cross_section.rs:weighted_macroscopic_cross_section", "fastiron/src/montecarlo.rs:XSCache", "fastiron/src/montecarlo.rs:clear_cross_section_cache"]}
{"id": "C15", "title": "Flux tally loses no update", "statement": "The scalar flux recorded in a (cell, energy group) entry is the sum of the contributions of all segments in that cell and group, in any order of updates (exact arithmetic); distinct valid (cell, group) pairs use distinct entries; in floating point the order does matter.", "quantifier": "every multiset of contributions and every order of the atomic updates", "why_tests_cant": "All interleavings of atomic updates.", "anchors": ["fastiron/src/data/tallies.rs:ScalarFluxDomain", "fastiron/src/simulation/cycle_tracking.rs:cycle_tracking_function"]}
{"id": "C16", "title": "Energy group lookup is correct", "statement": "For an energy inside [e_min, e_max] the lookup terminates and returns the unique group whose boundaries enclose the energy (the last group for e_max itself); lower energies give group 0.", "quantifier": "every strictly increasing list of boundaries and every energy", "why_tests_cant": "All sorted arrays of all lengths.", "anchors": ["fastiron/src/data/nuclear_data.rs:NuclearData::get_energy_groups"]}
{"id": "C17", "title": "Energies above the maximum are not handled", "statement": "An energy above e_max yields the group number n_groups, which is not a valid group: reading a cross section there is an out-of-bounds panic, and the cache and flux entries used are those of group 0 of the next cell.", "quantifier": "every number of groups, every energy above e_max", "why_tests_cant": "All configurations; reachable from fission outputs of up to 20 MeV when e_max is below 20.", "anchors": ["fastiron/src/data/nuclear_data.rs:NuclearData::get_energy_groups", "fastiron/src/montecarlo.rs:XSCache", "fastiron/src/particles/mc_particle.rs:sample_collision"]}
{"id": "C18", "title": "Energy boundaries", "statement": "The energy boundaries built for n groups are n+1 strictly increasing values, the first one e_min and the last one e_max; all groups but the last have the same logarithmic width and the last one is twice as wide (the width used is log(e_max/e_min)/(n+1)).", "quantifier": "every e_min < e_max (positive) and every number of groups", "why_tests_cant": "All real pairs and all numbers of groups.", "anchors": ["fastiron/src/data/nuclear_data.rs:NuclearData::new"]}
{"id": "C19", "title": "Reaction mix of an isotope", "statement": "An isotope built with n reactions has exactly n of them, in the cyclic order scatter, fission, absorption; the three kinds occur ceil/floor of n/3 times as the weights assume, and every reaction has one cross section per energy group.", "quantifier": "every number of reactions and groups", "why_tests_cant": "All counts.", "anchors": ["fastiron/src/data/nuclear_data.rs:NuclearData::add_isotope", "fastiron/src/data/nuclear_data.rs:Reaction::new"]}
{"id": "C20", "title": "Cross-section normalisation", "statement": "At the energy group around 1 MeV the sum of the reaction cross sections of an isotope equals the requested total cross section when each kind of reaction occurs at least once and the three ratios are not all zero.", "quantifier": "all polynomials (with non zero value at the normalisation energy), ratios and reaction counts >= 3", "why_tests_cant": "All real parameters.", "anchors": ["fastiron/src/data/nuclear_data.rs:NuclearData::add_isotope", "fastiron/src/data/nuclear_data.rs:Reaction::new", "fastiron/src/init.rs:init_nuclear_data"]}
{"id": "C21", "title": "Collision partner selection", "statement": "The (isotope, reaction) pair chosen in a collision is the first one whose cumulative cross section reaches the random threshold, i.e. the threshold lies in the pair's interval; a pair with zero cross section is never chosen and the choice always terminates when the threshold is at most the total cross section.", "quantifier": "all materials, all densities, all draws (exact arithmetic)", "why_tests_cant": "All materials and all random draws.", "anchors": ["fastiron/src/simulation/collision_event.rs:collision_event", "fastiron/src/simulation/macro_cross_section.rs"]}
{"id": "C22", "title": "Outcome of a collision", "statement": "Scattering yields one particle whose energy is not larger than before (and not negative for a mass of at least 1); absorption yields none; fission yields trunc(nu_bar + r) particles with energies of at most 20 MeV, and makes the program stop if this is 5 or more.", "quantifier": "all materials, energies, nu_bar values and draws (exact arithmetic)", "why_tests_cant": "All real inputs.", "anchors": ["fastiron/src/particles/mc_particle.rs:MCParticle::sample_collision", "fastiron/src/simulation/collision_event.rs:collision_event"]}
{"id": "C23", "title": "Population control weights", "statement": "Splitting by a factor f replaces a particle by floor(f) or floor(f)+1 copies of weight w/f each; Russian roulette with factor f < 1 kills a particle or leaves one of weight w/f; low-weight roulette kills or leaves weight w/cutoff and only touches particles whose relative weight is at most the cutoff. Energy, position and direction are not changed.", "quantifier": "every particle, factor and draw", "why_tests_cant": "All real inputs.", "anchors": ["fastiron/src/particles/mc_particle.rs:under_populated_split", "fastiron/src/particles/mc_particle.rs:over_populated_rr", "fastiron/src/particles/mc_particle.rs:low_weight_rr"]}
{"id": "C24", "title": "Population control is unbiased", "statement": "Averaged over the random draw, total weight is preserved exactly: expected number of split copies times w/f is w, survival probability times survivor weight is w.", "quantifier": "every weight and factor, uniform draw on [0,1) (exact arithmetic, measured on the unit interval)", "why_tests_cant": "An expectation over a continuum of draws.", "anchors": ["fastiron/src/particles/mc_particle.rs:under_populated_split", "fastiron/src/particles/mc_particle.rs:over_populated_rr", "fastiron/src/particles/mc_particle.rs:low_weight_rr"]}
{"id": "C25", "title": "Next event is the nearest one", "statement": "The outcome of a segment is the nearest of collision, census and facet crossing, and the recorded segment length is the distance of the event; on ties collision wins over census and census over facet.  A particle with a negative number of mean free paths always collides, at the tiny distance of the code.  The particle ends where its direction leads after that distance.  With a complete mesh and quantities that are not negative a segment always has an outcome.", "quantifier": "all particles and meshes (exact arithmetic for the order)", "why_tests_cant": "All real inputs.", "anchors": ["fastiron/src/simulation/mc_segment_outcome.rs"]}
{"id": "C26", "title": "Time bookkeeping of a particle", "statement": "Along a track the time to census never increases, the age never decreases and their sum never increases, for the particle and for the ones it creates; the sum is constant when all the materials are heavier than a neutron (otherwise a particle may lose all its energy and stop); at census the time to census is exactly zero.", "quantifier": "every track of any length (exact arithmetic)", "why_tests_cant": "Induction over segments.", "anchors": ["fastiron/src/simulation/mc_segment_outcome.rs:outcome", "fastiron/src/simulation/cycle_tracking.rs:cycle_tracking_function"]}
{"id": "C27", "title": "Nearest facet choice", "statement": "The distance computed for a facet is the one at which the flight meets the plane of the facet, when the facet is flown out through and met within its corners (up to 1e-9 in barycentric coordinates), and huge otherwise; among these distances the smallest positive one is returned (the last index on ties), failing that the first of the largest non positive ones with distance 0, failing that none (huge).", "quantifier": "all lists of facet distances, all directions", "why_tests_cant": "All real inputs.", "anchors": ["fastiron/src/simulation/mct.rs:mct_nf_compute_nearest", "fastiron/src/simulation/mct.rs:mct_nf_3dg"]}
{"id": "C28", "title": "Nearest facet search terminates; retries do not change the answer", "statement": "The nearest-facet search ends after at most 1000 retries; the retries (which move the particle) do not change the distances that are looked at, so the returned facet and distance are those of the first attempt.", "quantifier": "all particles and meshes, any float semantics", "why_tests_cant": "All inputs.", "anchors": ["fastiron/src/simulation/mct.rs:mct_nf_3dg", "fastiron/src/simulation/mct.rs:check_nearest_validity"]}
{"id": "C29", "title": "Grid numbering is one-to-one", "statement": "Cell numbers and cell coordinates are in one-to-one correspondence, as are node numbers and node coordinates, for every grid.", "quantifier": "all grid dimensions", "why_tests_cant": "All sizes.", "anchors": ["fastiron/src/geometry/global_fcc_grid.rs"]}
{"id": "C30", "title": "Face neighbours are symmetric", "statement": "Each interior face leads to the cell one step away along its axis and that cell's opposite face leads back; a face leads to the cell itself exactly when it lies on the problem boundary. Holds for fewer than 2^31 cells along each axis; with 2^32 the neighbours cannot be computed (panic).", "quantifier": "all grid dimensions, all cells, all six faces", "why_tests_cant": "All sizes.", "anchors": ["fastiron/src/geometry/global_fcc_grid.rs:get_face_nbr_gids", "fastiron/src/geometry/mod.rs:FACE_OFFSET", "fastiron/src/geometry/global_fcc_grid.rs:snap_turtle"]}
{"id": "C31", "title": "The mesh is watertight", "statement": "Across every interior face each triangular facet has exactly one facet of the neighbour with the same three corner nodes in reversed orientation, on the opposite face. The table OPPOSING_FACET names that facet for the faces orthogonal to x and y, and names a wrong one for every facet of every interior face orthogonal to z.", "quantifier": "all grid dimensions, cells and facets", "why_tests_cant": "All sizes.", "anchors": ["fastiron/src/geometry/mc_domain.rs:NODE_INDIRECT", "fastiron/src/geometry/mc_domain.rs:OPPOSING_FACET", "fastiron/src/geometry/mod.rs:CORNER_OFFSET"]}
{"id": "C32", "title": "Local node numbering", "statement": "The domain's node table numbers the nodes used by its cells 0..n-1 with no gap and no duplicate, whatever the order in which the cells are visited.", "quantifier": "all cell lists", "why_tests_cant": "All sizes and visiting orders.", "anchors": ["fastiron/src/geometry/mc_domain.rs:bootstrap_node_map"]}
{"id": "C33", "title": "Domain partition is complete", "statement": "With one processor, building the mesh partition from any center inside the grid terminates and assigns every cell of the grid to the domain exactly once, with a one-to-one local numbering. A center outside of the grid (which a random sample equal to 1.0 produces) gives the domain a cell that does not exist.", "quantifier": "all grid dimensions, all centers", "why_tests_cant": "All sizes.", "anchors": ["fastiron/src/geometry/mesh_partition.rs"]}
{"id": "C34", "title": "Adjacency data is consistent", "statement": "In a built mesh, crossing a facet and then the opposing facet of the cell reached leads back to the starting cell and facet; boundary facets stay in place; the mesh consistency check can therefore never report an error on a single processor when the center of the domain is inside the grid. For the seeds that draw a center outside of the grid the initialisation panics.", "quantifier": "all grid dimensions, boundary conditions, cells and facets", "why_tests_cant": "All sizes.", "anchors": ["fastiron/src/geometry/mc_domain.rs:make_facet", "fastiron/src/init.rs:consistency_check", "fastiron/src/simulation/mc_facet_crossing_event.rs"]}
{"id": "C35", "title": "Cell location", "statement": "The cell found at the center of cell i is cell i; any point strictly inside a cell is located in that cell; the mean of the 14 nodes of a cell is its center and its volume is dx*dy*dz.", "quantifier": "all grids (exact arithmetic)", "why_tests_cant": "All real sizes.", "anchors": ["fastiron/src/geometry/global_fcc_grid.rs:which_cell", "fastiron/src/geometry/global_fcc_grid.rs:cell_center", "fastiron/src/simulation/mct.rs:cell_position_3dg", "fastiron/src/simulation/mct.rs:compute_volume"]}
{"id": "C36", "title": "Facet planes", "statement": "The plane of each facet has a unit normal that points out of the cell and contains the three points of the facet.", "quantifier": "all grids with positive sizes (exact arithmetic); all non-degenerate triples of points", "why_tests_cant": "All real sizes.", "anchors": ["fastiron/src/geometry/facets.rs:MCGeneralPlane::new"]}
{"id": "C37", "title": "Reflection is an isometry", "statement": "Reflecting a particle on a boundary facet keeps the speed and the tangential part of its direction and makes it point into the mesh; it does nothing to a particle that already moves inward.", "quantifier": "all unit normals and directions (exact arithmetic)", "why_tests_cant": "All real inputs.", "anchors": ["fastiron/src/simulation/mct.rs:reflect_particle"]}
{"id": "C38", "title": "Direction sampling", "statement": "Sampled directions are unit vectors and a scattering rotation gives a unit direction whose angle to the old one has the requested cosine.", "quantifier": "all draws, all unit directions not along z (exact arithmetic)", "why_tests_cant": "All real inputs.", "anchors": ["fastiron/src/particles/mc_particle.rs:sample_isotropic", "fastiron/src/particles/mc_particle.rs:rotate_direction", "fastiron/src/particles/mc_particle.rs:update_trajectory"]}
{"id": "C39", "title": "Sourced particles start inside their cell", "statement": "The point sampled for a new particle lies inside its cell.", "quantifier": "all grids, cells and draws (exact arithmetic)", "why_tests_cant": "All real inputs.", "anchors": ["fastiron/src/simulation/mct.rs:generate_coordinate_3dg"]}
{"id": "C40", "title": "Nearest center search is exact", "statement": "The search over the auxiliary grid returns a center of minimal distance although it prunes most of the grid, and restores its scratch state; ties are not resolved towards the smallest index.", "quantifier": "all lists of centers and points (exact arithmetic)", "why_tests_cant": "All real inputs.", "anchors": ["fastiron/src/geometry/grid_assignment_object.rs"]}
{"id": "C41", "title": "Boundary behaviour follows the parameter", "statement": "Facets on the problem boundary get the event requested by the boundary condition: reflect, escape, or octant (reflect on the three low faces and escape on the three high ones); interior facets get a transit. The integrity check never looks at the string; accepted parameters of sane sizes make the set-up panic exactly when the string is none of the three.", "quantifier": "all grids, cells, facets, strings", "why_tests_cant": "All sizes and strings.", "anchors": ["fastiron/src/geometry/mc_domain.rs:get_boundary_conditions", "fastiron/src/geometry/mc_domain.rs:make_facet", "fastiron/src/parameters.rs:check_parameters_integrity"]}
{"id": "C42", "title": "Parameter integrity check", "statement": "The integrity check accepts the parameters exactly when there is a geometry, each geometry has a defined shape and names a known material, and each material names three known cross-sections; each error reported names a mistake that is there and each mistake is reported; the errors do not depend on the iteration order of the maps (up to their order). The lookups made by the initialisation with accepted parameters succeed.", "quantifier": "all parameter sets, all iteration orders", "why_tests_cant": "All parameter sets.", "anchors": ["fastiron/src/parameters.rs:check_parameters_integrity"]}
{"id": "C43", "title": "Default parameters are valid", "statement": "If the user gives no geometry, the parameters after filling in the defaults only lack cross-sections of materials given by the user; every point of the box has the default material; a run without input file and with sane sizes gets to its first cycle.", "quantifier": "all parameter sets without geometry", "why_tests_cant": "All parameter sets.", "anchors": ["fastiron/src/parameters.rs:supply_defaults"]}
{"id": "C44", "title": "Material of a point", "statement": "The material of a point is that of the first geometry (last in the input file) that contains it; it exists exactly when some geometry contains it.", "quantifier": "all geometry lists and points", "why_tests_cant": "All lists.", "anchors": ["fastiron/src/geometry/mc_domain.rs:find_material", "fastiron/src/geometry/mc_domain.rs:is_inside"]}
{"id": "C45", "title": "Input parsing", "statement": "Accepted parameters are determined by the blocks of the file and the command line: unknown keys and bad values are rejected, the first block of the file wins for each setting, material and cross-section, the command line wins for the two output files and loses for the other settings; the order of the pairs of a block does not matter, unless a switch is an empty text.", "quantifier": "all block lists, all orders of keys", "why_tests_cant": "All files and hash orders.", "anchors": ["fastiron/src/utils/input.rs:parse_input_file", "fastiron/src/parameters.rs:from_block"]}
{"id": "C46", "title": "Fluence check is vacuous", "statement": "The fluence check of the benchmark report never fails, since the fluence table is never given any cell.", "quantifier": "all runs", "why_tests_cant": "Needs all reachable states.", "anchors": ["fastiron/src/data/tallies.rs:FluenceDomain", "fastiron/src/utils/coral_benchmark_correctness.rs:fluence_test"]}
{"id": "C47", "title": "Energy spectrum totals", "statement": "Each cycle adds one entry per particle kept at census to the spectrum, so the spectrum's total is the sum of the End tallies, and no update is out of range as long as groups are valid.", "quantifier": "all runs", "why_tests_cant": "Induction over cycles.", "anchors": ["fastiron/src/montecarlo.rs:update_spectrum", "fastiron/src/data/energy_spectrum.rs"]}
{"id": "C48", "title": "Crossing a facet", "statement": "After crossing an interior facet the particle is in the cell one step further in the direction of the face, on the facet by which it entered, which leads back; at the boundary a reflected particle stays in its cell and is reflected at the plane of the facet, an escaped one is counted once and dropped; nothing else changes.", "quantifier": "all meshes, facets and particles", "why_tests_cant": "All sizes.", "anchors": ["fastiron/src/simulation/mc_facet_crossing_event.rs", "fastiron/src/simulation/cycle_tracking.rs"]}
{"id": "C49", "title": "Indices stay in range", "statement": "During a run no array access by cell, group, material or facet index is out of range, provided energies stay within [.., e_max].", "quantifier": "all runs, all schedules", "why_tests_cant": "Invariant over all histories.", "anchors": ["fastiron/src/simulation/cycle_tracking.rs", "fastiron/src/montecarlo.rs:XSCache", "fastiron/src/data/tallies.rs:ScalarFluxDomain"]}
{"id": "C50", "title": "Work chunks cover the population", "statement": "The dynamic chunk size never produces more chunks than threads, and chunks partition the population: each particle is processed exactly once.", "quantifier": "all population sizes and positive thread counts", "why_tests_cant": "All sizes.", "anchors": ["fastiron/src/particles/particle_container.rs:process_particles", "fastiron/src/particles/particle_collection.rs"]}
{"id": "C51", "title": "Population sorting", "statement": "Sorting the particles before tracking is a stable permutation ordered by (cell, energy group).", "quantifier": "all populations", "why_tests_cant": "All lists.", "anchors": ["fastiron/src/particles/particle_container.rs:sort_processing"]}
{"id": "C52", "title": "Timer statistics", "statement": "For each timed section and a run of at least one cycle: the reported minimum, truncated average and maximum are those of the time measured in the section per cycle, in that order, and the total is the sum over cycles of the measured durations; the number of calls is the number of measurements. The last synchronisation of a run is counted as a call but its time is left out of the total, and a run without cycles reports the largest duration as the shortest one (both shown). The time columns of the tallies report add up to the totals of the timer report. With a clock that does not go back nothing overflows, sorting and processing lie within tracking, and the sections within the main one.", "quantifier": "all sequences of measured durations", "why_tests_cant": "All histories.", "anchors": ["fastiron/src/utils/mc_fast_timer.rs"]}
{"id": "C53", "title": "Statistics tool", "statement": "In exact arithmetic variances are non negative and zero only for constant series, correlations are symmetric and lie in [-1,1], the correlation of a non constant series with itself is 1, with a constant series 0, and a change of units leaves correlations unchanged up to sign; series of different lengths panic. Each cell of the saved correlation table is the correlation of the two series named by its line and column. In binary64 a constant series may have a non zero correlation, and a report without lines gives NaN (shown).", "quantifier": "all data series (exact arithmetic)", "why_tests_cant": "All real series; Cauchy-Schwarz.", "anchors": ["fastiron-stats/src/structures/raw.rs:TalliedVariable", "fastiron-stats/src/structures/processed.rs:CorrelationResults"]}
{"id": "C54", "title": "Report columns agree between the two programs", "statement": "The tallies file that a run leaves, and the timers file, are read by the statistics tool without panic; each name of the tool stands for the quantity the simulation wrote in the column (or the line) of that name, cycle by cycle, whatever the file contained before.", "quantifier": "all reports", "why_tests_cant": "Cross-program contract.", "anchors": ["fastiron/src/data/tallies.rs:Tallies", "fastiron/src/utils/mc_fast_timer.rs", "fastiron-stats/src/structures/raw.rs"]}
{"id": "C55", "title": "Rank/domain numbering", "statement": "Domain identifiers are assigned to ranks so that identifier to (rank, index) and back is one-to-one, and the lookup of an identifier finds the rank that holds it.", "quantifier": "all numbers of ranks and domains per rank", "why_tests_cant": "All sizes.", "anchors": ["fastiron/src/utils/decomposition_object.rs", "fastiron/src/utils/comm_object.rs"]}
{"id": "C56", "title": "Split factor follows the population", "statement": "The split factor is the requested number of particles divided by the current one (the size of the population after the source with load balance; without it the population at the start of the cycle plus a tenth of the target): population control splits only below the target and plays roulette only above it; at the target nothing at all is changed, low-weight roulette included.", "quantifier": "all populations", "why_tests_cant": "All sizes.", "anchors": ["fastiron/src/simulation/population_control.rs:compute_split_factor", "fastiron/src/main.rs:cycle_process"]}
{"id": "C57", "title": "Comparison of two timer reports", "statement": "comparison.csv has one line per section, in order, with its name, the totals of the old and of the new report, and the relative change in percent of the means: new mean = old mean * (1 + change/100), positive exactly when the new mean is larger. It is not the change of the totals printed beside it: with different numbers of cycles the totals may double while the change is 0 (shown).", "quantifier": "all pairs of timer reports", "why_tests_cant": "All pairs of reports; relation between the printed columns.", "anchors": ["fastiron-stats/src/structures/processed.rs:ComparisonResults"]}
{"id": "C58", "title": "Scaling studies", "statement": "A scaling study over t_iter runs reads the reports named after t_init * t_factor^i threads and saves, for each run, the means of its sections and the ideal tracking time (that of the first run, divided by t_factor^i for strong scaling); with no run it panics. For a strong scaling study starting at one thread, ideal times give the ideal speedups of the plot; when it starts at more threads they do not (shown).", "quantifier": "all numbers of runs, thread counts below 2^64 and reports", "why_tests_cant": "All study sizes; consistency between two notions of ideal.", "anchors": ["fastiron-stats/src/structures/processed.rs:ScalingResults", "fastiron-stats/src/main.rs"]}
{"id": "C59", "title": "Particles stay in the cell they say they are in", "statement": "In exact arithmetic, in the mesh of any grid of cells of positive size: a particle that is in its cell (the box of the grid that its cell number stands for, faces included) and not about to leave it flies each segment inside of that cell, the facet it is found to leave by is on the first face of the cell on its way, and after a crossing, a reflection, a collision or census it is in the cell it then says; so are the particles created by collisions and by the source, in every cycle of a run, and the particles kept for the next cycle. This holds as long as no collision, source or census happens exactly on a face and no crossing exactly on an edge. On edges it fails: a particle that crosses a face at an edge, flying nearly along the other face of that edge, passes that face unnoticed and ends outside of its cell (refuted claim, by the tolerance of the facet test).", "quantifier": "for every grid, boundary condition, geometry, parameter set with a time step that is not negative, number of cycles, seed, particle position, direction and energy; every order of tracking", "why_tests_cant": "The facet choice depends on real coordinates through comparisons with tolerances; a test flies a few particles through a few cells and cannot exclude a direction for which the wrong facet is chosen, nor can it hit the edges of the cells.", "anchors": ["fastiron/src/simulation/mct.rs:nearest_facet", "fastiron/src/simulation/mct.rs:mct_nf_3dg_dist_to_segment", "fastiron/src/simulation/mc_segment_outcome.rs:outcome", "fastiron/src/simulation/cycle_tracking.rs"]}
{"id": "C60", "title": "Table of cross-sections", "statement": "When a name is given, the table of cross-sections is written without a panic for all parameters for which the data can be built. Line g has the middle energy of group g, which the lookup maps back to g, and for each material the macroscopic cross-sections for unit density of absorption, fission and scattering; times the density of a cell they add up to the total cross-section that the tracking uses there, up to the values below the smallest printed one. Names and values come in the same order of the materials. With one material the file has five columns; with several, nothing separates the last column of a material from the first one of the next, so that names run together.", "quantifier": "all parameters, materials, groups, densities and iteration orders of the hash map", "why_tests_cant": "Relates the written table to the sums used by the tracking for all numbers of isotopes, reactions and groups, and the layout for all numbers of materials and all hash orders.", "anchors": ["fastiron/src/init.rs:30-47", "fastiron/src/init.rs:332-441", "fastiron/src/simulation/macro_cross_section.rs:43-62"]}
{"id": "C61", "title": "File of the energy spectrum", "statement": "At the end of a run that ends normally the spectrum file is written, without a panic, exactly when a name is given. It has a line for each energy group and one more; line g shows g, boundary g and the number of particles, over the ends of all cycles, whose energy lies in group g: from boundary g to boundary g+1, the first line also having what is below all boundaries and the last one what is above all of them. The group stored in a particle at the end of a cycle is always that of its current energy.", "quantifier": "all problems, runs, numbers of cycles and groups, any arithmetic (the intervals: exact arithmetic)", "why_tests_cant": "The count is an invariant over all cycles and all tracks (the stored group must never be stale), for every history of collisions, crossings and schedules.", "anchors": ["fastiron/src/data/energy_spectrum.rs:23-71", "fastiron/src/montecarlo.rs:161-185", "fastiron/src/simulation/cycle_tracking.rs:31-84", "fastiron/src/main.rs:156-177"]}
{"id": "C62", "title": "Laws of the samples over all seeds", "statement": "Counted over all the 2^64 seeds, up to a few units in the last place of a binary64 number, the samples follow their laws: the random number is at most x for a share x of the seeds; the number of mean free paths exceeds t for a share exp(-t); a particle survives the roulette of population control for a share equal to the factor and the one on low weights for a share equal to the cutoff; a split gives floor(f)+1 particles for a share equal to the fractional part of f and floor(f) otherwise; sampled directions have a uniform vertical component and a uniform angle around the vertical; scattering keeps a uniform part of the energy, turns by an angle of uniform cosine, uniformly around the old direction; fission gives nu_bar particles on average, with energy at most e for a share 2*sqrt(e/20)-1; the partner of a collision is reaction k for a share equal to its part of the total cross-section; over the values of the counter of a cell, created particles have uniform vertical direction, uniform energy between the bounds, uniform time to census and exponential free paths.", "quantifier": "all particles, materials, reactions and thresholds; shares over all 2^64 seeds; exact arithmetic (the uniform law also in binary64)", "why_tests_cant": "A law over 2^64 seeds cannot be enumerated, and a statistical test on samples only bounds the error loosely and for the parameters tried.", "anchors": ["fastiron/src/utils/mc_rng_state.rs:11-18", "fastiron/src/particles/mc_particle.rs:92-230", "fastiron/src/particles/mc_particle.rs:272-325", "fastiron/src/simulation/collision_event.rs:29-110", "fastiron/src/simulation/population_control.rs:71-170"]}
{"id": "C63", "title": "Nothing outruns light", "statement": "The speed of a particle is the relativistic speed of a neutron of its kinetic energy: below the speed of light, positive for a positive energy, growing with the energy. A segment is flown straight at that speed for exactly the time by which the particle ages. Along a track no particle, and no particle created on the way, gets further from the start than light does in the time by which it aged. In a run all energies are positive and none exceeds the larger of the source's largest energy and 20 MeV, the largest energy of fission; and, as long as nothing happened on an edge or (crossings and reflections apart) on a face, each particle of the next census is no further from a place where the source created a particle than light gets in the particle's age.", "quantifier": "all energies; all meshes built from the parameters with cells of positive size; all materials heavier than a neutron; all tracks and runs, any number of cycles; exact arithmetic", "why_tests_cant": "It relates positions, ages and energies over every flight of every run; a test observes some positions of some runs.", "anchors": ["fastiron/src/particles/mc_particle.rs:114-123", "fastiron/src/simulation/mc_segment_outcome.rs:95-240", "fastiron/src/simulation/collision_event.rs:29-110", "fastiron/src/simulation/cycle_tracking.rs:21-205"]}
{"id": "C64", "title": "Ages and ancestors", "statement": "After any number of cycles each particle kept for the next one has an ancestor that the source created in one of these cycles, and its age is exactly the time from that creation to the end of the last cycle: splitting, roulette, collisions, fissions, crossings and the passing of a census neither add nor lose time. So no particle is older than the run. The particle is also no further from the place where that ancestor was created than light gets in that time, when nothing happened on an edge or (crossings and reflections apart) on a face. Exception: the particles created by a fission at the very end of a cycle get the time of a whole cycle more.", "quantifier": "all meshes built from the parameters with cells of positive size, all time steps that are not negative, all materials heavier than a neutron, all runs and numbers of cycles; exact arithmetic", "why_tests_cant": "The ancestor of a particle is not recorded by the program, and the property relates every particle to the whole history of the run.", "anchors": ["fastiron/src/simulation/cycle_tracking.rs:31-49", "fastiron/src/simulation/mc_segment_outcome.rs:95-220", "fastiron/src/particles/mc_particle.rs:284-325", "fastiron/src/simulation/population_control.rs:75-145"]}
{"id": "C65", "title": "Weights and scalar flux", "statement": "A collision, a crossing or a census does not change the weight of a particle, and particles created by a fission have the weight of the one that caused it. Through the tracking of a cycle weight is conserved: tracked plus produced equals kept for the next cycle plus absorbed plus escaped plus ended in fission, each counted with weights. The particles created by the source in a cycle all have the same weight, the emission of the whole mesh over a tenth of the target population, and together carry the emission up to less than one particle per cell. All weights in a run are positive. Each entry of the flux tally, at the end of a cycle, is the sum over the segments of that cell and energy group of length times weight; the scalar flux of the row printed for a cycle is that sum over all segments of the cycle, and the rows of a run add up to the sum over the whole run; no segment counts negatively, and the length counted is the distance between the ends of the segment.", "quantifier": "any arithmetic for the first sentence; else exact arithmetic, all problems, runs and numbers of cycles, all policies, chunk sizes and interleavings; for the last clause runs where nothing happens on an edge, and nothing but crossings and reflections on a face", "why_tests_cant": "The tally is filled by all threads from all segments; the weights and lengths of single segments are not recorded, so the printed sum cannot be compared with anything by a test.", "anchors": ["fastiron/src/simulation/cycle_tracking.rs:60-130", "fastiron/src/simulation/mc_segment_outcome.rs:95-240", "fastiron/src/data/tallies.rs:160-340", "fastiron/src/simulation/population_control.rs:1-145", "fastiron/src/main.rs:229-345"]}
{"id": "C66", "title": "What the problem excludes does not happen", "statement": "A kind of reaction whose cross-sections are all zero never happens: the partner of a collision belongs to the material of the cell of the particle and is never a reaction of such a kind, and in all the rows of a run and in its totals the counters of that kind are zero (for fission also the number of produced particles). If two kinds are excluded, all collisions are of the third. If no facet lets particles out, as with reflecting boundaries, no escape is ever counted; in a closed box without absorption and fission only the source and population control change the number of particles. A kind is excluded as soon as its ratio is zero in all materials; without an input file nothing escapes.", "quantifier": "all runs, policies, schedules, numbers of cycles; any arithmetic in which a multiple of zero takes nothing away, which exact arithmetic and binary64 with any mathematical library are; the statements from the parameters in exact arithmetic; cells of non-zero density (the claim is refuted for cells of density zero, which no input produces)", "why_tests_cant": "The reaction is picked by subtracting cross-sections from a random number until the result is negative, over several passes; that rounding, the order of the isotopes or the special case for empty matter never lets an excluded reaction through cannot be seen from sampled runs.", "anchors": ["fastiron/src/simulation/collision_event.rs:29-94", "fastiron/src/data/nuclear_data.rs:68-105", "fastiron/src/data/nuclear_data.rs:185-255", "fastiron/src/geometry/mc_domain.rs:396-420", "fastiron/src/init.rs:156-176"]}
{"id": "C67", "title": "Tracks end", "statement": "A particle and, after each of its segments, one of the particles it created, go together through a bounded number of segments before the end of the cycle: the way is at most that of light in the time that is left, the collisions on a way of length D are at most 1 + 2^53 X D if no cross-section is above X, and the crossings and reflections are at most the number of cells that fit on the way in the three directions, and three more for each collision. So tracking a particle returns within a number of segments known beforehand, and the rounds of tracking of a cycle (tracking the particles, then those they created, and so on) are at most as many, under every policy and every interleaving. The number of mean free paths drawn, and drawn again if it is zero, is never below 2^-53.", "quantifier": "all problems with a built mesh, materials not lighter than a neutron and with cross-sections in every cell, all particles, seeds, schedules; exact arithmetic with the generator of the code; tracks on which nothing happens on an edge between faces and no collision at the very end of the cycle", "why_tests_cant": "The loops of the code have no bound of their own: that a particle is not caught between reflections or in ever closer collisions depends on the numbers drawn, and a run that ends says nothing about other seeds.", "anchors": ["fastiron/src/simulation/cycle_tracking.rs:31-136", "fastiron/src/simulation/mc_segment_outcome.rs:100-236", "fastiron/src/particles/mc_particle.rs:205-210", "fastiron/src/main.rs:328-341", "fastiron/src/utils/mc_rng_state.rs"]}
{"id": "C68", "title": "Runs return", "statement": "With as much fuel for each track and each cycle as the bound of C67 for one time step, the core loop of a run returns a state, under every policy and every interleaving: there is a run, no run ends in a panic, and none goes on past the fuel, so no particle is tracked for ever and no cycle repeats its rounds of tracking for ever. The same from the parameters of a program, whose bounds on energies and cross-sections are derived.", "quantifier": "all problems with a built mesh, materials heavier than a neutron and with cross-sections in every cell, all numbers of cycles, seeds, policies, schedules; exact arithmetic with the generator of the code; runs in which nothing happens on an edge between faces and no collision at the very end of a cycle", "why_tests_cant": "A run that has ended shows nothing about the others; the loops of the code are bounded by no counter, only by the particles they track, which create others.", "anchors": ["fastiron/src/main.rs:60-130", "fastiron/src/main.rs:291-345", "fastiron/src/simulation/cycle_tracking.rs:31-136", "fastiron/src/simulation/mc_segment_outcome.rs:100-236", "fastiron/src/simulation/population_control.rs"]}
{"id": "C69", "title": "Materials lighter than a neutron break the clock", "statement": "Tracks end (C67) only because materials are heavier than a neutron, which no check of the parameters enforces. In binary64, scattering on a material of mass between 1/8 and 1/2 gives a negative energy for every first draw above 3/4. A particle of negative energy has a speed that is not a number: none of its segments ends at census, so its track has a collision in it or ends at an open boundary. In a closed box of a thin light gas built by the code, the track of such a particle that flies from wall to wall returns for no number of segments: the program hangs.", "quantifier": "all mathematical libraries, problems, particles, cross-sections, seeds and negative energies between -256 and -2^-900 MeV; for the endless track, one problem and all particles of negative energy that leave one of its walls, all numbers of segments", "why_tests_cant": "That a loop does not end shows in no test that ends, and the energy turns negative only for some materials and draws.", "anchors": ["fastiron/src/particles/mc_particle.rs:114-123", "fastiron/src/particles/mc_particle.rs:132-200", "fastiron/src/simulation/mc_segment_outcome.rs:100-220", "fastiron/src/simulation/cycle_tracking.rs:51-136"]}
{"id": "C70", "title": "Problems without a source, and runs without particles", "statement": "A problem in which no cell emits anything, because source rates or the time step are zero, is not run as an empty problem: every run of at least one cycle panics in its first cycle. A problem with a source for which no particles are requested does run: every run returns the same state, in which all cycles are reported with all counters and fluxes zero, and the 0/0 of the population control changes nothing.", "quantifier": "binary64 and binary32, all mathematical libraries, problems, meshes, numbers of cycles and groups, policies, schedules; for the first part all numbers of particles, with weights of cells that do not overflow; for the second a positive sum of the weights of cells", "why_tests_cant": "Quantifies over all problems and schedules, and what happens rests on zeros, infinities and values that are not numbers passing through the source and the population control.", "anchors": ["fastiron/src/montecarlo.rs:86-105", "fastiron/src/simulation/population_control.rs:25-145", "fastiron/src/main.rs:229-345"]}
{"id": "C71", "title": "Runs with too few particles are empty", "statement": "A cell creates its share of a tenth of the requested number of particles, rounded down. When the share of every cell is below one, which is always so when fewer than ten particles are requested, and when fewer than ten times the number of cells are requested on a mesh whose cells emit the same, no particle is ever created: rounding losses are not carried over to later cycles and the population control cannot make up for them. Every run then returns without an error and the same state: all cycles are reported with all counters zero, so all checks on balances pass.", "quantifier": "any arithmetic when the numbers of the cells round down to zero; exact arithmetic for the condition on shares; exact arithmetic, binary64 and binary32 for fewer than ten particles; all meshes, rates that are not negative, numbers of cycles and groups, policies, schedules", "why_tests_cant": "Quantifies over all meshes, rates and numbers of cycles; a run that reports zeros looks like one that succeeded.", "anchors": ["fastiron/src/simulation/population_control.rs:25-145", "fastiron/src/main.rs:229-345", "fastiron/src/montecarlo.rs:86-105"]}
{"id": "C72", "title": "Single precision draws one far more often and counts segments up to 2^24", "statement": "Samples are computed in f64 and converted. In single precision a sample is finite, between 0 and 1, and 0 only for the new seed 0; it is 1 for every new seed from 2^64 - 2^39 - 1024 on, that is for exactly 2^39 + 1024 of the 2^64 seeds (about one draw in 33 millions), against exactly 1024 in double precision: the documented range, one excluded, does not hold. The number of segments of a particle, kept in the float type, counts the segments of its track (a particle created on the way takes over the count so far), from zero at the source, so that after each cycle of a run every particle has counted at least one. In double precision it is exact up to 2^53 and in single precision up to 2^24, and then stays there, which is above the limit of ten millions after which a stuck particle is put back: the limit works as in double precision.", "quantifier": "all seeds; all numbers of segments; all mathematical libraries", "why_tests_cant": "Counts over the 2^64 seeds and all lengths of a history; a run of a few million draws need not show a sample of one.", "anchors": ["fastiron/src/utils/mc_rng_state.rs:11-23", "fastiron/src/main.rs:35-38", "fastiron/src/simulation/cycle_tracking.rs:65", "fastiron/src/simulation/mct.rs:243-262", "fastiron/src/constants.rs:112-124"]}
