{
 "claims": [
  {
   "property": "C01",
   "status": "proved",
   "theorems": [
    "C01_read_last_accepted",
    "C01_read_is_pure",
    "C01_set_is_local"
   ],
   "note": "Refinement over all histories, instances and comparison functions."
  },
  {
   "property": "C02",
   "status": "proved",
   "theorems": [
    "C02_set_outcome",
    "C02_rejected_set_keeps_values",
    "C02_reads_within_bounds",
    "C02_norm_setter_refuted"
   ],
   "note": "Holds for all histories of reads/assignments/fix; C02_norm_setter_refuted shows the public normalization_parameter setter bypasses the bounds."
  },
  {
   "property": "C03",
   "status": "proved",
   "theorems": [
    "C03_fixed_never_changes",
    "C03_fix_is_shared"
   ],
   "note": "All histories and instances."
  },
  {
   "property": "C04",
   "status": "partial",
   "theorems": [
    "C04_every_class_accepted",
    "C04_one_normalization_refuted"
   ],
   "note": "Refuted of the code: the counter is never incremented, so every class body is accepted (C04_every_class_accepted), with a two-normalisation witness. No positive half exists."
  },
  {
   "property": "C05",
   "status": "proved",
   "theorems": [
    "C05_lower_bound_exact",
    "C05_upper_bound_exact",
    "C05_box_exact",
    "C05_no_flag_raises",
    "C05_flag_or_source",
    "C05_missing_input_raises",
    "C05_failure_keeps_mask",
    "C05_given_values_are_selected_on",
    "C05_other_values_are_ignored"
   ],
   "note": "Exact masks for every value list and comparison (so also NaN); source priority; every error branch."
  },
  {
   "property": "C06",
   "status": "proved",
   "theorems": [
    "C06_lower_bound_monotone",
    "C06_upper_bound_monotone",
    "C06_box_monotone"
   ],
   "note": "For every transitive comparison."
  },
  {
   "property": "C07",
   "status": "proved",
   "theorems": [
    "C07_add_is_conjunction",
    "C07_add_commutes",
    "C07_add_associates",
    "C07_add_idempotent",
    "C07_add_length_mismatch",
    "C07_add_unsampled",
    "C07_add_length_one_repeats",
    "C07_sum_is_conjunction"
   ],
   "note": "Lengths one broadcast (numpy), stated separately in C07_add_length_one_repeats."
  },
  {
   "property": "C08",
   "status": "proved",
   "theorems": [
    "C08_select_is_cached",
    "C08_reset_forgets",
    "C08_select_after_reset_is_fresh"
   ],
   "note": "All histories without reset; reset then select equals a fresh selector with the same data."
  },
  {
   "property": "C09",
   "status": "proved",
   "theorems": [
    "C09_counts_add_up",
    "C09_indices_partition"
   ],
   "note": ""
  },
  {
   "property": "C10",
   "status": "proved",
   "theorems": [
    "C10_galactic_plane_exact",
    "C10_distance_exact",
    "C10_galactic_plane_monotone",
    "C10_distance_monotone",
    "C10_limits_outside_bounds_raise"
   ],
   "note": "Galactic latitude is an uninterpreted function of (ra, dec) (astropy)."
  },
  {
   "property": "C11",
   "status": "proved",
   "theorems": [
    "C11_unity_selects_all",
    "C11_bernoulli_progress_irrelevant",
    "C11_soft_one_draw_per_value"
   ],
   "note": "Random draws are an arbitrary generator; 'independent' is one generator call per object."
  },
  {
   "property": "C12",
   "status": "proved",
   "theorems": [
    "C12_construction_checks_lengths",
    "C12_selected_and_non_selected_partition"
   ],
   "note": ""
  },
  {
   "property": "C13",
   "status": "proved",
   "theorems": [
    "C13_binary_operations_act_on_both",
    "C13_unary_operations_act_on_both",
    "C13_unary_commutes_with_selection",
    "C13_binary_commutes_with_selection",
    "C13_binary_commutes_with_indexing",
    "C13_mask_of_mixed_operands_refuted"
   ],
   "note": "For operands with the same mask (one entry per object); C13_mask_of_mixed_operands_refuted shows that with two different masks the leftmost one is used."
  },
  {
   "property": "C14",
   "status": "partial",
   "theorems": [
    "C14_selecting_twice_boolean_values",
    "C14_selecting_twice_float_values_refuted",
    "C14_selecting_twice_integer_values_refuted",
    "C14_witness_refuted"
   ],
   "note": "Proved for boolean values; refuted for float values (second selection always raises IndexError) and integer values (every entry becomes the second one)."
  },
  {
   "property": "C15",
   "status": "partial",
   "theorems": [
    "C15_inplace_separate_arrays",
    "C15_inplace_shared_array",
    "C15_inplace_equals_pure_refuted"
   ],
   "note": "Refuted of the code: exact effect of x op= c proved for separate arrays (observed := f(latent), latent unchanged) and shared arrays (f applied twice)."
  },
  {
   "property": "C16",
   "status": "proved",
   "theorems": [
    "C16_indexing_keeps_alignment",
    "C16_indexing_succeeds",
    "C16_integer_index",
    "C16_slice_takes",
    "C16_slice_keeps_order"
   ],
   "note": "One-dimensional arrays; slices with positive step, boolean masks, index arrays and integers."
  },
  {
   "property": "C17",
   "status": "proved",
   "theorems": [
    "C17_draws_once_after_secondaries",
    "C17_each_call_once_in_order"
   ],
   "note": "For every acyclic wiring and every prior sampling state, of a draw that returns."
  },
  {
   "property": "C18",
   "status": "partial",
   "theorems": [
    "C18_values_and_mask_after_draw",
    "C18_chosen_selector_judges",
    "C18_choosing_changes_only_the_selector",
    "C18_shared_selector_refuted",
    "C18_inherited_observation_sampler_fails",
    "C18_draw_runs_the_methods"
   ],
   "note": "Refuted of the code when two samplers share a selector object (C18_shared_selector_refuted); proved for samplers with their own selectors. A sampler declared observed that inherits observation_sampler can never be drawn."
  },
  {
   "property": "C19",
   "status": "proved",
   "theorems": [
    "C19_reset_forgets_values",
    "C19_reset_succeeds",
    "C19_next_draw_as_new",
    "C19_failed_draw_not_cleared_refuted"
   ],
   "note": "For every history of settings, draws that returned and resets: reset clears every direct and indirect secondary, and the next draw of the sampler gives what a never-drawn copy with the same settings gives from the same generator state (same exception, or same values, probabilities and masks). Hypotheses: no cycles, each sampler has its own selector object, same positions given. A draw that raised is not undone by reset (C19_failed_draw_not_cleared_refuted)."
  },
  {
   "property": "C20",
   "status": "proved",
   "theorems": [
    "C20_any_connection_is_accepted",
    "C20_cycle_never_returns",
    "C20_cycle_raises_recursion_error"
   ],
   "note": "Drawing never returns for any cycle that would be met; it is RecursionError at every limit when the cycle is reached through first secondaries (otherwise another secondary may raise first)."
  },
  {
   "property": "C21",
   "status": "partial",
   "theorems": [
    "C21_one_entry_per_name",
    "C21_collecting_succeeds",
    "C21_empty_name_lost_refuted"
   ],
   "note": "Refuted of the code for samplers named by the empty string (C21_empty_name_lost_refuted); proved for non-empty names."
  },
  {
   "property": "C22",
   "status": "partial",
   "theorems": [
    "C22_graph_edges",
    "C22_graph_succeeds",
    "C22_graph_needs",
    "C22_deep_distance_refuted",
    "C22_derived_distance_edge_refuted"
   ],
   "note": "Refuted of the code: a distance-dependent secondary of a secondary makes reading the graph raise AttributeError, and the distance-dependent secondaries of a derived-luminosity sampler get no edge from the spatial distribution. Proved: the exact set of edges for every tree, success for every acyclic tree without deep distance dependence, and that this condition is necessary."
  },
  {
   "property": "C23",
   "status": "proved",
   "theorems": [
    "C23_registered",
    "C23_each_call",
    "C23_derived_replaced",
    "C23_derived_secondary_accepted_refuted"
   ],
   "note": "Exact effect of each call and invariant over all histories; the accepted derived-luminosity secondary is exhibited."
  },
  {
   "property": "C24",
   "status": "proved",
   "theorems": [
    "C24_selected_iff",
    "C24_flux_judged",
    "C24_spatial_judged",
    "C24_samplers_judged",
    "C24_same_name_ignored_refuted"
   ],
   "note": "For synths whose participants have distinct names (the code silently drops one of two samplers with the same name: refuted example) and whose flux, spatial and distance selectors are objects of their own; the masks are shown to be the selectors' decisions on this population's values when selectors and samplers were not used before."
  },
  {
   "property": "C25",
   "status": "partial",
   "theorems": [
    "C25_hard_flux_limit",
    "C25_second_survey_refuted"
   ],
   "note": "Refuted of the code for histories: a second draw_survey reuses the first call's mask. Proved for every survey whose flux selector was not used before."
  },
  {
   "property": "C26",
   "status": "partial",
   "theorems": [
    "C26_generators_irrelevant",
    "C26_numpy_irrelevant",
    "C26_numba_not_seeded_refuted"
   ],
   "note": "Refuted of the code for samplers that use numba's generator (PowerLawAuxSampler). Proved for all others, and for every synth with respect to numpy's generator."
  },
  {
   "property": "C27",
   "status": "proved",
   "theorems": [
    "C27_sizes"
   ],
   "note": "All synths, options and generators."
  },
  {
   "property": "C28",
   "status": "proved",
   "theorems": [
    "C28_known_and_unknown"
   ],
   "note": "All synths, options and generators."
  },
  {
   "property": "C29",
   "status": "partial",
   "theorems": [
    "C29_detection_needs_known_distance_partial",
    "C29_no_known_distance_refuted"
   ],
   "note": "Refuted of the code: max() of an empty array raises ValueError when objects are detected but no distance is known. Proved: a returned population with detections has a known distance."
  },
  {
   "property": "C30",
   "status": "partial",
   "theorems": [
    "C30_draw_distance_keeps_parameters",
    "C30_exception_changes_parameter_refuted",
    "C30_normalise_unread_default_raises_refuted",
    "C30_survey_keeps_parameters",
    "C30_unset_normalisation_refuted"
   ],
   "note": "Proved for successful surveys (normalised or not, size given or drawn). Refuted of the code: an exception during a normalised draw leaves the normalisation at 1, a never-read default normalisation raises NameError, and a normalisation stored as None is left at 1 when the size is drawn."
  },
  {
   "property": "C31",
   "status": "proved",
   "theorems": [
    "C31_derived_luminosity",
    "C31_drawn_luminosity",
    "C31_no_source_raises"
   ],
   "note": "Includes: the luminosity distribution object is left untouched; without any source a synth that would otherwise work raises RuntimeError."
  },
  {
   "property": "C32",
   "status": "partial",
   "theorems": [
    "C32_clean_leaves_nothing",
    "C32_cleaned_as_new",
    "C32_spaces_and_graph_kept_refuted"
   ],
   "note": "Refuted of the code: model spaces and the dependency graph survive clean(). Proved: everything else is dropped, and a cleaned synth without model spaces returns the population of a new one except for the graph."
  },
  {
   "property": "C33",
   "status": "proved",
   "theorems": [
    "C33_latent_flux",
    "C33_observed_flux"
   ],
   "note": "All synths, options and generators; any numbers."
  },
  {
   "property": "C34",
   "status": "partial",
   "theorems": [
    "C34_truth_samplers",
    "C34_truth_luminosity",
    "C34_truth_spatial",
    "C34_deep_secondary_refuted",
    "C34_spatial_default_refuted"
   ],
   "note": "Refuted of the code: secondaries of secondaries are missing and so are spatial parameters used with their defaults. Proved for the spatial distribution, the luminosity source, registered samplers and their direct secondaries."
  },
  {
   "property": "C35",
   "status": "proved",
   "theorems": [
    "C35_distances_in_range"
   ],
   "note": "All densities, sizes, streams, with and without normalisation, under the stated laws of the order, of uniform draws and of division."
  },
  {
   "property": "C36",
   "status": "partial",
   "theorems": [
    "C36_progress_irrelevant",
    "C36_progress_with_normalisation_refuted"
   ],
   "note": "Refuted of the code with normalisation (two paths compare with different curves); proved equal (result, object, generator) without normalisation."
  },
  {
   "property": "C37",
   "status": "proved",
   "theorems": [
    "C37_zero_density_never_returns",
    "C37_zero_curve_exhausts",
    "C37_returns_if_proposals_accepted"
   ],
   "note": "Divergence for every proposal budget; return whenever every generator state eventually proposes an accepted point."
  },
  {
   "property": "C38",
   "status": "proved",
   "theorems": [
    "C38_probability_is_normalised_density",
    "C38_integrates_to_one",
    "C38_ratio",
    "C38_constant_sphere",
    "C38_flatland",
    "C38_zpower_sphere",
    "C38_spiral",
    "C38_zpower_cosmo",
    "C38_uniform_cosmo",
    "C38_sfr"
   ],
   "note": "Over the reals, with scipy's quad giving the exact integral of functions it can evaluate and integrate: for non-negative integrable densities with positive integral there is one probability density on [0, r_max] (integral one) which every successful normalised draw of every instance reports, whatever the normalisation parameter, generator, size and progress setting. Instantiated for all seven spatial classes of the library (explicit 3 r^2 / r_max^3 and 1 / r_max for the constant sphere and Flatland). Floating-point error of quad is outside the model."
  },
  {
   "property": "C39",
   "status": "proved",
   "theorems": [
    "C39_built_iff_consistent",
    "C39_built_is_consistent",
    "C39_counts",
    "C39_name_hides_wrong_space_refuted"
   ],
   "note": "Proved for all constructor arguments whose auxiliary names are not attributes of the class (free_names); C39_built_is_consistent and C39_counts need no condition on names. With such a name the constructor raises AttributeError instead (C43), which can hide a wrong model space (C39_name_hides_wrong_space_refuted)."
  },
  {
   "property": "C40",
   "status": "partial",
   "theorems": [
    "C40_available",
    "C40_entries",
    "C40_lengths",
    "C40_indices_of_surveys",
    "C40_flux_overwritten_refuted",
    "C40_count_overwritten_refuted",
    "C40_indices_unchecked_refuted"
   ],
   "note": "Refuted of the code: an auxiliary quantity 'flux' or a model space 'N' overwrites an entry, and the constructor accepts overlapping index arrays. Proved: every entry, all lengths and Nz+Nnz=N for all populations whose keys do not collide (stan_keys_apart); the index partition for every survey."
  },
  {
   "property": "C41",
   "status": "partial",
   "theorems": [
    "C41_objects",
    "C41_known_exact",
    "C41_known_forgotten_refuted",
    "C41_known_invented_refuted"
   ],
   "note": "Refuted of the code for known distances: to_sub_population compares object numbers with distance values. Proved for all populations: the objects and all quantities (C41_objects) and the exact rule for known distances (C41_known_exact)."
  },
  {
   "property": "C42",
   "status": "partial",
   "theorems": [
    "C42_round_trip_partial",
    "C42_group_partial",
    "C42_group_in_use",
    "C42_probability_refuted",
    "C42_written_once",
    "C42_sub_population_refuted",
    "C42_forms_become_literals"
   ],
   "note": "Refuted of the code: the detection probabilities are never read back (the reader looks for a misspelt attribute), the name comes back as bytes, the forms come back wrapped as \"b'...'\", the graph comes back undirected (C42_probability_refuted), a population whose configuration holds a bool can be written only once (C42_written_once) and sub-populations can never be written (C42_sub_population_refuted). Proved for every population with storable names, truth, graph and configuration: everything else comes back (C42_round_trip_partial, C42_group_partial)."
  },
  {
   "property": "C43",
   "status": "partial",
   "theorems": [
    "C43_attributes",
    "C43_protected",
    "C43_others_assignable",
    "C43_property_name_refused",
    "C43_construction_refuted",
    "C43_unprotected_refuted",
    "C43_deletable_refuted"
   ],
   "note": "Refuted of the code: construction fails for names of properties, assigning _protected_names lifts the protection, attributes can be deleted. Proved: protection and assignability under every history of assignments and deletions that leaves _protected_names alone, and the refusal of every property name."
  },
  {
   "property": "C44",
   "status": "partial",
   "theorems": [
    "C44_round_trip",
    "C44_others_never_saved",
    "C44_others_value_error",
    "C44_empty_refuted",
    "C44_fill_value_refuted",
    "C44_slash_refuted",
    "C44_bool_refuted"
   ],
   "note": "Refuted of the code: an empty dictionary cannot be loaded, the string \"FILL_VALUE\" comes back as {}, keys with \"/\" nest, and a bool comes back as a value that cannot be saved again. Proved for every non-empty dictionary whose keys are HDF5 names and whose strings are not the fill value: the round trip; and that other values are refused with ValueError."
  },
  {
   "property": "C45",
   "status": "partial",
   "theorems": [
    "C45_clean_fill",
    "C45_adjacency",
    "C45_undirected",
    "C45_direction_refuted"
   ],
   "note": "Refuted of the code: the graph read back holds every edge together with its reverse (C45_direction_refuted); nodes and undirected edges are kept (C45_undirected). clean(fill(g)) = g is proved for every adjacency dictionary."
  },
  {
   "property": "C46",
   "status": "partial",
   "theorems": [
    "C46_round_trip_partial",
    "C46_saved_again_partial",
    "C46_selection_parameters_refuted",
    "C46_selection_source_refuted",
    "C46_derived_refuted"
   ],
   "note": "Refuted of the code: parameters a sampler's selection inherits from a base class are lost, a flux selection looking at the luminosity comes back looking at the flux, and a derived-luminosity sampler without secondaries is written in a form that cannot be loaded. Proved instead: for every synth satisfying the record `savable` (its classes are registered, its stored values are acceptable to the class declarations, sampler names are unique among different samplers, selections use the flags loading sets) the round trip gives the same synth with the samplers in the same order, and saving it again gives the same dictionary."
  },
  {
   "property": "C47",
   "status": "partial",
   "theorems": [
    "C47_input_after",
    "C47_second_call_fails",
    "C47_no_samplers_partial",
    "C47_same_input_refuted"
   ],
   "note": "Refuted of the code: loading removes keys from the sampler entries of the dictionary it is given. Proved instead: exactly which keys are removed, that the second call raises KeyError whenever there is a sampler, and that it agrees with the first when there is none."
  },
  {
   "property": "C48",
   "status": "partial",
   "theorems": [
    "C48_file_partial",
    "C48_file_order_partial",
    "C48_order_refuted",
    "C48_class_name_refuted"
   ],
   "note": "Refuted of the code: the file comes back with its keys sorted, so samplers are drawn in alphabetical order, and a spatial class whose name sorts after is_rate cannot be read back. Proved instead: for every savable synth with a class name up to is_rate the file gives the same synth up to the order inside dictionaries, samplers sorted by name, and in the same order if they were registered in that order."
  },
  {
   "property": "C49",
   "status": "proved",
   "theorems": [
    "C49_weights",
    "C49_samples_in_range",
    "C49_lower_branch_inverts",
    "C49_upper_branch_inverts",
    "C49_density_integrates_to_one",
    "C49_samples_follow_density",
    "C49_luminosity_density"
   ],
   "note": "Over the reals. Both weights, the range, the inverse of each branch, the density, and the law of the mixture of the two branches."
  },
  {
   "property": "C50",
   "status": "proved",
   "theorems": [
    "C50_samples_follow_power_law",
    "C50_increasing_in_the_draw",
    "C50_ends"
   ],
   "note": "Over the reals, including index -1."
  },
  {
   "property": "C51",
   "status": "partial",
   "theorems": [
    "C51_pareto",
    "C51_log_uniform",
    "C51_log_normal",
    "C51_log10_normal_refuted",
    "C51_log10_normal_factor",
    "C51_log_uniform_outside_refuted",
    "C51_schechter"
   ],
   "note": "Refuted of the code: the log10-normal density is log(10) times the probability on every interval, and the log-uniform density is positive outside its support. Proved for Pareto, log-uniform in its support, and log-normal."
  },
  {
   "property": "C52",
   "status": "partial",
   "theorems": [
    "C52_angles",
    "C52_norm",
    "C52_cos_theta_uniform",
    "C52_phi_uniform",
    "C52_spiral_galaxy_refuted"
   ],
   "note": "Refuted of the code: SpiralGalaxyDistribution stores polar angles above pi. Proved for the default sky positions and for xyz."
  },
  {
   "property": "C53",
   "status": "proved",
   "theorems": [
    "C53_in_range",
    "C53_density_integrates_to_one",
    "C53_draws_follow_density"
   ],
   "note": "The angle is in radians, the maximum in degrees; max_angle = 0 is excluded."
  },
  {
   "property": "C54",
   "status": "proved",
   "theorems": [
    "C54_zero_at_zero",
    "C54_positive",
    "C54_strictly_increasing",
    "C54_volume_nonnegative",
    "C54_hubble_law",
    "C54_accuracy",
    "C54_little_matter_refuted",
    "C54_volume_accuracy",
    "C54_einstein_de_sitter"
   ],
   "note": "Proved as stated. Strictly increasing because x Phi(x)^6 is, for the rational function Phi of the code; accurate by bounds on its slope. C54_little_matter_refuted: outside the range of matter densities named in the statement the accuracy is lost, below 1/100 near objects are more than five times too far."
  },
  {
   "property": "C55",
   "status": "partial",
   "theorems": [
    "C55_spherical",
    "C55_cosmological",
    "C55_inverse_square_refuted",
    "C55_inverse_square_of_shifted_distance"
   ],
   "note": "Refuted of the code: the spherical flux is L / (4 pi (r+1)^2). Positivity, proportionality and monotonicity proved for both."
  },
  {
   "property": "C56",
   "status": "partial",
   "theorems": [
    "C56_normal",
    "C56_log_normal",
    "C56_log_normal_zero_in_range",
    "C56_log_normal_zero_unreachable_refuted",
    "C56_log10_normal_exact",
    "C56_log10_normal_below_one_refuted",
    "C56_log10_normal_above_one_refuted"
   ],
   "note": "Refuted of the code: the log10 sampler takes the natural logarithm of lower, and with lower = 0 the log-normal sampler cannot reach small values. Proved for the normal and log-normal samplers with positive lower bound."
  },
  {
   "property": "C57",
   "status": "proved",
   "theorems": [
    "C57_sets_exactly_its_arguments",
    "C57_refuses_values_out_of_range",
    "C57_depends_on_its_arguments_only"
   ],
   "note": "All 25 population classes, all arguments, any formulas for the densities. Default values of the arguments are not modelled."
  },
  {
   "property": "C58",
   "status": "partial",
   "theorems": [
    "C58_restores_partial",
    "C58_modes",
    "C58_twice_refuted",
    "C58_silent_for_ever_refuted",
    "C58_developer_log",
    "C58_developer_log_refuted",
    "C58_progress_bars",
    "C58_console_block",
    "C58_warnings_back",
    "C58_warnings_off"
   ],
   "note": "Refuted of the code: only the levels before the last mode change are kept, so silencing twice and activating once leaves the logs silent (C58_twice_refuted, C58_silent_for_ever_refuted), and the developer log is switched on even if it was off (C58_developer_log_refuted). Proved for every state and history: one mode change is undone for the user file and console (C58_restores_partial), every exit of silence_console_log restores, warnings come back after one activation. The standard library's handlers are modelled by their level and filter list."
  },
  {
   "property": "C59",
   "status": "proved",
   "theorems": [
    "C59_overrides",
    "C59_accepted",
    "C59_defaults_written"
   ],
   "note": "For every default configuration and every file. OmegaConf is modelled: structured merge with refusal of unknown keys, and its three conversions as arbitrary functions (C59_defaults_written assumes they keep values that have the right type already). Interpolation is not modelled."
  },
  {
   "property": "C60",
   "status": "partial",
   "theorems": [
    "C60_probability_product",
    "C60_density_left_out_refuted"
   ],
   "note": "Refuted of the code: the density of a sampler whose selection is unity is left out. Proved: the exact product for every tree."
  },
  {
   "property": "C61",
   "status": "proved",
   "theorems": [
    "C61_values_recorded"
   ],
   "note": "All trees with distinct names."
  },
  {
   "property": "C62",
   "status": "proved",
   "theorems": [
    "C62_number_of_objects",
    "C62_untouched_default_not_used",
    "C62_mean_is_integral",
    "C62_mean_is_normalisation",
    "C62_mean_untouched",
    "C62_sphere",
    "C62_sphere_normalised",
    "C62_zpower_sphere_normalised",
    "C62_zpower_cosmo_normalised",
    "C62_uniform_cosmo_normalised",
    "C62_sfr_normalised"
   ],
   "note": "For every environment the number is the first Poisson number after seeding, with the mean spelled out as the integral; over the reals the mean is the integral of the density, and for normalised surveys the normalisation parameter, for the general case and every library class with a normalisation. C62_untouched_default_not_used: a default nobody read is ignored (the mean is one)."
  },
  {
   "property": "C63",
   "status": "partial",
   "theorems": [
    "C63_distances_in_range",
    "C63_real_distances_in_range",
    "C63_scattered_distances_refuted",
    "C63_milky_way_distances_refuted"
   ],
   "note": "Refuted of the code: SpiralGalaxyDistribution.draw_sky_positions adds a normal number to the distances after they were drawn: Milky Way surveys can have all objects beyond r_max, or all at negative distances (C63_milky_way_distances_refuted, on the predefined population; C63_scattered_distances_refuted, computed). Proved for every class that does not override draw_sky_positions, for all environments and over the reals."
  },
  {
   "property": "C64",
   "status": "partial",
   "theorems": [
    "C64_loaded_is_new",
    "C64_same_synths_draw_the_same",
    "C64_reloaded_draws_the_same_partial",
    "C64_file_refuted",
    "C64_model_spaces_refuted",
    "C64_shared_selector_refuted"
   ],
   "note": "Refuted of the code: a written file sorts its keys, so the samplers come back in another order and draw other numbers (C64_file_refuted); model spaces are not saved (C64_model_spaces_refuted); samplers that shared a selector no longer do (C64_shared_selector_refuted). Proved: through to_dict and from_dict, a synth whose parts are all saved and not shared draws the same population or fails alike, for all arguments; what from_dict makes was never drawn from."
  },
  {
   "property": "C65",
   "status": "partial",
   "theorems": [
    "C65_values_in_range_partial",
    "C65_declination_drawn",
    "C65_declination_refuted",
    "C65_survey_values_in_range_partial"
   ],
   "note": "Refuted of the code: DecSampler draws arccos(1-2u), a polar angle in [0, pi], although documented as declination (C65_declination_refuted, exact behaviour C65_declination_drawn). For the twelve other classes C65_values_in_range_partial proves the documented range."
  },
  {
   "property": "C66",
   "status": "partial",
   "theorems": [
    "C66_observed_values_partial",
    "C66_broken_power_law_refuted",
    "C66_survey_observed_values_partial"
   ],
   "note": "Refuted of the code: BrokenPowerLawAuxSampler has no parameter sigma, so an observed one (its default) can never be drawn (C66_broken_power_law_refuted). For every draw that succeeds C66_observed_values_partial gives the observed values of all classes with an observation step."
  },
  {
   "property": "C67",
   "status": "partial",
   "theorems": [
    "C67_luminosities_in_range",
    "C67_predefined_populations",
    "C67_schechter_minimum_refuted"
   ],
   "note": "Refuted of the code for one clause: the documented minimum Lmin of Schechter luminosities is not a minimum (C67_schechter_minimum_refuted: every interval below it has positive probability). All other clauses are proved at the level of the drawn population, for all classes (C67_luminosities_in_range) and for the predefined populations (C67_predefined_populations)."
  },
  {
   "property": "C68",
   "status": "proved",
   "theorems": [
    "C68_given_luminosity_can_be_drawn",
    "C68_plain_population_can_be_drawn",
    "C68_predefined_population_can_be_drawn",
    "C68_milky_way_can_be_drawn",
    "C68_population_with_quantities_can_be_drawn"
   ],
   "note": "Generic over numbers, generators and classes (C68_plain_population_can_be_drawn), and for the twenty predefined populations with a fixed luminosity class over the reals (C68_predefined_population_can_be_drawn), for the four that take a luminosity distribution from the user, given one that can be drawn (C68_given_luminosity_can_be_drawn), and for the Milky Way population (C68_milky_way_can_be_drawn). Termination of the rejection sampler rests on the stated contract fair: proposals do not avoid an open region forever."
  },
  {
   "property": "C69",
   "status": "partial",
   "theorems": [
    "C69_given_luminosity_samplers_can_be_drawn",
    "C69_milky_way_samplers_can_be_drawn",
    "C69_predefined_samplers_can_be_drawn_partial",
    "C69_taken_name_refuted",
    "C69_sky_samplers_refuted"
   ],
   "note": "Refuted of the code: RASampler and DecSampler are always called \"ra\" and \"dec\", which are read-only properties of Population, so a survey that has one of them (registered or as secondary) never returns; likewise any sampler with such a name. An observed BrokenPowerLawAuxSampler cannot be drawn either (C66_broken_power_law_refuted). Proved for all other predefined samplers on all 25 predefined populations: the twenty whose luminosity class is fixed (C69_predefined_samplers_can_be_drawn_partial), the four with a given luminosity distribution (C69_given_luminosity_samplers_can_be_drawn) and the Milky Way (C69_milky_way_samplers_can_be_drawn), with independent samplers and default selections."
  },
  {
   "property": "C70",
   "status": "partial",
   "theorems": [
    "C70_accepted_area",
    "C70_draws",
    "C70_surveys",
    "C70_density_followed_partial",
    "C70_nearly_followed",
    "C70_sphere_followed",
    "C70_zpower_sphere_followed_partial",
    "C70_flatland_followed",
    "C70_peak_between_distances_refuted",
    "C70_steep_sphere_nearly_followed",
    "C70_zpower_cosmo_nearly_followed",
    "C70_sfr_nearly_followed",
    "C70_no_progress_refuted",
    "C70_spherical_populations",
    "C70_zpower_populations_partial",
    "C70_steep_populations_nearly_followed",
    "C70_cosmological_populations_nearly_followed",
    "C70_sfr_populations_nearly_followed"
   ],
   "note": "Refuted of the code: the height of the box is the largest of 500 values of the density, so a peak between two of the distances is cut off (C70_peak_between_distances_refuted: ZPowerSphericalDistribution, delta -4, r_max 998), and a normalised draw without progress bars compares the density before normalisation with the box after it (C70_no_progress_refuted). Proved for every class: exactly which points of the box are accepted (C70_draws, C70_surveys) and the area they have (C70_accepted_area); the law holds for densities nowhere above the 500 values when not normalised or with progress bars, in particular for constant density on a sphere, for powers of at least -2, for Flatland, and for the populations built on them. Every other continuous density that changes by at most eps within half a grid step is followed up to a deficit of eps (C70_nearly_followed, explicit for powers below -2, and stated for the cosmological power law, the star formation rate and the populations built on them). That numpy's numbers are uniform and independent is not part of the model; the acceptance region and its area are."
  },
  {
   "property": "C71",
   "status": "partial",
   "theorems": [
    "C71_drawn_values",
    "C71_survey_values",
    "C71_documented_law_partial",
    "C71_truncated_log10_normal_refuted",
    "C71_declination_refuted",
    "C71_luminosities",
    "C71_population_luminosities"
   ],
   "note": "Refuted of the code: the truncated log10-normal sampler takes the natural logarithm of its lower limit (C71_truncated_log10_normal_refuted), the declination sampler draws polar angles (C71_declination_refuted). The documented law is proved for the other eleven sampler classes and all seven luminosity classes; the exact law of the two others is in C71_drawn_values and C71_survey_values."
  },
  {
   "property": "C72",
   "status": "partial",
   "theorems": [
    "C72_flux_of_each_object",
    "C72_expanding_universe",
    "C72_farther_objects_are_dimmer",
    "C72_flux_proportional_to_luminosity",
    "C72_inverse_square_refuted"
   ],
   "note": "Refuted of the code: in flat space the radius is the distance plus one, so no object has the flux of its distance (C72_inverse_square_refuted). Proved for every survey of every predefined class: each object has a flux, the luminosity spread over a sphere whose radius is the luminosity distance (cosmological classes) or the distance plus one (the others); farther and not more luminous means dimmer; proportional to the luminosity at equal distances."
  },
  {
   "property": "C73",
   "status": "partial",
   "theorems": [
    "C73_positions_over_the_sphere",
    "C73_predefined_positions",
    "C73_milky_way_positions",
    "C73_milky_way_right_ascension_refuted",
    "C73_milky_way_declination_refuted"
   ],
   "note": "Refuted of the code for the Milky Way class: SpiralGalaxyDistribution stores the polar angle as azimuth and the spiral angle as polar angle, so that in every survey right ascensions never exceed 180 degrees and everything drawn beyond 15 has a declination below -90 (C73_milky_way_*_refuted, for all arms and random numbers; exact positions in C73_milky_way_positions). Proved for every other predefined population and every class without own sky positions. Hypothesis: np.random.uniform stays in its range."
  },
  {
   "property": "C74",
   "status": "proved",
   "theorems": [
    "C74_model_spaces",
    "C74_model_spaces_for_stan"
   ],
   "note": "Over the reals. The theorem about Stan data assumes that no other entry has the name of a space (C40_count_overwritten_refuted shows what happens otherwise)."
  },
  {
   "property": "C75",
   "status": "partial",
   "theorems": [
    "C75_returned_as_shown",
    "C75_unchanged_by_surveys_partial",
    "C75_spatial_parameters_follow",
    "C75_luminosity_parameters_follow",
    "C75_model_spaces_follow",
    "C75_later_configuration_refuted"
   ],
   "note": "Refuted of the code: the population shares the distributions' parameter dictionaries, the model spaces and the graph with its synth (C75_later_configuration_refuted, and for every survey C75_spatial_parameters_follow, C75_luminosity_parameters_follow, C75_model_spaces_follow). Proved for later surveys, looks at the graph and choices of selections, in any number and order."
  },
  {
   "property": "C76",
   "status": "proved",
   "theorems": [
    "C76_soft_selector",
    "C76_soft_survey",
    "C76_one_probability",
    "C76_half_at_the_boundary",
    "C76_brighter_more_probable",
    "C76_stronger_sharper",
    "C76_almost_certain_far_above"
   ],
   "note": "Over the reals; the generator is arbitrary and Bernoulli draws are made with mc_bern. Without flux errors the theorem asks for positive fluxes, which predefined populations have."
  },
  {
   "property": "C77",
   "status": "proved",
   "theorems": [
    "C77_survey_with_selections_returns",
    "C77_ready_flux_selections_decide",
    "C77_ready_spatial_selections_decide",
    "C77_predefined_populations_with_selections",
    "C77_milky_way_with_selections",
    "C77_given_luminosity_with_selections"
   ],
   "note": "Selections on fluxes and places, independent auxiliary quantities (flat_sampler), no derived luminosity; the Milky Way population and the four others that take a luminosity distribution from the user (C77_given_luminosity_with_selections) with any luminosity distribution that can be drawn. Non-negative error size; generators that accept probabilities, quadrature exact (RealRunSpec)."
  },
  {
   "property": "C78",
   "status": "proved",
   "theorems": [
    "C78_same_objects",
    "C78_same_observed_fluxes",
    "C78_observed_fluxes_without_selection_refuted",
    "C78_deeper_detects_more",
    "C78_distance_selection_only"
   ],
   "note": "Proved as stated, with the exception named in the statement: C78_observed_fluxes_without_selection_refuted shows that a synth without a flux selection ignores the flux errors. The hard-limit theorem asks that no sampler shares its selection object with the flux selection."
  },
  {
   "property": "C79",
   "status": "proved",
   "theorems": [
    "C79_survey_survives_the_file",
    "C79_drawing_keeps_it_so",
    "C79_configuring_keeps_it_so",
    "C79_predefined_populations",
    "C79_second_file_refuted"
   ],
   "note": "Proved as stated, with the losses of C42 and the failing second write (C79_second_file_refuted) named in the statement. The hypotheses are the record keepable (KeptSpec.v); C79_configuring_keeps_it_so, C79_drawing_keeps_it_so and C79_predefined_populations show which synths meet it."
  },
  {
   "property": "C80",
   "status": "proved",
   "theorems": [
    "C80_each_its_own",
    "C80_any_order",
    "C80_others_untouched",
    "C80_failed_add_refuted",
    "C80_sub_population_blocks_name_refuted",
    "C80_surveys_in_one_file"
   ],
   "note": "Proved as stated. C80_failed_add_refuted and C80_sub_population_blocks_name_refuted refute that a failed addto leaves the file as it was."
  },
  {
   "property": "C81",
   "status": "partial",
   "theorems": [
    "C81_true_fluxes_are_observed",
    "C81_true_fluxes_refuted",
    "C81_no_objects_refuted",
    "C81_detected_fluxes",
    "C81_fluxes",
    "C81_arrows_refuted",
    "C81_nothing_below",
    "C81_luminosities",
    "C81_distances",
    "C81_spheres",
    "C81_sphere_returned_refuted",
    "C81_table"
   ],
   "note": "Refuted of the code: display_true_fluxes draws the observed fluxes under the label of the true ones, because a simulated variable used as an array is its observed values (C81_true_fluxes_are_observed, C81_true_fluxes_refuted for every population with flux errors); for the same reason every arrow of display_fluxes has length zero (C81_arrows_refuted); a population without objects cannot be plotted (C81_no_objects_refuted); display_flux_sphere returns None when all objects were detected (C81_sphere_returned_refuted). Everything else is proved for all populations."
  },
  {
   "property": "C82",
   "status": "partial",
   "theorems": [
    "C82_display_shows_parts",
    "C82_repr_shows_parts",
    "C82_repr_without_luminosity_refuted",
    "C82_secondaries_refuted",
    "C82_same_name_refuted",
    "C82_defaults_refuted",
    "C82_set_then_shown"
   ],
   "note": "Refuted of the code: repr raises UnboundLocalError for a synth without any luminosity (C82_repr_without_luminosity_refuted), secondaries of registered samplers have no section (C82_secondaries_refuted), a registered sampler with the name of a secondary of the luminosity is not shown (C82_same_name_refuted), parameters left at their defaults are not shown (C82_defaults_refuted). Proved instead for all synths: exactly which sections display shows (C82_display_shows_parts), that repr tells all their rows (C82_repr_shows_parts), and that what is set is shown (C82_set_then_shown)."
  },
  {
   "property": "C83",
   "status": "partial",
   "theorems": [
    "C83_order",
    "C83_instantiated_iff_complete",
    "C83_mixin_refuted",
    "C83_found_by_name",
    "C83_names_kept",
    "C83_inherited_name_refuted",
    "C83_complete_classes_have_names",
    "C83_unnamed_sampler_refuted",
    "C83_issubclass_refuted",
    "C83_issubclass_raises_refuted"
   ],
   "note": "Refuted of the code: issubclass never answers for a class of the families, it raises AttributeError (C83_issubclass_refuted, C83_issubclass_raises_refuted); a subclass without a name of its own replaces its base in the registry (C83_inherited_name_refuted); a sampler class without a name cannot be defined (C83_unnamed_sampler_refuted); abstract methods of classes outside the families are not asked for (C83_mixin_refuted). Proved for all histories: the order of search (C83_order), instantiation iff complete (C83_instantiated_iff_complete), which class a name makes (C83_found_by_name), that names are kept (C83_names_kept). The library class_registry and python's method resolution are modelled as documented."
  },
  {
   "property": "C84",
   "status": "partial",
   "theorems": [
    "C84_nodes",
    "C84_storable",
    "C84_marks_only",
    "C84_observed_marked",
    "C84_read_again",
    "C84_observed_not_marked_refuted",
    "C84_observed_missing_refuted"
   ],
   "note": "Refuted of the code: the observed value of a registered sampler, and of a secondary of a secondary, is marked as not observed, and that of a secondary of the derived luminosity has no node. Proved: the exact set of nodes, well-formedness (what saving needs), which marks can be set, and that the observed flux and the observed values of direct secondaries are marked unless a plain quantity has the same name."
  },
  {
   "property": "C85",
   "status": "proved",
   "theorems": [
    "C85_detected_iff_bright",
    "C85_detected_within_horizon",
    "C85_complete_within_horizon",
    "C85_farthest_detected",
    "C85_standard_candles"
   ],
   "note": "Proved as stated. The flux selection must not have been used before (C25_second_survey_refuted) and be an object of its own; in flat space the radius is the distance plus one, as in C55."
  },
  {
   "property": "C86",
   "status": "partial",
   "theorems": [
    "C86_inverse_square_counts",
    "C86_source_counts",
    "C86_euclidean_counts_refuted"
   ],
   "note": "Refuted of the code: the spherical classes spread the luminosity over a sphere of radius distance plus one, so the fraction brighter than S is ((sqrt(L/(4 pi S)) - 1)/r_max)^3 (C86_source_counts), which is no multiple of S^(-3/2) (C86_euclidean_counts_refuted); with the inverse square law it would be (C86_inverse_square_counts)."
  },
  {
   "property": "C87",
   "status": "partial",
   "theorems": [
    "C87_bars",
    "C87_every_object_counted",
    "C87_milky_way_refuted"
   ],
   "note": "Refuted of the code: distances of the Milky Way population are scattered after they were drawn, and those beyond r_max are in no bar and outside of the sphere shown (C87_milky_way_refuted: five objects, all bars zero). For any population the bars count the objects between 0 and r_max, the last bar including its end (C87_bars); for the other predefined populations the bars contain every object and every point is inside the sphere (C87_every_object_counted)."
  },
  {
   "property": "C88",
   "status": "proved",
   "theorems": [
    "C88_listed_iff_usable",
    "C88_listed_iff_class",
    "C88_listed_once",
    "C88_names_stay_in_order"
   ],
   "note": "For any history of class statements. Together with C83: a name is listed iff it is that of a complete class of the family."
  },
  {
   "property": "C89",
   "status": "proved",
   "theorems": [
    "C89_colours_show_order",
    "C89_not_positive_refused",
    "C89_spheres_coloured",
    "C89_surveys_coloured"
   ],
   "note": "Over the reals. matplotlib's Normalize and LogNorm are modelled as documented. The spheres use logarithms whatever use_log says, so a population with a flux that is not positive has no sphere (C89_not_positive_refused)."
  },
  {
   "property": "C90",
   "status": "partial",
   "theorems": [
    "C90_hands_out",
    "C90_can_be_added",
    "C90_only_once",
    "C90_survey_refuted"
   ],
   "note": "Refuted of the code: the last sentence. C90_survey_refuted: no survey with a sampler made by a SkySampler ever returns, since ra and dec are read-only attributes of populations. The other sentences are proved in full. With given samplers of other names C69_predefined_samplers_can_be_drawn_partial applies."
  },
  {
   "property": "C91",
   "status": "partial",
   "theorems": [
    "C91_quantities",
    "C91_auxiliary_quantities",
    "C91_selected_and_hidden",
    "C91_counts_and_records",
    "C91_text",
    "C91_unreadable_refuted",
    "C91_the_others_can_be_read"
   ],
   "note": "Refuted of the code: the last sentence. C91_unreadable_refuted: hard_cut and distance_probability raise AttributeError for every population. All other sentences are proved in full."
  }
 ]
}