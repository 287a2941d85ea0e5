{
 "claims": [
  {
   "property": "C01",
   "status": "proved",
   "theorems": [
    "C01_setBeam_sorted_normalised_complete",
    "C01_empty_energy_empties_the_beam",
    "C01_any_arithmetic",
    "C01_single_energy"
   ],
   "note": ""
  },
  {
   "property": "C02",
   "status": "proved",
   "theorems": [
    "C02_optional_vectors_broadcast",
    "C02_undefined_exactly_when_short",
    "C02_pointer_overload_agrees",
    "C02_null_dereference"
   ],
   "note": ""
  },
  {
   "property": "C03",
   "status": "proved",
   "theorems": [
    "C03_map_composition_is_normalised",
    "C03_non_positive_amount_is_rejected",
    "C03_vectors_agree_with_map"
   ],
   "note": ""
  },
  {
   "property": "C04",
   "status": "partial",
   "theorems": [
    "C04_vector_sum_is_one_iff_distinct_partial",
    "C04_vector_sum_is_one_refuted"
   ],
   "note": "The documented claim is false for repeated names (C04_vector_sum_is_one_refuted, binary64 witness); proved exactly when it holds: sum = 1 iff the names are pairwise different."
  },
  {
   "property": "C05",
   "status": "proved",
   "theorems": [
    "C05_materials_are_always_valid",
    "C05_failed_calls_change_nothing",
    "C05_calls_succeed_or_throw_invalid_argument",
    "C05_initialize_accepts_exactly_valid_arguments",
    "C05_named_material_cannot_be_renamed_by_setName"
   ],
   "note": ""
  },
  {
   "property": "C06",
   "status": "proved",
   "theorems": [
    "C06_map_overload_failure_is_atomic",
    "C06_vector_overload_failure_is_atomic",
    "C06_map_overload_accepts_exactly",
    "C06_vector_overload_accepts_exactly",
    "C06_name_and_comment",
    "C06_reachable_tables_are_valid"
   ],
   "note": ""
  },
  {
   "property": "C07",
   "status": "proved",
   "theorems": [
    "C07_empty_table_transmits_everything",
    "C07_constant_below_the_first_energy",
    "C07_constant_above_the_last_energy",
    "C07_straight_line_on_every_segment",
    "C07_tabulated_values_are_reproduced",
    "C07_bounded_by_the_table",
    "C07_vector_overload_is_elementwise"
   ],
   "note": ""
  },
  {
   "property": "C08",
   "status": "partial",
   "theorems": [
    "C08_strictly_increasing_energies_are_stored_verbatim",
    "C08_repeated_energies_are_stored_1e6_apart_partial",
    "C08_every_value_is_stored_refuted"
   ],
   "note": "False for three equal energies (C08_every_value_is_stored_refuted); proved for strictly increasing energies and for energies repeated at most twice and otherwise more than 1e-6 apart."
  },
  {
   "property": "C09",
   "status": "proved",
   "theorems": [
    "C09_transmission_at_normal_incidence",
    "C09_transmission_at_any_angle",
    "C09_opposite_angles_agree",
    "C09_non_positive_thickness_throws",
    "C09_transmission_is_a_fraction",
    "C09_transmission_decreases",
    "C09_stacked_layers_multiply",
    "C09_vector_overload_is_elementwise"
   ],
   "note": ""
  },
  {
   "property": "C10",
   "status": "partial",
   "theorems": [
    "C10_thickness_comes_from_material",
    "C10_density_comes_from_material_partial",
    "C10_density_comes_from_material_refuted"
   ],
   "note": "True for thickness; for density only strictly negative values are replaced, so the claim is refuted for the default argument (every transmission query throws)."
  },
  {
   "property": "C11",
   "status": "proved",
   "theorems": [
    "C11_active_area",
    "C11_diameter",
    "C11_distance",
    "C11_geometry_is_always_valid"
   ],
   "note": ""
  },
  {
   "property": "C12",
   "status": "proved",
   "theorems": [
    "C12_escape_cache_is_transparent",
    "C12_escape_cache_is_transparent_any_order",
    "C12_two_libraries_share_a_label_refuted",
    "C12_failed_computation_is_remembered_refuted"
   ],
   "note": "Transparency proved for every history; the two limitations the statement mentions (two libraries with one label; a failed computation with pre-C++17 evaluation order) are shown as refutations of the stronger claims."
  },
  {
   "property": "C13",
   "status": "proved",
   "theorems": [
    "C13_E1_domain",
    "C13_E1_of_one_refuted",
    "C13_En_domain",
    "C13_En_bad_order",
    "C13_En_of_one_throws",
    "C13_En_first_order",
    "C13_En_at_zero",
    "C13_En_recurrence"
   ],
   "note": "Domain characterised exactly; the documented domain (x <> 0) is refuted at x = 1."
  },
  {
   "property": "C14",
   "status": "proved",
   "theorems": [
    "C14_erf_plus_erfc",
    "C14_reflection",
    "C14_erfc_bounds",
    "C14_erf_of_zero_is_not_zero"
   ],
   "note": ""
  },
  {
   "property": "C15",
   "status": "proved",
   "theorems": [
    "C15_L0_is_never_negative",
    "C15_L0_is_always_finite",
    "C15_L0_rejects_non_positive_coefficients",
    "C15_L0_thin_layer",
    "C15_L0_thick_layer",
    "C15_X_is_inclusion_exclusion",
    "C15_X_vanishes_without_depth"
   ],
   "note": ""
  },
  {
   "property": "C16",
   "status": "proved",
   "theorems": [
    "C16_fluorescence_ratios",
    "C16_total_has_no_influence",
    "C16_overloads_agree"
   ],
   "note": ""
  },
  {
   "property": "C17",
   "status": "proved",
   "theorems": [
    "C17_labels_accepted",
    "C17_labels_stored_canonically",
    "C17_stored_labels_belong_to_the_shell_refuted",
    "C17_rejected_call_is_atomic_refuted"
   ],
   "note": "Acceptance and storage characterised exactly for every label list; the stronger claims (stored labels belong to the shell; rejected calls are atomic) are refuted by witnesses."
  },
  {
   "property": "C18",
   "status": "proved",
   "theorems": [
    "C18_coster_kronig_groups",
    "C18_groups_of_the_shell",
    "C18_one_group_per_transition",
    "C18_auger_ratios",
    "C18_auger_ratios_sum_to_one",
    "C18_missing_total_is_the_sum",
    "C18_array_overload_keeps_stale_total_refuted"
   ],
   "note": "Proved for all three overloads; the additional refutation shows that the array overload keeps a stale TOTAL, so its hypothesis (consistent TOTAL) cannot be dropped."
  },
  {
   "property": "C19",
   "status": "proved",
   "theorems": [
    "C19_transfer_values",
    "C19_transfer_is_not_negative",
    "C19_vacancies_are_bounded",
    "C19_too_large_yields_throw",
    "C19_bad_destination_throws",
    "C19_coster_kronig_part_at_most_its_yield_refuted",
    "C19_destination_AL_counts_the_total_refuted"
   ],
   "note": "The refuted theorems show that the factor 2 and the exclusion of the destination AL are necessary."
  },
  {
   "property": "C20",
   "status": "proved",
   "theorems": [
    "C20_accepted_keys",
    "C20_exactly_the_given_keys_change",
    "C20_known_constants",
    "C20_construction",
    "C20_failed_call_is_atomic_refuted"
   ],
   "note": "Atomicity of a failing call, which the statement says is violated, is refuted by a binary64 witness."
  },
  {
   "property": "C21",
   "status": "proved",
   "theorems": [
    "C21_sums",
    "C21_no_partials_no_photoelectric"
   ],
   "note": ""
  },
  {
   "property": "C22",
   "status": "proved",
   "theorems": [
    "C22_indices",
    "C22_scattering_interpolated",
    "C22_partial_interpolated",
    "C22_queries_succeed",
    "C22_one_point_undefined",
    "C22_zero_neighbour_refuted"
   ],
   "note": "Proved end to end (setter, then query) with the explicit conditions of the statement; the one-point and zero-neighbour cases it mentions are theorems of their own."
  },
  {
   "property": "C23",
   "status": "proved",
   "theorems": [
    "C23_cache_transparent",
    "C23_any_evaluation_order",
    "C23_cache_size",
    "C23_cache_flag",
    "C23_fill_is_complete",
    "C23_stale_after_setBindingEnergies_refuted",
    "C23_stale_after_setRadiativeTransitions_refuted",
    "C23_stale_after_rejected_constants_refuted",
    "C23_failed_fill_older_order_refuted"
   ],
   "note": "Transparency proved for every disciplined history (every history, failing calls included, with the C++17 evaluation order; both orders if no call fails); the refuted theorems show that each exclusion is necessary."
  },
  {
   "property": "C24",
   "status": "proved",
   "theorems": [
    "C24_distribution",
    "C24_closed_shells_get_nothing"
   ],
   "note": ""
  },
  {
   "property": "C25",
   "status": "proved",
   "theorems": [
    "C25_excited_shells",
    "C25_emitted_lines"
   ],
   "note": ""
  },
  {
   "property": "C26",
   "status": "proved",
   "theorems": [
    "C26_cascade",
    "C26_innermost_unchanged",
    "C26_linear"
   ],
   "note": ""
  },
  {
   "property": "C27",
   "status": "proved",
   "theorems": [
    "C27_line_rates",
    "C27_cache_transparent",
    "C27_filled_cache_transparent",
    "C27_constants_take_effect",
    "C27_stale_after_setRadiativeTransitions_refuted",
    "C27_foreign_labels_refuted"
   ],
   "note": "Proved, including that the fill succeeds; the refuted theorems show that the hypotheses (cache filled for the current data, lines named after their shell) are necessary."
  },
  {
   "property": "C28",
   "status": "proved",
   "theorems": [
    "C28_transition_energy",
    "C28_other_lengths",
    "C28_total"
   ],
   "note": ""
  },
  {
   "property": "C29",
   "status": "proved",
   "theorems": [
    "C29_registry",
    "C29_names",
    "C29_last_addition",
    "C29_empty_name_refuted"
   ],
   "note": "Histories include in-place calls on elements, material and cache calls; the empty name is the one exception and has its own theorem."
  },
  {
   "property": "C30",
   "status": "proved",
   "theorems": [
    "C30_materials",
    "C30_refused_unchanged",
    "C30_outcomes",
    "C30_replace_loses_material_refuted",
    "C30_throwing_add_registers_refuted"
   ],
   "note": "Contents proved against a list-based specification for every history; the two refuted theorems are the exception-safety failures of addMaterial(name, ...), the first of which the statement asks for."
  },
  {
   "property": "C31",
   "status": "proved",
   "theorems": [
    "C31_plain_formula",
    "C31_rejected",
    "C31_junk_accepted_refuted"
   ],
   "note": "Exact for every list of items, any length; C31_junk_accepted_refuted shows why the rejection list cannot be longer."
  },
  {
   "property": "C32",
   "status": "partial",
   "theorems": [
    "C32_groups_partial",
    "C32_one_character_dropped_refuted",
    "C32_nested_end_refuted",
    "C32_group_without_number_refuted",
    "C32_six_digits_refuted",
    "C32_wrong_order_diverges_refuted"
   ],
   "note": "Proved for every nesting depth for formulas avoiding the five failure patterns; each pattern is a refutation theorem, the last one non-termination for every recursion depth."
  },
  {
   "property": "C33",
   "status": "proved",
   "theorems": [
    "C33_fractions",
    "C33_plain_formula",
    "C33_groups",
    "C33_empty",
    "C33_any_answer",
    "C33_negative_count_refuted"
   ],
   "note": "Over every history, for parsed counts, and end to end for plain formulas and nested groups; the refuted theorem is the negative-count exception of the statement."
  },
  {
   "property": "C34",
   "status": "proved",
   "theorems": [
    "C34_resolves",
    "C34_acyclic",
    "C34_unknown",
    "C34_additional",
    "C34_map",
    "C34_cycle_diverges_refuted"
   ],
   "note": "Against an inductive specification of mixtures of mixtures, any nesting depth, all three overloads; the refuted theorem is the non-termination on cyclic registries the statement asks for."
  },
  {
   "property": "C35",
   "status": "proved",
   "theorems": [
    "C35_mixture",
    "C35_only_ratios",
    "C35_rejected",
    "C35_as_given",
    "C35_by_name",
    "C35_by_name_vector"
   ],
   "note": "Exact tables over every history, for one energy and vectors, for amounts, for given mass fractions and by name; scaling invariance unconditional, errors included."
  },
  {
   "property": "C36",
   "status": "proved",
   "theorems": [
    "C36_families",
    "C36_succeeds",
    "C36_unknown_name",
    "C36_by_name"
   ],
   "note": "Iff-characterisation of the answer over every history, with success and error conditions; std::sort enters through its contract, satisfied by a witness."
  },
  {
   "property": "C37",
   "status": "proved",
   "theorems": [
    "C37_efficiency",
    "C37_fraction_laws",
    "C37_monotonic",
    "C37_negative_index",
    "C37_sample_reference",
    "C37_no_sample_undefined_refuted"
   ],
   "note": "Exact value over every configuration history, bounds and both monotonicities; the refuted theorem records that without setSample the reference layer is uninitialised (undefined behaviour)."
  },
  {
   "property": "C38",
   "status": "proved",
   "theorems": [
    "C38_line",
    "C38_layer",
    "C38_nonnegative",
    "C38_secondary"
   ],
   "note": "For every answer of the calculation, at every level of excitation: line by line, layer by layer, signs, and the list of secondary contributions."
  },
  {
   "property": "C39",
   "status": "proved",
   "theorems": [
    "C39_product",
    "C39_order",
    "C39_no_gain"
   ],
   "note": "End to end: the answer with filters is the answer without filters for the attenuated beam; order irrelevant; no gain."
  },
  {
   "property": "C40",
   "status": "proved",
   "theorems": [
    "C40_read",
    "C40_reread",
    "C40_reread_refuted",
    "C40_missing_file",
    "C40_bad_lines_rejected",
    "C40_comments_refuted",
    "C40_key_leaks_refuted"
   ],
   "note": "Every well-formed document (padding, CRLF, quoted pieces, repeated sections) on a fresh object, and what a re-read adds to a used object; rejected lines characterised. The refuted theorems record stale contents on re-read, NUL characters left by comments, and the key that leaks into the next section."
  },
  {
   "property": "C41",
   "status": "proved",
   "theorems": [
    "C41_actual",
    "C41_never_finds",
    "C41_refuted",
    "C41_subsections",
    "C41_subsections_sensitive_refuted"
   ],
   "note": "The actual behaviour stated in the property (the inverted comparison) is proved for every object; the expected behaviour is refuted; the case-sensitive subsection lookup is refuted for every object."
  },
  {
   "property": "C42",
   "status": "proved",
   "theorems": [
    "C42_number_of_scans",
    "C42_number_of_scans_any",
    "C42_labels",
    "C42_data",
    "C42_blank_line_needed",
    "C42_one_character_row_refuted"
   ],
   "note": "Scans, labels and data of every well-formed file; the number of scans for every file whatsoever. strtod is a parameter. The remaining theorems show that the blank line between scans and the two-character minimum of a row are needed."
  },
  {
   "property": "C43",
   "status": "proved",
   "theorems": [
    "C43_indices_bracket",
    "C43_indices_outside",
    "C43_remembered_index",
    "C43_history_between_points",
    "C43_history_at_points",
    "C43_table_points",
    "C43_query_answers",
    "C43_history_outside_refuted"
   ],
   "note": "Indices for every sorted grid, energy and remembered index; independence from the history between points and at isolated points, tabulated values there; total on complete tables. The refuted theorem exhibits the dependence on the history outside the grid that the statement mentions."
  },
  {
   "property": "C44",
   "status": "proved",
   "theorems": [
    "C44_sums",
    "C44_weights",
    "C44_failed_load_refuted"
   ],
   "note": "Over every loading history and file contents (strtod a parameter). The refuted theorem records that a failed load leaves an object that takes itself for initialised, so that the next query is undefined behaviour."
  },
  {
   "property": "C45",
   "status": "proved",
   "theorems": [
    "C45_E1_between_classical_bounds",
    "C45_continued_fraction_bounds",
    "C45_no_zero_denominator",
    "C45_E1_positive_and_decreasing_below_one"
   ],
   "note": ""
  },
  {
   "property": "C46",
   "status": "proved",
   "theorems": [
    "C46_last_attached_material_decides",
    "C46_peak_families_of_a_material"
   ],
   "note": ""
  },
  {
   "property": "C47",
   "status": "proved",
   "theorems": [
    "C47_deBoerD_is_exp_times_E1",
    "C47_deBoerD_at_one"
   ],
   "note": ""
  },
  {
   "property": "C48",
   "status": "proved",
   "theorems": [
    "C48_tables"
   ],
   "note": "Row by row, for every table whose rows have all the columns."
  },
  {
   "property": "C49",
   "status": "proved",
   "theorems": [
    "C49_primary",
    "C49_bounds",
    "C49_nonnegative"
   ],
   "note": "Exact value of the primary intensity and of all the fields of a line, for every answer; the hypotheses on the library (maps, one-word transition names, energies of lines independent of the exciting photon) are met by the example of C50."
  },
  {
   "property": "C50",
   "status": "proved",
   "theorems": [
    "C50_answers",
    "C50_example"
   ],
   "note": "Sufficient conditions on the data, met by the example; secondary excitation between different layers is not covered (deBoerX can throw)."
  },
  {
   "property": "C51",
   "status": "proved",
   "theorems": [
    "C51_detector_memory"
   ],
   "note": "Equality of the complete results, exceptions included."
  },
  {
   "property": "C52",
   "status": "proved",
   "theorems": [
    "C52_names",
    "C52_layers",
    "C52_one"
   ],
   "note": "Every answer."
  },
  {
   "property": "C53",
   "status": "proved",
   "theorems": [
    "C53_primary",
    "C53_conservation",
    "C53_answers",
    "C53_rates",
    "C53_example"
   ],
   "note": "Libraries after any history, caches of elements off and no remembered escape peaks; example library with one element built by calls of the API. Secondary excitation between different layers is not covered by the totality part."
  },
  {
   "property": "C54",
   "status": "proved",
   "theorems": [
    "C54_peaks",
    "C54_probability",
    "C54_total",
    "C54_example"
   ],
   "note": "Iff-characterisation of every peak with the exact numbers, bounds, monotonicity and the total; example through the API."
  },
  {
   "property": "C55",
   "status": "proved",
   "theorems": [
    "C55_transparent",
    "C55_same_question",
    "C55_example",
    "C55_stale_refuted",
    "C55_left_first_refuted"
   ],
   "note": "Transparency over every history with the C++17 order of evaluation; the two refuted theorems are the limitations the statement asks for."
  },
  {
   "property": "C56",
   "status": "proved",
   "theorems": [
    "C56_last_call_wins",
    "C56_answers",
    "C56_threshold",
    "C56_threshold_is_lowest_edge"
   ],
   "note": "Induction over histories, any arithmetic; thresholds for every library."
  },
  {
   "property": "C57",
   "status": "proved",
   "theorems": [
    "C57_composition",
    "C57_attenuation",
    "C57_transmission",
    "C57_families"
   ],
   "note": "For the library after any history; elements must have symbols for names and positive masses."
  },
  {
   "property": "C58",
   "status": "proved",
   "theorems": [
    "C58_secondary",
    "C58_thick",
    "C58_library",
    "C58_example"
   ],
   "note": "Exact value of every secondary field, for every answer, generic library (hypotheses met by Elements: C58_library) and example; an element whose name starts with the word dummytext is excluded (the code uses that word as the initial value of a name cache)."
  },
  {
   "property": "C59",
   "status": "proved",
   "theorems": [
    "C59_tertiary",
    "C59_escape",
    "C59_bounds",
    "C59_library",
    "C59_example"
   ],
   "note": "Exact value of every tertiary field for every answer, generic library and Elements (C59_library); the example has three positive parts."
  },
  {
   "property": "C60",
   "status": "proved",
   "theorems": [
    "C60_values",
    "C60_words",
    "C60_unique"
   ],
   "note": "Every text; the conversion to numbers is operator>> and not modelled here (to int: C61)."
  },
  {
   "property": "C61",
   "status": "proved",
   "theorems": [
    "C61_keys",
    "C61_bad_layer",
    "C61_more_words",
    "C61_one"
   ],
   "note": "Any arithmetic; layers are printed as the decimal text of any int."
  },
  {
   "property": "C62",
   "status": "proved",
   "theorems": [
    "C62_beam",
    "C62_result",
    "C62_rejected",
    "C62_unrecognised_refuted"
   ],
   "note": "Any arithmetic and any conversion of texts to double; the refuted theorem is the exception the statement names (the inverted comparison of C41)."
  },
  {
   "property": "C63",
   "status": "proved",
   "theorems": [
    "C63_materials",
    "C63_tables",
    "C63_uninitialised_refuted",
    "C63_own_section_refuted"
   ],
   "note": "Any arithmetic in which 0 < 0 is false; the refuted theorems show that the hypothesis of complete sections is necessary."
  },
  {
   "property": "C64",
   "status": "proved",
   "theorems": [
    "C64_file",
    "C64_filters_refuted",
    "C64_order_refuted"
   ],
   "note": "The complete configuration object as one equation; hypotheses met by a file with every kind of entry. The refuted theorems are the two ordering defects the statement names."
  },
  {
   "property": "C65",
   "status": "proved",
   "theorems": [
    "C65_independent",
    "C65_again",
    "C65_exception_refuted"
   ],
   "note": "Relational proof over the whole reader, no well-formedness needed; the refuted theorem is the lack of exception safety the statement names."
  },
  {
   "property": "C66",
   "status": "proved",
   "theorems": [
    "C66_interpolation",
    "C66_between",
    "C66_extrapolation",
    "C66_edge"
   ],
   "note": "Over the reals. At an edge the subshells already excited must not jump and a coefficient must stay positive after it (regular_edge); met by the example, which has a K edge."
  },
  {
   "property": "C67",
   "status": "proved",
   "theorems": [
    "C67_loaded",
    "C67_missing_label",
    "C67_loads",
    "C67_totals"
   ],
   "note": "Over the reals, for any conversion of texts to double; the example file loads for every such conversion. The recomputed rows are stated for columns that do not coincide."
  },
  {
   "property": "C68",
   "status": "proved",
   "theorems": [
    "C68_constants",
    "C68_radiative",
    "C68_nonradiative",
    "C68_history",
    "C68_refused",
    "C68_atomic_numbers_ignored",
    "C68_loads",
    "C68_example"
   ],
   "note": "Any arithmetic; C68_history ties every change to successful calls of the element API, C68_loads gives sufficient conditions for success."
  },
  {
   "property": "C69",
   "status": "proved",
   "theorems": [
    "C69_library",
    "C69_elements",
    "C69_history",
    "C69_atomic_data",
    "C69_constructors",
    "C69_missing_file",
    "C69_example"
   ],
   "note": "Any arithmetic (atomic data over the reals); the example is a complete directory with 11 files that initialises a library over exact rationals."
  },
  {
   "property": "C70",
   "status": "proved",
   "theorems": [
    "C70_load",
    "C70_refused",
    "C70_set",
    "C70_vectors",
    "C70_example"
   ],
   "note": "Any arithmetic."
  },
  {
   "property": "C71",
   "status": "proved",
   "theorems": [
    "C71_frame",
    "C71_unknown",
    "C71_table",
    "C71_supplied",
    "C71_accepted",
    "C71_example"
   ],
   "note": "Frame over any arithmetic, the rest over the reals, for data without edges (energies more than 1e-5 keV apart) as the statement says. An example meets all hypotheses. Not covered: data with edges (repeated energies)."
  },
  {
   "property": "C72",
   "status": "proved",
   "theorems": [
    "C72_edges",
    "C72_refused",
    "C72_own",
    "C72_example"
   ],
   "note": "Over the reals (refusal: any arithmetic). The pairing by rank and not by energy is what the code does: one jump missing or in excess above a shell hides its edge."
  },
  {
   "property": "C73",
   "status": "proved",
   "theorems": [
    "C73_table",
    "C73_answers",
    "C73_accepted",
    "C73_example"
   ],
   "note": "Over the reals. C73_example shows the consequence on a concrete library: only shells whose edge was found are rescaled, so the photoelectric coefficient answered is 3 where 4 was given. Answers at a place before the edge of a shell that EPDL97 counts as open are outside C73_answers (the code then interpolates from zeros)."
  },
  {
   "property": "C74",
   "status": "proved",
   "theorems": [
    "C74_refused",
    "C74_any",
    "C74_file",
    "C74_well_named",
    "C74_again",
    "C74_loads",
    "C74_columns",
    "C74_example"
   ],
   "note": "Over any arithmetic and any reading of numbers; the reading of scans is the one of C41/C42. C74_well_named shows that every library made by the constructor and any public calls meets the hypothesis, C74_again that it still does afterwards. The example reads a file with its own reader of natural numbers."
  },
  {
   "property": "C75",
   "status": "proved",
   "theorems": [
    "C75_superposition",
    "C75_library",
    "C75_one_energy",
    "C75_scale",
    "C75_example"
   ],
   "note": "Over the reals. C75_superposition for any library with proportional excitation factors, C75_library for the class Elements with the element caches off (plain_library, as in C53), C75_scale for the weights given to setBeam. Tertiary excitation is not a sum over the energies and is left out of the rate; the lines of escape peaks follow from C38."
  },
  {
   "property": "C76",
   "status": "proved",
   "theorems": [
    "C76_together",
    "C76_library",
    "C76_example"
   ],
   "note": "Over the reals. C76_together for any well-formed library, C76_library for the class Elements with the element caches off (plain_library, as in C53). It holds for the calls that succeed; tertiary excitation, which is computed from the summed answer, is left out of the rate. C76_example asks for the K lines of iron twice and for the Ka lines once."
  },
  {
   "property": "C77",
   "status": "proved",
   "theorems": [
    "C77_subdivision",
    "C77_library",
    "C77_example"
   ],
   "note": "Over the reals, without secondary excitation, without geometric efficiency (the halves lie at different distances from the detector), for layers that fill their whole area (funny factor 1), detector angles between 0 and 180 degrees and requests for all layers. C77_subdivision for any library, C77_library for the class Elements with complete data, where both calculations are proved to answer."
  },
  {
   "property": "C78",
   "status": "proved",
   "theorems": [
    "C78_attenuators",
    "C78_added",
    "C78_order",
    "C78_library",
    "C78_example"
   ],
   "note": "Over the reals, for calculations that succeed. C78_attenuators, C78_added, C78_order for any library, C78_library for the class Elements with the element caches off (plain_library). Tertiary excitation is left out of the rate."
  }
 ]
}