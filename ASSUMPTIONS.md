# What `Print Assumptions` lists for each property theorem

Generated by `tools/assumptions.py`. All names are of Coq's standard library.

## Closed under the global context

`C01_any_arithmetic`, `C02_null_dereference`, `C02_optional_vectors_broadcast`, `C02_pointer_overload_agrees`, `C05_calls_succeed_or_throw_invalid_argument`, `C05_failed_calls_change_nothing`, `C05_named_material_cannot_be_renamed_by_setName`, `C06_map_overload_failure_is_atomic`, `C06_vector_overload_failure_is_atomic`, `C07_vector_overload_is_elementwise`, `C09_vector_overload_is_elementwise`, `C12_escape_cache_is_transparent`, `C12_escape_cache_is_transparent_any_order`, `C13_En_bad_order`, `C15_L0_is_always_finite`, `C16_overloads_agree`, `C17_labels_accepted`, `C17_labels_stored_canonically`, `C18_one_group_per_transition`, `C19_bad_destination_throws`, `C20_accepted_keys`, `C20_construction`, `C20_exactly_the_given_keys_change`, `C20_known_constants`, `C22_one_point_undefined`, `C23_cache_flag`, `C27_constants_take_effect`, `C28_other_lengths`, `C29_empty_name_refuted`, `C29_last_addition`, `C29_names`, `C29_registry`, `C30_materials`, `C30_outcomes`, `C30_refused_unchanged`, `C30_replace_loses_material_refuted`, `C30_throwing_add_registers_refuted`, `C31_junk_accepted_refuted`, `C31_rejected`, `C32_group_without_number_refuted`, `C32_nested_end_refuted`, `C32_one_character_dropped_refuted`, `C32_six_digits_refuted`, `C33_negative_count_refuted`, `C37_negative_index`, `C37_no_sample_undefined_refuted`, `C37_sample_reference`, `C40_bad_lines_rejected`, `C40_comments_refuted`, `C40_key_leaks_refuted`, `C40_missing_file`, `C40_read`, `C40_reread`, `C40_reread_refuted`, `C41_actual`, `C41_never_finds`, `C41_refuted`, `C41_subsections`, `C41_subsections_sensitive_refuted`, `C42_blank_line_needed`, `C42_data`, `C42_number_of_scans`, `C42_number_of_scans_any`, `C44_failed_load_refuted`, `C46_last_attached_material_decides`, `C46_peak_families_of_a_material`, `C56_answers`, `C56_last_call_wins`, `C60_unique`, `C60_values`, `C60_words`, `C61_bad_layer`, `C61_keys`, `C61_more_words`, `C61_one`, `C62_beam`, `C62_rejected`, `C62_result`, `C62_unrecognised_refuted`, `C63_materials`, `C63_own_section_refuted`, `C63_tables`, `C63_uninitialised_refuted`, `C64_file`, `C64_filters_refuted`, `C64_order_refuted`, `C65_again`, `C65_exception_refuted`, `C65_independent`, `C68_atomic_numbers_ignored`, `C68_constants`, `C68_history`, `C68_loads`, `C68_nonradiative`, `C68_radiative`, `C68_refused`, `C69_constructors`, `C69_elements`, `C69_example`, `C69_history`, `C69_library`, `C69_missing_file`, `C70_load`, `C70_refused`, `C70_set`, `C70_vectors`, `C71_frame`, `C71_unknown`, `C72_refused`, `C74_again`, `C74_any`, `C74_columns`, `C74_file`, `C74_loads`, `C74_refused`, `C74_well_named`

## `ClassicalDedekindReals.sig_forall_dec`, `FunctionalExtensionality.functional_extensionality_dep`

`C45_no_zero_denominator`, `C56_threshold_is_lowest_edge`

## `ClassicalDedekindReals.sig_forall_dec`, `ClassicalDedekindReals.sig_not_dec`, `FunctionalExtensionality.functional_extensionality_dep`

`C37_fraction_laws`

## `ClassicalDedekindReals.sig_forall_dec`, `ClassicalDedekindReals.sig_not_dec`, `Classical_Prop.classic`, `FunctionalExtensionality.functional_extensionality_dep`

`C01_empty_energy_empties_the_beam`, `C01_setBeam_sorted_normalised_complete`, `C01_single_energy`, `C02_undefined_exactly_when_short`, `C03_map_composition_is_normalised`, `C03_non_positive_amount_is_rejected`, `C03_vectors_agree_with_map`, `C04_vector_sum_is_one_iff_distinct_partial`, `C05_initialize_accepts_exactly_valid_arguments`, `C05_materials_are_always_valid`, `C06_map_overload_accepts_exactly`, `C06_name_and_comment`, `C06_reachable_tables_are_valid`, `C06_vector_overload_accepts_exactly`, `C07_bounded_by_the_table`, `C07_constant_above_the_last_energy`, `C07_constant_below_the_first_energy`, `C07_empty_table_transmits_everything`, `C07_straight_line_on_every_segment`, `C07_tabulated_values_are_reproduced`, `C08_repeated_energies_are_stored_1e6_apart_partial`, `C08_strictly_increasing_energies_are_stored_verbatim`, `C09_non_positive_thickness_throws`, `C09_opposite_angles_agree`, `C09_stacked_layers_multiply`, `C09_transmission_at_any_angle`, `C09_transmission_at_normal_incidence`, `C09_transmission_decreases`, `C09_transmission_is_a_fraction`, `C10_density_comes_from_material_partial`, `C10_density_comes_from_material_refuted`, `C10_thickness_comes_from_material`, `C11_active_area`, `C11_diameter`, `C11_distance`, `C11_geometry_is_always_valid`, `C12_failed_computation_is_remembered_refuted`, `C12_two_libraries_share_a_label_refuted`, `C13_E1_domain`, `C13_En_at_zero`, `C13_En_domain`, `C13_En_first_order`, `C13_En_of_one_throws`, `C13_En_recurrence`, `C14_erf_of_zero_is_not_zero`, `C14_erf_plus_erfc`, `C14_erfc_bounds`, `C14_reflection`, `C15_L0_is_never_negative`, `C15_L0_rejects_non_positive_coefficients`, `C15_L0_thick_layer`, `C15_L0_thin_layer`, `C15_X_is_inclusion_exclusion`, `C15_X_vanishes_without_depth`, `C16_fluorescence_ratios`, `C16_total_has_no_influence`, `C18_auger_ratios`, `C18_auger_ratios_sum_to_one`, `C18_coster_kronig_groups`, `C18_groups_of_the_shell`, `C18_missing_total_is_the_sum`, `C19_too_large_yields_throw`, `C19_transfer_is_not_negative`, `C19_transfer_values`, `C19_vacancies_are_bounded`, `C21_no_partials_no_photoelectric`, `C21_sums`, `C22_indices`, `C22_partial_interpolated`, `C22_queries_succeed`, `C22_scattering_interpolated`, `C22_zero_neighbour_refuted`, `C23_any_evaluation_order`, `C23_cache_size`, `C23_cache_transparent`, `C23_fill_is_complete`, `C24_closed_shells_get_nothing`, `C24_distribution`, `C25_emitted_lines`, `C25_excited_shells`, `C26_cascade`, `C26_innermost_unchanged`, `C26_linear`, `C27_cache_transparent`, `C27_filled_cache_transparent`, `C27_line_rates`, `C28_total`, `C28_transition_energy`, `C31_plain_formula`, `C32_groups_partial`, `C32_wrong_order_diverges_refuted`, `C33_any_answer`, `C33_empty`, `C33_fractions`, `C33_groups`, `C33_plain_formula`, `C34_acyclic`, `C34_additional`, `C34_cycle_diverges_refuted`, `C34_map`, `C34_resolves`, `C34_unknown`, `C35_as_given`, `C35_by_name`, `C35_by_name_vector`, `C35_mixture`, `C35_only_ratios`, `C35_rejected`, `C36_by_name`, `C36_families`, `C36_succeeds`, `C36_unknown_name`, `C37_efficiency`, `C37_monotonic`, `C38_layer`, `C38_line`, `C38_nonnegative`, `C38_secondary`, `C39_no_gain`, `C39_order`, `C39_product`, `C42_labels`, `C42_one_character_row_refuted`, `C43_history_at_points`, `C43_history_between_points`, `C43_history_outside_refuted`, `C43_indices_bracket`, `C43_indices_outside`, `C43_query_answers`, `C43_remembered_index`, `C43_table_points`, `C44_sums`, `C44_weights`, `C45_E1_between_classical_bounds`, `C45_E1_positive_and_decreasing_below_one`, `C45_continued_fraction_bounds`, `C47_deBoerD_at_one`, `C47_deBoerD_is_exp_times_E1`, `C48_tables`, `C49_bounds`, `C49_nonnegative`, `C49_primary`, `C50_answers`, `C50_example`, `C51_detector_memory`, `C52_layers`, `C52_names`, `C52_one`, `C53_answers`, `C53_conservation`, `C53_example`, `C53_primary`, `C53_rates`, `C54_example`, `C54_peaks`, `C54_probability`, `C54_total`, `C55_example`, `C55_left_first_refuted`, `C55_same_question`, `C55_stale_refuted`, `C55_transparent`, `C56_threshold`, `C57_attenuation`, `C57_composition`, `C57_families`, `C57_transmission`, `C58_example`, `C58_library`, `C58_secondary`, `C58_thick`, `C59_bounds`, `C59_escape`, `C59_example`, `C59_library`, `C59_tertiary`, `C66_between`, `C66_edge`, `C66_extrapolation`, `C66_interpolation`, `C67_loaded`, `C67_loads`, `C67_missing_label`, `C67_totals`, `C68_example`, `C69_atomic_data`, `C70_example`, `C71_accepted`, `C71_example`, `C71_supplied`, `C71_table`, `C72_edges`, `C72_example`, `C72_own`, `C73_accepted`, `C73_answers`, `C73_example`, `C73_table`, `C74_example`, `C75_example`, `C75_library`, `C75_one_energy`, `C75_scale`, `C75_superposition`, `C76_example`, `C76_library`, `C76_together`, `C77_example`, `C77_library`, `C77_subdivision`, `C78_added`, `C78_attenuators`, `C78_example`, `C78_library`, `C78_order`

## `PrimFloat.abs`, `PrimFloat.add`, `PrimFloat.div`, `PrimFloat.eqb`, `PrimFloat.float`, `PrimFloat.leb`, `PrimFloat.ltb`, `PrimFloat.mul`, `PrimFloat.of_uint63`, `PrimFloat.opp`, `PrimFloat.sqrt`, `PrimFloat.sub`, `PrimInt63.int`, `PrimInt63.lor`, `PrimInt63.lsl`, `PrimInt63.sub`

`C04_vector_sum_is_one_refuted`, `C08_every_value_is_stored_refuted`, `C17_rejected_call_is_atomic_refuted`, `C17_stored_labels_belong_to_the_shell_refuted`, `C18_array_overload_keeps_stale_total_refuted`, `C19_coster_kronig_part_at_most_its_yield_refuted`, `C19_destination_AL_counts_the_total_refuted`, `C20_failed_call_is_atomic_refuted`, `C23_failed_fill_older_order_refuted`, `C23_stale_after_rejected_constants_refuted`, `C23_stale_after_setBindingEnergies_refuted`, `C23_stale_after_setRadiativeTransitions_refuted`, `C27_foreign_labels_refuted`, `C27_stale_after_setRadiativeTransitions_refuted`

## `ClassicalDedekindReals.sig_forall_dec`, `ClassicalDedekindReals.sig_not_dec`, `Classical_Prop.classic`, `FunctionalExtensionality.functional_extensionality_dep`, `PrimFloat.abs`, `PrimFloat.add`, `PrimFloat.div`, `PrimFloat.eqb`, `PrimFloat.float`, `PrimFloat.leb`, `PrimFloat.ltb`, `PrimFloat.mul`, `PrimFloat.of_uint63`, `PrimFloat.opp`, `PrimFloat.sqrt`, `PrimFloat.sub`, `PrimInt63.int`, `PrimInt63.lor`, `PrimInt63.lsl`, `PrimInt63.sub`

`C13_E1_of_one_refuted`
