# What Print Assumptions lists

Generated by scripts/assumptions.py from the built theories, one section per set of axioms.
All axioms are the standard library's.

## Closed under the global context (374 theorems)

C01_clock_history, C02_calendar_periods_exact, C02_fixed_periods_exact, C02_ordinal_counts_days, C02_period_zero_is_start, C03_datetimes_strictly_increase, C03_order_is_time_order, C04_calendar_periods_raise_exactly_out_of_range, C04_fixed_periods_raise_exactly_out_of_range, C04_results_are_valid_dates, C05_empty_names_refuted, C05_paths_coherent, C06_found_by_path, C06_result_has_the_path, C07_missing_account_partial, C07_missing_account_refuted, C08_remove_absent_is_noop, C08_remove_takes_the_last_match, C08_remove_undoes_create, C09_descendants_complete, C09_each_once, C09_identities_unique, C09_never_itself, C09_parents_first, C100_table, C10_add_activity, C10_add_activity_raises, C10_validation_accepts_existing_names, C10_validation_raises_at_first_bad_name, C11_create_returns_the_transaction, C11_ledger_append_only, C12_mixed_dates_raise, C12_row, C12_transaction_list_exact, C12_transaction_list_succeeds, C13_balance_sheet_equation, C14_balance_sheet_lines, C14_balance_sheet_succeeds, C15_income_statement_lines_exact, C15_income_statement_partial, C15_income_statement_refuted, C16_trial_balance, C17_end_before_start_refuted, C17_execution_window_partial, C17_interval_0_refuted, C18_late_activity_exact_partial, C18_late_activity_refuted, C19_nonpositive_never_posts, C19_run_postings, C20_rerun_reproduces, C21_sources_below_component, C22_closing_exact, C22_income_accounts_emptied_partial, C22_loss_refuted, C22_refund_first_refuted, C22_retained_earnings_exact, C22_sub_account_refuted, C22_trading_accounts_refuted, C22_two_sided_refuted, C23_last_year_refuted, C23_windows_cover_partial, C23_windows_disjoint, C23_years_closed_once, C24_assets_untouched, C24_closing_entries_shape, C25_complete_run_partial, C25_default_start_refuted, C25_early_start_refuted, C25_loan_decreases, C25_loan_repaid, C25_month_end_refuted, C26_loan_account_is_outstanding, C27_positive_rate_partial, C27_zero_rate_refuted, C28_characters, C28_counts, C28_counts_list, C28_parses_the_grammar, C28_rejects_the_rest, C28_unambiguous, C29_bad_syntax, C29_concatenation, C29_element, C29_element_subscript, C29_empty, C29_group_subscript, C29_hydrate, C29_molar_mass, C29_only_formulas, C29_periodic_table, C29_phase_ignored, C29_positive, C29_unknown_element, C29_white_space_ignored, C30_amount_defined, C30_amount_of_mass, C30_amounts_entrywise, C30_amounts_of_masses, C30_mass_of_amount, C30_masses_entrywise, C30_masses_of_amounts, C30_total_functions, C31_amount_fractions_defined, C31_amount_fractions_sum, C31_element_fractions_of_elements, C31_element_fractions_sum, C31_mass_fractions_sum, C31_round_trip, C31_round_trip_back, C31_scale_free, C31_zero_total_raises, C32_absent, C32_back, C32_conserves_element, C32_mass_fraction, C35_magnetic_constructor_refuted, C37_line_normal_form, C37_split, C37_words_unique, C38_chem_add_assay, C38_chem_add_assay_rejects, C38_chem_component, C38_chem_empty, C38_chem_normalised, C38_chem_not_normalised, C38_chem_unknown_assay, C38_chem_zero_total, C38_psd_add_assay, C38_psd_add_assay_rejects, C38_psd_empty, C38_psd_normalised, C38_psd_not_normalised, C38_psd_unknown_assay, C38_psd_zero_total, C38_slurry_empty, C38_slurry_normalised, C38_slurry_not_normalised, C38_slurry_rejected_assay_refuted, C38_slurry_zero_total_refuted, C39_chem_add_to, C39_chem_add_to_partial_change_refuted, C39_chem_compound, C39_chem_different_materials, C39_chem_empty_refuted, C39_chem_same_material_refuted, C39_chem_succeeds_or_raises, C39_psd_add_to, C39_psd_add_to_partial_change_refuted, C39_psd_different_materials, C39_psd_missing_class, C39_psd_same_material, C39_psd_scale, C39_psd_size_class, C39_psd_unknown_class, C39_slurry_any_name_is_water_refuted, C39_slurry_packages, C39_slurry_scale, C39_slurry_size_class, C39_slurry_water, C40_chem_atomic, C40_chem_components, C40_chem_compound, C40_chem_compound_mass, C40_chem_compound_too_much, C40_chem_empty_refuted, C40_chem_mass, C40_chem_too_much, C40_chem_unknown, C40_psd_atomic, C40_psd_class, C40_psd_class_mass, C40_psd_classes, C40_psd_empty_refuted, C40_psd_mass, C40_psd_too_much, C40_psd_unknown_class, C40_slurry_all_water_refuted, C40_slurry_atomic, C40_slurry_class, C40_slurry_class_mass, C40_slurry_mass, C40_slurry_too_much, C40_slurry_water, C41_chem_add, C41_chem_dictionary, C41_chem_element_mass, C41_chem_element_masses_sum, C41_chem_list_agrees, C41_chem_scale, C42_add_partial, C42_extract, C42_fractions, C42_volume, C42_water_refuted, C51_Ra_refuted, C53_default_number_refuted, C53_structure_report_fails, C53_structure_report_lists, C53_structure_report_needs_numbers, C53_structure_report_order, C54_component_partial, C54_sibling_prefix_refuted, C54_trailing_slash_partial, C55_changed_start_refuted, C55_second_window_partial, C56_elements, C56_elements_defined, C56_white_space_refuted, C57_written_multipliers_partial, C57_zero_group_refuted, C59_exceptions, C60_chem_file, C60_columns, C60_empty_file, C60_psd_file, C60_readable, C60_repeated_name_refuted, C60_slurry_file, C60_slurry_keywords, C60_slurry_short, C61_chem_assay, C61_chem_clear_refuted, C61_chem_empty, C61_chem_fraction, C61_chem_roundtrip, C61_psd_assay, C61_psd_clear, C61_psd_empty, C61_psd_fraction, C61_slurry_assay, C61_slurry_clear, C61_slurry_fraction, C66_missing_model, C70_any_listing_refuted, C70_formula_newline, C70_listing_read, C70_repeated_number_raises, C70_short_line, C71_carriage_return_refuted, C71_injective, C71_reader_exact, C71_rendered_says_the_table, C71_round_trip, C72_case_collision_refuted, C72_dictionaries, C72_header, C72_repeated_symbols_refuted, C72_short_files_raise, C72_template, C72_template_data, C72_template_name, C72_unknown_symbol, C73_get_date_exact, C73_iso_round_trip, C73_other_texts_raise, C73_unambiguous, C73_values_kept, C74_all_dates, C74_date_clock, C74_loan_end, C74_loan_text_refuted, C74_mixed_raises, C74_report_text_refuted, C74_short_periods_refuted, C74_text_for_both_refuted, C75_amounts, C75_balance_csv, C75_balance_lines, C75_balance_table, C75_date_cells, C75_date_cells_read_back, C75_income_csv, C75_income_table, C75_printed_alike, C75_time_cells, C75_transaction_csv, C75_transaction_table, C75_whole_hundredths, C76_after_renaming, C76_component_paths, C76_entity_paths_partial, C76_entity_paths_refuted, C77_created, C77_lookup, C77_lookup_fails, C77_remove, C77_removed_partial, C77_removed_refuted, C78_as_created, C78_basic_activity, C78_duration_ignored_refuted, C78_duration_refuted, C78_repaid_partial, C79_chem_operators, C79_chem_others, C79_chem_values, C79_custom_properties_fresh, C79_custom_properties_refuted, C79_custom_properties_shared, C79_psd_operators, C79_psd_others, C79_psd_values, C79_slurry_operators, C79_slurry_others, C79_slurry_values, C86_balance_sheet, C86_income_statement, C86_transaction_list, C86_transaction_list_mixed, C86_unknown_account_closed_refuted, C86_year_end, C86_year_end_causes, C87_chem_add, C87_chem_create, C87_chem_extract, C87_chem_scale, C87_psd_add, C87_psd_create, C87_psd_extract, C87_psd_scale, C87_slurry_add, C87_slurry_create, C87_slurry_extract, C87_slurry_scale, C88_cut_off, C88_escapes, C88_object_reads_back, C88_phase_refuted, C88_printable_text, C88_text_is_the_data, C90_chem_material, C90_chem_package, C90_chem_package_tells, C90_chem_reads_back, C90_long_names_refuted, C90_psd_material, C90_psd_package, C90_psd_package_tells, C90_psd_reads_back, C90_slurry_material, C90_slurry_package, C90_slurry_package_tells, C90_slurry_reads_back_refuted, C90_wide_number_refuted, C91_books, C91_causes, C91_history, C91_horizon, C91_outcome, C91_restored_refuted, C91_retry, C91_where, C92_listing, C92_nothing, C92_order, C92_reference, C92_tells, C93_balance_csv, C93_csv, C93_fails_alike, C93_files, C93_income_csv, C93_no_pictures, C93_returned, C93_same_text, C94_one_reading, C96_paths, C96_run, C96_shared_loan_refuted, C96_shared_source_refuted, C96_structures, C97_made_is_loaded, C97_made_is_loaded_refuted, C99_one_reading

## `ClassicalDedekindReals.sig_forall_dec`, `FunctionalExtensionality.functional_extensionality_dep` (95 theorems)

C36_molar_mass, C41_thermo_amount, C41_thermo_amounts, C41_thermo_dictionary, C41_thermo_element_masses, C41_thermo_sum, C44_converges, C44_early_stop_refuted, C44_evaluations, C44_line, C44_silent_failure_refuted, C44_within_tolerance, C45_exactly, C45_otherwise_raises, C45_value, C45_value_in_limits, C46_absolute_zero, C46_beta, C46_law, C46_law_fixed_pressure, C46_mixture, C46_mixture_between, C46_mixture_pure, C46_monotone, C47_Cp_between, C47_Cp_mean, C50_chart, C50_horizontal_refuted, C50_outside, C50_vertical_refuted, C51_gr_pr, C51_ratios, C51_units, C51_units_transfer, C51_zero_denominator, C52_darcy_weisbach, C52_hagen_poiseuille, C58_formulas, C58_molar_masses, C58_regular, C60_thermo_blank_property, C60_thermo_file, C61_thermo_assay, C61_thermo_empty, C62_amounts, C62_assay, C62_dictionary, C62_element, C62_elements, C66_alpha, C66_missing_component, C66_nu, C66_own_model, C67_files_defined, C67_files_positive, C67_gases_derived_positive, C67_gases_positive, C67_water_beta_refuted, C68_density_close_to_ideal, C68_ideal_gases, C68_water_viscosities, C80_every_float_is_exact_somewhere, C80_rounding_is_small, C84_annuity_repays, C88_no_compound, C88_other_files, C89_within_is_close, C92_auxi, C92_failed_load, C92_loaded_files, C92_replaces, C92_shipped_nist, C95_describes, C95_failures, C95_few_temperatures_refuted, C95_higher_degree, C95_least_squares, C95_plot, C95_plot_refuted, C95_range, C95_reproduces, C95_residuals, C95_rows_and_units, C97_created, C97_ideal_plot, C97_materials, C97_mixture_plot_partial, C97_mixture_plot_refuted, C97_names_refuted, C97_no_plot_refuted, C98_between_partial, C98_between_refuted, C98_fluids, C98_measurements, C98_range

## `ClassicalDedekindReals.sig_forall_dec`, `ClassicalDedekindReals.sig_not_dec`, `FunctionalExtensionality.functional_extensionality_dep` (22 theorems)

C47_air_refuted, C47_order, C47_range_of_all_components_refuted, C47_viscosity_between, C47_viscosity_mean, C48_mass_scale, C48_riboud_again, C48_riboud_ignores_unknown, C48_riboud_keeps, C48_riboud_mass, C48_riboud_mutates_refuted, C48_riboud_other_entries, C48_riboud_scale, C48_riboud_weymann, C48_urbain_defined, C48_urbain_mass, C48_urbain_scale, C48_urbain_silica_refuted, C48_zero_temperature, C48_zero_total, C49_zero_temperature, C52_hydraulic_diameter

## `ClassicalDedekindReals.sig_forall_dec`, `ClassicalDedekindReals.sig_not_dec`, `Classical_Prop.classic`, `FunctionalExtensionality.functional_extensionality_dep` (286 theorems)

C100_csv, C100_drawn, C100_fails, C100_numbers_changed_refuted, C100_same_drawing, C100_where, C101_accepts, C101_ideal_beta, C101_ideal_rho_T, C101_ideal_rho_TP, C101_ideal_rho_TPx, C101_limits_refuse_nan_refuted, C101_negative_refused, C101_polynomial_at_zero, C101_polynomial_error, C101_polynomial_finite, C101_refuses_other_states, C101_shipped, C101_water_beta, C101_zero_refused_as_invalid_refuted, C102_accurate_log_exists, C102_accurate_power_exists, C102_any_rayleigh, C102_boundary_refuted, C102_colebrook, C102_colebrook_refused, C102_colebrook_sign, C102_correlations, C102_grashof, C102_grashof_cold, C102_hot_surface, C102_no_warnings, C102_pressure_drop, C102_quotients, C102_ratios, C102_region, C102_region_chart, C102_region_special, C102_rough_refused, C102_rough_turbulent, C102_rough_warnings, C102_smooth_refused, C102_smooth_turbulent, C102_zero_denominator, C33_constant_above, C33_enthalpy_derivative, C33_entropy_derivative, C33_heat_capacity, C33_integral, C33_zero_at_lower_bound, C34_anchored, C34_constant_heat_capacity_above, C34_continuous, C34_derivative, C34_enthalpy_integral, C34_entropy_integral, C34_heat_capacity, C34_magnetic_derivative, C34_magnetic_extrapolation, C34_magnetic_extrapolation_refuted, C34_no_records, C35_defined, C35_derivative, C35_gibbs, C35_gibbs_magnetic, C35_magnetic_continuous, C35_magnetic_derivatives, C35_magnetic_entropy, C36_linear_in_mass, C36_no_phase, C36_same_error, C36_unknown_compound, C36_unknown_phase, C36_value, C38_thermo_added_assay_refuted, C38_thermo_coal_refuted, C38_thermo_empty, C38_thermo_normalised, C38_thermo_not_normalised, C38_thermo_unknown_assay, C38_thermo_zero_total, C39_thermo_empty_sum_refuted, C39_thermo_missing_compound, C39_thermo_package, C39_thermo_pair, C39_thermo_scale, C39_thermo_scale_negative, C39_thermo_triple, C39_thermo_unknown_compound, C40_thermo_absent_refuted, C40_thermo_compound, C40_thermo_mass, C40_thermo_mass_too_much, C40_thermo_material, C40_thermo_pair, C40_thermo_pair_too_much, C41_thermo_add, C41_thermo_scale, C43_add_enthalpy, C43_add_pair, C43_add_triple, C43_clear, C43_create, C43_extract_compound, C43_extract_mass, C43_extract_pair, C43_scale, C43_set_H, C43_set_T, C44_mixture, C44_package, C47_no_known_gas_refuted, C47_pure, C47_scale, C47_shipped, C47_unknown_ignored, C47_wilke, C47_wilke_identical, C47_wilke_order, C47_zero_total, C48_positive, C48_urbain_decreasing, C48_urbain_weymann, C49_bounds, C49_derivative, C49_increasing, C49_integral, C49_zero_point, C50_cold_surface_refuted, C50_correlations, C50_hot_surface, C50_no_temperature, C50_shipped_gases, C52_haaland, C52_smooth, C52_smooth_defined, C58_calculus, C58_nist_refuted, C58_reference_values, C59_gray_tin_refuted, C59_heat_capacity_positive, C59_increasing, C59_monoclinic_sulphur_refuted, C61_thermo_roundtrip, C62_absent_refuted, C62_add, C62_add_missing, C62_add_pair, C62_add_triple, C62_create, C62_create_succeeds, C62_extract_compound, C62_extract_mfr, C62_extract_pair, C62_extract_succeeds, C62_scale, C62_scale_negative, C62_too_much, C63_add, C63_add_pair, C63_add_triple, C63_clear_refuted, C63_extract, C63_extract_material, C63_scale, C63_set_Hfr, C63_set_T, C63_temperature, C64_add, C64_add_at_25, C64_add_carbon_refuted, C64_add_mixed, C64_create, C64_extract_refuted, C64_heating_value, C64_no_HHV_refuted, C64_scale, C64_sensible_heat, C64_set_T, C64_temperature, C65_add, C65_add_pair, C65_create, C65_extract, C65_set, C67_gases_increasing, C69_no_root, C69_outside, C69_unique_root, C70_anchored, C70_compound, C70_heat_capacity, C79_stream_operators, C79_stream_others, C79_stream_values, C79_thermo_operators, C79_thermo_others, C79_thermo_values, C80_balance_sheet_rounding, C80_income_statement_rounding, C80_totals_balance_refuted, C80_transaction_list_rounding, C81_balance_sheet_exact, C81_income_statement_exact, C81_transaction_list_exact, C81_whole_amounts_balance, C82_assay_sums_to_one, C82_chem_extract, C82_create_amount, C82_exact_conservation_refuted, C82_extract_amount, C82_extract_everything, C82_extract_guard, C82_extract_splits, C82_mix_entry, C82_mix_mass, C82_python_sum, C82_take_one, C83_ledger_agrees, C83_ledger_exact_refuted, C83_outstanding, C83_transactions, C84_accurate_pow_exists, C84_changed_terms, C84_exactly_repaid_refuted, C84_payment, C84_repaid, C84_schedule_in_range, C84_zero_rate, C85_add, C85_compare, C85_div, C85_empty_total, C85_equal, C85_less, C85_mul, C85_nan_total_not_refused, C85_neg, C85_negative_zero_refuted, C85_sub, C87_thermo_add, C87_thermo_added_assay_refuted, C87_thermo_create, C87_thermo_extract, C87_thermo_scale, C88_compound_reads_back, C88_directory, C89_all_zero, C89_amount, C89_amount_fractions, C89_convert, C89_convert_absent, C89_counts_above_2_53_refuted, C89_counts_exact, C89_element_fraction, C89_element_fractions_sum, C89_mass, C89_mass_fractions, C89_molar_mass, C89_no_atoms, C89_overflow, C89_round_trip_exact_refuted, C90_added_assay_refuted, C90_coal_stream_refuted, C90_cut_names_refuted, C90_nine_digits, C90_thermo_material, C90_thermo_package, C90_thermo_package_tells, C90_thermo_stream, C92_accepted, C92_no_directory, C92_shipped, C94_aligned, C94_balance_sheet, C94_columns, C94_income_statement, C94_large_amounts_refuted, C94_numbers, C94_transaction_list_partial, C94_transactions_tell_partial, C99_balance_sheet, C99_income_statement, C99_same_as_plain, C99_table, C99_transaction_list_partial
