{
 "claims": [
  {
   "property": "C01",
   "status": "proved",
   "theorems": [
    "C01_clock_history"
   ],
   "note": ""
  },
  {
   "property": "C02",
   "status": "proved",
   "theorems": [
    "C02_ordinal_counts_days",
    "C02_period_zero_is_start",
    "C02_fixed_periods_exact",
    "C02_calendar_periods_exact"
   ],
   "note": ""
  },
  {
   "property": "C03",
   "status": "proved",
   "theorems": [
    "C03_datetimes_strictly_increase",
    "C03_order_is_time_order"
   ],
   "note": ""
  },
  {
   "property": "C04",
   "status": "proved",
   "theorems": [
    "C04_fixed_periods_raise_exactly_out_of_range",
    "C04_calendar_periods_raise_exactly_out_of_range",
    "C04_results_are_valid_dates"
   ],
   "note": ""
  },
  {
   "property": "C05",
   "status": "proved",
   "theorems": [
    "C05_paths_coherent",
    "C05_empty_names_refuted"
   ],
   "note": ""
  },
  {
   "property": "C06",
   "status": "proved",
   "theorems": [
    "C06_found_by_path",
    "C06_result_has_the_path"
   ],
   "note": ""
  },
  {
   "property": "C07",
   "status": "partial",
   "theorems": [
    "C07_missing_account_refuted",
    "C07_missing_account_partial"
   ],
   "note": "Refuted as documented: a missing nested name raises IndexError instead of returning None; the exact behaviour is proved."
  },
  {
   "property": "C08",
   "status": "proved",
   "theorems": [
    "C08_remove_undoes_create",
    "C08_remove_absent_is_noop",
    "C08_remove_takes_the_last_match"
   ],
   "note": ""
  },
  {
   "property": "C09",
   "status": "proved",
   "theorems": [
    "C09_descendants_complete",
    "C09_each_once",
    "C09_never_itself",
    "C09_parents_first",
    "C09_identities_unique"
   ],
   "note": ""
  },
  {
   "property": "C10",
   "status": "proved",
   "theorems": [
    "C10_validation_accepts_existing_names",
    "C10_validation_raises_at_first_bad_name",
    "C10_add_activity",
    "C10_add_activity_raises"
   ],
   "note": ""
  },
  {
   "property": "C11",
   "status": "proved",
   "theorems": [
    "C11_ledger_append_only",
    "C11_create_returns_the_transaction"
   ],
   "note": ""
  },
  {
   "property": "C12",
   "status": "proved",
   "theorems": [
    "C12_transaction_list_exact",
    "C12_row",
    "C12_transaction_list_succeeds",
    "C12_mixed_dates_raise"
   ],
   "note": ""
  },
  {
   "property": "C13",
   "status": "proved",
   "theorems": [
    "C13_balance_sheet_equation"
   ],
   "note": ""
  },
  {
   "property": "C14",
   "status": "proved",
   "theorems": [
    "C14_balance_sheet_lines",
    "C14_balance_sheet_succeeds"
   ],
   "note": ""
  },
  {
   "property": "C15",
   "status": "partial",
   "theorems": [
    "C15_income_statement_refuted",
    "C15_income_statement_lines_exact",
    "C15_income_statement_partial"
   ],
   "note": "Refuted in general (a first posting on the abnormal side is stored with the wrong sign); exact lines proved for all ledgers, the property itself for ledgers posted on the normal side first."
  },
  {
   "property": "C16",
   "status": "proved",
   "theorems": [
    "C16_trial_balance"
   ],
   "note": ""
  },
  {
   "property": "C17",
   "status": "partial",
   "theorems": [
    "C17_execution_window_partial",
    "C17_interval_0_refuted",
    "C17_end_before_start_refuted"
   ],
   "note": "Proved for intervals >= 1, start <= end and a start inside the horizon; refuted for interval 0 (runs once after the end) and for an end one period before the start."
  },
  {
   "property": "C18",
   "status": "partial",
   "theorems": [
    "C18_late_activity_refuted",
    "C18_late_activity_exact_partial"
   ],
   "note": "Refuted: such an activity runs from period 0 on. Proved: it runs in exactly the periods in which it would run without a start (C18_late_activity_exact_partial)."
  },
  {
   "property": "C19",
   "status": "proved",
   "theorems": [
    "C19_run_postings",
    "C19_nonpositive_never_posts"
   ],
   "note": ""
  },
  {
   "property": "C20",
   "status": "proved",
   "theorems": [
    "C20_rerun_reproduces"
   ],
   "note": ""
  },
  {
   "property": "C21",
   "status": "proved",
   "theorems": [
    "C21_sources_below_component"
   ],
   "note": ""
  },
  {
   "property": "C22",
   "status": "partial",
   "theorems": [
    "C22_income_accounts_emptied_partial",
    "C22_retained_earnings_exact",
    "C22_trading_accounts_refuted",
    "C22_closing_exact",
    "C22_loss_refuted",
    "C22_sub_account_refuted",
    "C22_refund_first_refuted",
    "C22_two_sided_refuted"
   ],
   "note": "Refuted in general (accounts below Sales/Cost of Sales are doubled, losses have the wrong sign, a first revenue debit raises KeyError); the exact effect on every account is proved, and the property for the remaining accounts and profit years."
  },
  {
   "property": "C23",
   "status": "partial",
   "theorems": [
    "C23_years_closed_once",
    "C23_windows_disjoint",
    "C23_windows_cover_partial",
    "C23_last_year_refuted"
   ],
   "note": "Proved: one closing per year whose end the run reaches, disjoint windows, every period (of at least a second) covered. Refuted for a run that ends exactly with the year."
  },
  {
   "property": "C24",
   "status": "proved",
   "theorems": [
    "C24_closing_entries_shape",
    "C24_assets_untouched"
   ],
   "note": ""
  },
  {
   "property": "C25",
   "status": "partial",
   "theorems": [
    "C25_loan_repaid",
    "C25_loan_decreases",
    "C25_complete_run_partial",
    "C25_month_end_refuted",
    "C25_early_start_refuted",
    "C25_default_start_refuted"
   ],
   "note": "Amortisation proved for all loans and execution sequences; complete runs for monthly clocks and days up to 28; refuted for month-end days, a start before the model's start and the default start."
  },
  {
   "property": "C26",
   "status": "proved",
   "theorems": [
    "C26_loan_account_is_outstanding"
   ],
   "note": ""
  },
  {
   "property": "C27",
   "status": "partial",
   "theorems": [
    "C27_zero_rate_refuted",
    "C27_positive_rate_partial"
   ],
   "note": "Refuted for rate 0: ZeroDivisionError for every amount and duration. Proved: every positive rate gives a loan that its payments repay, each payment above an equal share."
  },
  {
   "property": "C28",
   "status": "proved",
   "theorems": [
    "C28_parses_the_grammar",
    "C28_unambiguous",
    "C28_characters",
    "C28_rejects_the_rest",
    "C28_counts",
    "C28_counts_list"
   ],
   "note": ""
  },
  {
   "property": "C29",
   "status": "proved",
   "theorems": [
    "C29_molar_mass",
    "C29_only_formulas",
    "C29_positive",
    "C29_unknown_element",
    "C29_bad_syntax",
    "C29_concatenation",
    "C29_group_subscript",
    "C29_element_subscript",
    "C29_hydrate",
    "C29_phase_ignored",
    "C29_white_space_ignored",
    "C29_empty",
    "C29_element",
    "C29_periodic_table"
   ],
   "note": ""
  },
  {
   "property": "C30",
   "status": "proved",
   "theorems": [
    "C30_mass_of_amount",
    "C30_amount_of_mass",
    "C30_amount_defined",
    "C30_amounts_entrywise",
    "C30_masses_entrywise",
    "C30_masses_of_amounts",
    "C30_amounts_of_masses",
    "C30_total_functions"
   ],
   "note": ""
  },
  {
   "property": "C31",
   "status": "proved",
   "theorems": [
    "C31_amount_fractions_sum",
    "C31_amount_fractions_defined",
    "C31_mass_fractions_sum",
    "C31_zero_total_raises",
    "C31_scale_free",
    "C31_round_trip",
    "C31_round_trip_back",
    "C31_element_fractions_sum",
    "C31_element_fractions_of_elements"
   ],
   "note": ""
  },
  {
   "property": "C32",
   "status": "proved",
   "theorems": [
    "C32_conserves_element",
    "C32_back",
    "C32_absent",
    "C32_mass_fraction"
   ],
   "note": ""
  },
  {
   "property": "C33",
   "status": "proved",
   "theorems": [
    "C33_heat_capacity",
    "C33_enthalpy_derivative",
    "C33_entropy_derivative",
    "C33_zero_at_lower_bound",
    "C33_constant_above",
    "C33_integral"
   ],
   "note": ""
  },
  {
   "property": "C34",
   "status": "partial",
   "theorems": [
    "C34_anchored",
    "C34_no_records",
    "C34_enthalpy_integral",
    "C34_entropy_integral",
    "C34_continuous",
    "C34_derivative",
    "C34_heat_capacity",
    "C34_constant_heat_capacity_above",
    "C34_magnetic_derivative",
    "C34_magnetic_extrapolation",
    "C34_magnetic_extrapolation_refuted"
   ],
   "note": "Proved for all phases without magnetic data (integral, anchoring, continuity, derivative, extrapolation) and for magnetic phases up to the highest record; refuted for magnetic phases above it: the extrapolation counts the magnetic heat capacity twice."
  },
  {
   "property": "C35",
   "status": "proved",
   "theorems": [
    "C35_gibbs",
    "C35_gibbs_magnetic",
    "C35_defined",
    "C35_derivative",
    "C35_magnetic_derivatives",
    "C35_magnetic_continuous",
    "C35_magnetic_entropy",
    "C35_magnetic_constructor_refuted"
   ],
   "note": "Proved with and without magnetic data. Finding: Phase(...) with magnetic data always raises TypeError (C35_magnetic_constructor_refuted), so such phases can only come from files."
  },
  {
   "property": "C36",
   "status": "proved",
   "theorems": [
    "C36_linear_in_mass",
    "C36_same_error",
    "C36_value",
    "C36_no_phase",
    "C36_unknown_compound",
    "C36_unknown_phase",
    "C36_molar_mass"
   ],
   "note": ""
  },
  {
   "property": "C37",
   "status": "proved",
   "theorems": [
    "C37_line_normal_form",
    "C37_words_unique",
    "C37_split"
   ],
   "note": "line normalisation of the material files (thermo, chem, psd, slurry share it): closed form, canonical, idempotent, terminates"
  },
  {
   "property": "C38",
   "status": "partial",
   "theorems": [
    "C38_chem_normalised",
    "C38_chem_not_normalised",
    "C38_chem_zero_total",
    "C38_chem_unknown_assay",
    "C38_chem_empty",
    "C38_chem_component",
    "C38_chem_add_assay",
    "C38_chem_add_assay_rejects",
    "C38_psd_normalised",
    "C38_psd_not_normalised",
    "C38_psd_unknown_assay",
    "C38_psd_empty",
    "C38_psd_zero_total",
    "C38_psd_add_assay",
    "C38_psd_add_assay_rejects",
    "C38_slurry_normalised",
    "C38_slurry_not_normalised",
    "C38_slurry_empty",
    "C38_slurry_zero_total_refuted",
    "C38_slurry_rejected_assay_refuted",
    "C38_thermo_normalised",
    "C38_thermo_not_normalised",
    "C38_thermo_zero_total",
    "C38_thermo_unknown_assay",
    "C38_thermo_empty",
    "C38_thermo_added_assay_refuted",
    "C38_thermo_coal_refuted"
   ],
   "note": "proved for chem, psd, slurry and thermo; a zero assay total raises in chem, gives nan in psd and thermo, and silently loses solids in slurry (refuted); thermo: assays added with add_assay and coal assays can never be used (refuted)"
  },
  {
   "property": "C39",
   "status": "partial",
   "theorems": [
    "C39_chem_different_materials",
    "C39_chem_succeeds_or_raises",
    "C39_chem_compound",
    "C39_chem_add_to",
    "C39_chem_same_material_refuted",
    "C39_chem_empty_refuted",
    "C39_chem_add_to_partial_change_refuted",
    "C39_psd_different_materials",
    "C39_psd_same_material",
    "C39_psd_size_class",
    "C39_psd_missing_class",
    "C39_psd_unknown_class",
    "C39_psd_add_to",
    "C39_psd_add_to_partial_change_refuted",
    "C39_psd_scale",
    "C39_slurry_packages",
    "C39_slurry_size_class",
    "C39_slurry_water",
    "C39_slurry_any_name_is_water_refuted",
    "C39_slurry_scale",
    "C39_thermo_package",
    "C39_thermo_missing_compound",
    "C39_thermo_pair",
    "C39_thermo_unknown_compound",
    "C39_thermo_triple",
    "C39_thermo_scale",
    "C39_thermo_scale_negative",
    "C39_thermo_empty_sum_refuted"
   ],
   "note": "proved for psd, slurry, thermo (packages, pairs, triples, scaling) and chem packages of different materials; refuted for chem packages of one material (compound masses are appended), for empty chem packages, for two empty thermo packages (T becomes nan), for failing add_to, and for slurry tuples with any name"
  },
  {
   "property": "C40",
   "status": "partial",
   "theorems": [
    "C40_chem_mass",
    "C40_chem_too_much",
    "C40_chem_compound_mass",
    "C40_chem_compound_too_much",
    "C40_chem_compound",
    "C40_chem_unknown",
    "C40_chem_atomic",
    "C40_chem_components",
    "C40_chem_empty_refuted",
    "C40_psd_mass",
    "C40_psd_too_much",
    "C40_psd_class_mass",
    "C40_psd_class",
    "C40_psd_unknown_class",
    "C40_psd_atomic",
    "C40_psd_classes",
    "C40_psd_empty_refuted",
    "C40_slurry_mass",
    "C40_slurry_too_much",
    "C40_slurry_water",
    "C40_slurry_class_mass",
    "C40_slurry_class",
    "C40_slurry_all_water_refuted",
    "C40_slurry_atomic",
    "C40_thermo_mass",
    "C40_thermo_mass_too_much",
    "C40_thermo_pair",
    "C40_thermo_pair_too_much",
    "C40_thermo_compound",
    "C40_thermo_absent_refuted",
    "C40_thermo_material"
   ],
   "note": "proved for chem, psd, slurry and thermo (mass, pair, compound, material) with atomic failure; refuted for empty packages, for slurry extract('H2O') and for thermo compounds the material does not have (an empty package is returned silently)"
  },
  {
   "property": "C41",
   "status": "proved",
   "theorems": [
    "C41_thermo_amounts",
    "C41_thermo_dictionary",
    "C41_chem_element_masses_sum",
    "C41_chem_element_mass",
    "C41_chem_list_agrees",
    "C41_chem_scale",
    "C41_chem_add",
    "C41_chem_dictionary",
    "C41_thermo_element_masses",
    "C41_thermo_sum",
    "C41_thermo_add",
    "C41_thermo_scale",
    "C41_thermo_amount"
   ],
   "note": "chem and thermo packages: element masses are the shares of the compounds, sum to the package mass, add and scale; also the molar amount of thermo packages"
  },
  {
   "property": "C42",
   "status": "partial",
   "theorems": [
    "C42_volume",
    "C42_add_partial",
    "C42_water_refuted",
    "C42_extract",
    "C42_fractions"
   ],
   "note": "volumes, water and solids add whenever there are solids; refuted when neither package has solids (density and volume become nan)"
  },
  {
   "property": "C43",
   "status": "proved",
   "theorems": [
    "C43_add_enthalpy",
    "C43_add_pair",
    "C43_add_triple",
    "C43_scale",
    "C43_set_T",
    "C43_set_H",
    "C43_create",
    "C43_extract_mass",
    "C43_extract_pair",
    "C43_extract_compound",
    "C43_clear"
   ],
   "note": "for non-coal packages of compounds in the database; packages marked as coal with mass can never be made (C38_thermo_coal_refuted)"
  },
  {
   "property": "C44",
   "status": "partial",
   "theorems": [
    "C44_evaluations",
    "C44_converges",
    "C44_within_tolerance",
    "C44_line",
    "C44_package",
    "C44_mixture",
    "C44_early_stop_refuted",
    "C44_silent_failure_refuted"
   ],
   "note": "at most 50 evaluations; convergence and the 1e-5 bound proved when the slopes vary by a bounded factor (also for packages and mixtures through their heat capacities); refuted in general: the tested residual is not that of the returned temperature, and after 48 rounds the search returns silently"
  },
  {
   "property": "C45",
   "status": "proved",
   "theorems": [
    "C45_value",
    "C45_value_in_limits",
    "C45_exactly",
    "C45_otherwise_raises"
   ],
   "note": ""
  },
  {
   "property": "C46",
   "status": "proved",
   "theorems": [
    "C46_law",
    "C46_law_fixed_pressure",
    "C46_monotone",
    "C46_mixture",
    "C46_mixture_pure",
    "C46_mixture_between",
    "C46_beta",
    "C46_absolute_zero"
   ],
   "note": ""
  },
  {
   "property": "C47",
   "status": "partial",
   "theorems": [
    "C47_shipped",
    "C47_air_refuted",
    "C47_viscosity_mean",
    "C47_Cp_mean",
    "C47_viscosity_between",
    "C47_Cp_between",
    "C47_pure",
    "C47_scale",
    "C47_unknown_ignored",
    "C47_order",
    "C47_wilke",
    "C47_wilke_order",
    "C47_wilke_identical",
    "C47_no_known_gas_refuted",
    "C47_zero_total",
    "C47_range_of_all_components_refuted"
   ],
   "note": "Proved under the hypothesis that every gas of the mixture has its property at T; refuted for mixtures with an 'Air' entry, which is a key of the table of gases but raises (C47_air_refuted)."
  },
  {
   "property": "C48",
   "status": "partial",
   "theorems": [
    "C48_urbain_scale",
    "C48_riboud_scale",
    "C48_urbain_weymann",
    "C48_riboud_weymann",
    "C48_positive",
    "C48_urbain_decreasing",
    "C48_urbain_defined",
    "C48_urbain_silica_refuted",
    "C48_zero_total",
    "C48_zero_temperature",
    "C48_riboud_mutates_refuted",
    "C48_riboud_keeps",
    "C48_riboud_other_entries",
    "C48_riboud_again",
    "C48_riboud_ignores_unknown",
    "C48_urbain_mass",
    "C48_riboud_mass",
    "C48_mass_scale"
   ],
   "note": "Proved: only proportions count, Weymann-Frenkel form, positivity, Urbain's decrease with temperature. Refuted: Riboud writes PO2.5, FeO1.5 and BO1.5 into the caller's dictionary (C48_riboud_mutates_refuted; C48_riboud_keeps and _again say exactly when it matters)."
  },
  {
   "property": "C49",
   "status": "proved",
   "theorems": [
    "C49_derivative",
    "C49_integral",
    "C49_bounds",
    "C49_increasing",
    "C49_zero_point",
    "C49_zero_temperature"
   ],
   "note": "The documented zero at 298.15 K does not hold and is not claimed; the enthalpy is counted from the zero-point energy."
  },
  {
   "property": "C50",
   "status": "partial",
   "theorems": [
    "C50_chart",
    "C50_vertical_refuted",
    "C50_horizontal_refuted",
    "C50_outside",
    "C50_correlations",
    "C50_hot_surface",
    "C50_cold_surface_refuted",
    "C50_no_temperature",
    "C50_shipped_gases"
   ],
   "note": "Proved for every angle between -90 and 90 degrees and hot surfaces, except the two gaps in the table (theta = 0 with Ra = 11; theta = 88 with Ra < 6) and cold surfaces, which never get a real number; each exception is a _refuted theorem. The limits of the table are compared with Ra itself, not with its exponent; the chart of the specification says so."
  },
  {
   "property": "C51",
   "status": "partial",
   "theorems": [
    "C51_ratios",
    "C51_zero_denominator",
    "C51_units",
    "C51_units_transfer",
    "C51_gr_pr",
    "C51_Ra_refuted"
   ],
   "note": "Ra(...) always raises NameError (C51_Ra_refuted); the rest is proved."
  },
  {
   "property": "C52",
   "status": "proved",
   "theorems": [
    "C52_hagen_poiseuille",
    "C52_hydraulic_diameter",
    "C52_darcy_weisbach",
    "C52_smooth",
    "C52_smooth_defined",
    "C52_haaland"
   ],
   "note": ""
  },
  {
   "property": "C53",
   "status": "proved",
   "theorems": [
    "C53_structure_report_lists",
    "C53_structure_report_needs_numbers",
    "C53_default_number_refuted",
    "C53_structure_report_order",
    "C53_structure_report_fails"
   ],
   "note": ""
  },
  {
   "property": "C54",
   "status": "partial",
   "theorems": [
    "C54_sibling_prefix_refuted",
    "C54_component_partial",
    "C54_trailing_slash_partial"
   ],
   "note": "Refuted: any sibling whose name extends the name is selected too. Proved: exact when no source extends the path otherwise, and always exact for a path given with a trailing slash."
  },
  {
   "property": "C55",
   "status": "partial",
   "theorems": [
    "C55_changed_start_refuted",
    "C55_second_window_partial"
   ],
   "note": "Refuted: the start period found first is kept. Proved: the exact window of a second run after any change of start and end."
  },
  {
   "property": "C56",
   "status": "proved",
   "theorems": [
    "C56_elements",
    "C56_elements_defined",
    "C56_white_space_refuted"
   ],
   "note": "elements() does not strip white space, unlike the other functions (C56_white_space_refuted records it); the stated property is proved."
  },
  {
   "property": "C57",
   "status": "partial",
   "theorems": [
    "C57_zero_group_refuted",
    "C57_written_multipliers_partial"
   ],
   "note": "Refuted as stated: a group or hydrate multiplier written as 0 is read as 1 (C57_zero_group_refuted); the exact behaviour is proved (C57_written_multipliers_partial)."
  },
  {
   "property": "C58",
   "status": "proved",
   "theorems": [
    "C58_regular",
    "C58_reference_values",
    "C58_calculus",
    "C58_molar_masses",
    "C58_formulas",
    "C58_nist_refuted"
   ],
   "note": "About the default (rao) data set, embedded exactly by scripts/gen_data.py. Finding: the other shipped data set (nist) is not anchored at 298.15 K (C58_nist_refuted)."
  },
  {
   "property": "C59",
   "status": "proved",
   "theorems": [
    "C59_heat_capacity_positive",
    "C59_increasing",
    "C59_exceptions",
    "C59_monoclinic_sulphur_refuted",
    "C59_gray_tin_refuted"
   ],
   "note": "The two exceptions named in the property are shown to be real (_refuted theorems)."
  },
  {
   "property": "C60",
   "status": "proved",
   "theorems": [
    "C60_chem_file",
    "C60_psd_file",
    "C60_slurry_file",
    "C60_slurry_keywords",
    "C60_slurry_short",
    "C60_thermo_file",
    "C60_thermo_blank_property",
    "C60_columns",
    "C60_readable",
    "C60_empty_file",
    "C60_repeated_name_refuted"
   ],
   "note": "whole files of the chem, psd, slurry and thermo modules with distinct assay names are read column by column, with the element list and the custom properties; repeated assay names misassign columns and a blank line after the \"#\" of a thermo file raises IndexError (both outside the statement, proved beside it)"
  },
  {
   "property": "C61",
   "status": "partial",
   "theorems": [
    "C61_thermo_assay",
    "C61_thermo_empty",
    "C61_thermo_roundtrip",
    "C61_chem_assay",
    "C61_chem_fraction",
    "C61_chem_empty",
    "C61_chem_roundtrip",
    "C61_chem_clear_refuted",
    "C61_psd_assay",
    "C61_psd_fraction",
    "C61_psd_clear",
    "C61_psd_empty",
    "C61_slurry_assay",
    "C61_slurry_fraction",
    "C61_slurry_clear"
   ],
   "note": "chem, psd, slurry, thermo; chem clear() always raises (refuted)"
  },
  {
   "property": "C62",
   "status": "proved",
   "theorems": [
    "C62_amounts",
    "C62_assay",
    "C62_dictionary",
    "C62_create",
    "C62_create_succeeds",
    "C62_add",
    "C62_add_pair",
    "C62_add_triple",
    "C62_add_missing",
    "C62_scale",
    "C62_scale_negative",
    "C62_extract_mfr",
    "C62_extract_pair",
    "C62_extract_compound",
    "C62_too_much",
    "C62_extract_succeeds",
    "C62_elements",
    "C62_element",
    "C62_absent_refuted"
   ],
   "note": "extract(material) is in C63_extract_material (not coal). Finding: asking for a compound the material lacks returns an empty stream silently (C62_absent_refuted)."
  },
  {
   "property": "C63",
   "status": "partial",
   "theorems": [
    "C63_add",
    "C63_add_pair",
    "C63_add_triple",
    "C63_scale",
    "C63_set_T",
    "C63_set_Hfr",
    "C63_temperature",
    "C63_extract",
    "C63_extract_material",
    "C63_clear_refuted"
   ],
   "note": "Proved except clear(), which keeps the old enthalpy flow rate (C63_clear_refuted); setting Hfr under the hypotheses of C44."
  },
  {
   "property": "C64",
   "status": "partial",
   "theorems": [
    "C64_create",
    "C64_heating_value",
    "C64_set_T",
    "C64_scale",
    "C64_add",
    "C64_add_mixed",
    "C64_add_at_25",
    "C64_sensible_heat",
    "C64_temperature",
    "C64_no_HHV_refuted",
    "C64_extract_refuted",
    "C64_add_carbon_refuted"
   ],
   "note": "Proved for creation, T, Hfr, scaling and addition with a heating value; refuted for coal without heating value (not scale invariant), extract(flow rate) (result is not coal, enthalpy not conserved) and adding carbon ('COs' instead of 'CO2')."
  },
  {
   "property": "C65",
   "status": "proved",
   "theorems": [
    "C65_create",
    "C65_add",
    "C65_add_pair",
    "C65_set",
    "C65_extract"
   ],
   "note": ""
  },
  {
   "property": "C66",
   "status": "proved",
   "theorems": [
    "C66_alpha",
    "C66_nu",
    "C66_own_model",
    "C66_missing_model",
    "C66_missing_component"
   ],
   "note": ""
  },
  {
   "property": "C67",
   "status": "partial",
   "theorems": [
    "C67_files_positive",
    "C67_files_defined",
    "C67_gases_positive",
    "C67_gases_derived_positive",
    "C67_gases_increasing",
    "C67_water_beta_refuted"
   ],
   "note": "Proved for all gases and all files but water's expansion coefficient, which is negative near 0 degrees (C67_water_beta_refuted), as that of real water is."
  },
  {
   "property": "C68",
   "status": "proved",
   "theorems": [
    "C68_water_viscosities",
    "C68_ideal_gases",
    "C68_density_close_to_ideal"
   ],
   "note": ""
  },
  {
   "property": "C69",
   "status": "proved",
   "theorems": [
    "C69_unique_root",
    "C69_no_root",
    "C69_outside"
   ],
   "note": "The iterations of scipy.optimize.root are not modelled: the theorem is about the equation it is given."
  },
  {
   "property": "C70",
   "status": "partial",
   "theorems": [
    "C70_listing_read",
    "C70_anchored",
    "C70_repeated_number_raises",
    "C70_short_line",
    "C70_any_listing_refuted",
    "C70_formula_newline",
    "C70_compound",
    "C70_heat_capacity"
   ],
   "note": "Proved for every listing whose adjoining records have different numbers (the first not '0'); refuted without that condition: a phase whose first record has the number of the previous phase's last record makes the reader raise KeyError (C70_repeated_number_raises, C70_any_listing_refuted). A formula that ends the first line keeps its newline (C70_formula_newline)."
  },
  {
   "property": "C71",
   "status": "proved",
   "theorems": [
    "C71_rendered_says_the_table",
    "C71_round_trip",
    "C71_injective",
    "C71_reader_exact",
    "C71_carriage_return_refuted"
   ],
   "note": "For tables whose cells have no carriage return; C71_carriage_return_refuted shows the boundary (the writer quotes only its own terminator)."
  },
  {
   "property": "C72",
   "status": "proved",
   "theorems": [
    "C72_header",
    "C72_dictionaries",
    "C72_unknown_symbol",
    "C72_repeated_symbols_refuted",
    "C72_short_files_raise",
    "C72_template",
    "C72_template_data",
    "C72_template_name",
    "C72_case_collision_refuted"
   ],
   "note": "With distinct symbols; refuted beside it: repeated symbols keep the last column, material names differing in case share one template file. The numeric data below the header (pandas) are not modelled beyond C72_template_data."
  },
  {
   "property": "C73",
   "status": "proved",
   "theorems": [
    "C73_get_date_exact",
    "C73_other_texts_raise",
    "C73_unambiguous",
    "C73_iso_round_trip",
    "C73_values_kept"
   ],
   "note": "strptime('%Y-%m-%d') modelled as CPython's regular expression with backtracking; ascii texts."
  },
  {
   "property": "C74",
   "status": "partial",
   "theorems": [
    "C74_date_clock",
    "C74_short_periods_refuted",
    "C74_all_dates",
    "C74_mixed_raises",
    "C74_text_for_both_refuted",
    "C74_loan_text_refuted",
    "C74_loan_end",
    "C74_report_text_refuted"
   ],
   "note": "Proved when all are dates or all datetimes; mixtures raise TypeError and sub-day periods stand still with dates (refuted theorems)."
  },
  {
   "property": "C75",
   "status": "proved",
   "theorems": [
    "C75_amounts",
    "C75_printed_alike",
    "C75_whole_hundredths",
    "C75_transaction_table",
    "C75_date_cells",
    "C75_date_cells_read_back",
    "C75_time_cells",
    "C75_balance_table",
    "C75_balance_lines",
    "C75_income_table",
    "C75_transaction_csv",
    "C75_balance_csv",
    "C75_income_csv"
   ],
   "note": "Amounts are exact rationals (the float zero -0.0 does not exist); drawing by tabulate is not modelled."
  },
  {
   "property": "C76",
   "status": "partial",
   "theorems": [
    "C76_component_paths",
    "C76_after_renaming",
    "C76_entity_paths_refuted",
    "C76_entity_paths_partial"
   ],
   "note": "Components and activities: proved. Refuted for entities: create_entity does not pass on the model's name, so that the entities of a model that is not renamed later have paths without it (C76_entity_paths_refuted); exact rule proved."
  },
  {
   "property": "C77",
   "status": "partial",
   "theorems": [
    "C77_lookup",
    "C77_lookup_fails",
    "C77_remove",
    "C77_created",
    "C77_removed_partial",
    "C77_removed_refuted"
   ],
   "note": "Lookup and removal exact; 'removed is no longer found' for distinct names, refuted for equal names (the first is found, the last is removed)."
  },
  {
   "property": "C78",
   "status": "partial",
   "theorems": [
    "C78_as_created",
    "C78_basic_activity",
    "C78_repaid_partial",
    "C78_duration_ignored_refuted",
    "C78_duration_refuted"
   ],
   "note": "Proved for amount and rate; a changed duration affects neither the payment nor the end of the activity (refuted)."
  },
  {
   "property": "C79",
   "status": "partial",
   "theorems": [
    "C79_custom_properties_refuted",
    "C79_custom_properties_shared",
    "C79_custom_properties_fresh",
    "C79_chem_values",
    "C79_chem_operators",
    "C79_chem_others",
    "C79_psd_values",
    "C79_psd_operators",
    "C79_psd_others",
    "C79_slurry_values",
    "C79_slurry_operators",
    "C79_slurry_others",
    "C79_stream_values",
    "C79_stream_operators",
    "C79_stream_others",
    "C79_thermo_values",
    "C79_thermo_operators",
    "C79_thermo_others"
   ],
   "note": "Proved for masses, flow rates, T, P, H, HHV of all five classes over all programs. Refuted for custom_properties: clone (and + with an amount of a compound or with another material) shares the dictionary with the original; product and same-material sum drop the properties."
  },
  {
   "property": "C80",
   "status": "proved",
   "theorems": [
    "C80_balance_sheet_rounding",
    "C80_income_statement_rounding",
    "C80_transaction_list_rounding",
    "C80_rounding_is_small",
    "C80_every_float_is_exact_somewhere",
    "C80_totals_balance_refuted"
   ],
   "note": "Flocq's binary64, round to nearest even. The _refuted theorem is the last sentence: 0.1, 0.2 and 0.3 borrowed give 0.6000000000000001 of assets and 0.6 of liabilities."
  },
  {
   "property": "C81",
   "status": "proved",
   "theorems": [
    "C81_balance_sheet_exact",
    "C81_income_statement_exact",
    "C81_transaction_list_exact",
    "C81_whole_amounts_balance"
   ],
   "note": "Includes that no figure overflows."
  },
  {
   "property": "C82",
   "status": "proved",
   "theorems": [
    "C82_extract_splits",
    "C82_extract_amount",
    "C82_extract_guard",
    "C82_extract_everything",
    "C82_chem_extract",
    "C82_take_one",
    "C82_mix_mass",
    "C82_mix_entry",
    "C82_create_amount",
    "C82_assay_sums_to_one",
    "C82_python_sum",
    "C82_exact_conservation_refuted"
   ],
   "note": "Total of an array: any order of additions (inductive relation adds), so both Python's sum and numpy's pairwise sum. Underflow is included in the bounds (tiny). Exact conservation is refuted separately."
  },
  {
   "property": "C83",
   "status": "proved",
   "theorems": [
    "C83_transactions",
    "C83_outstanding",
    "C83_ledger_agrees",
    "C83_ledger_exact_refuted"
   ],
   "note": "Proved with explicit bounds; the ledger's balance and the outstanding amount are not exactly equal (C83_ledger_exact_refuted, as floats must be expected to behave). The periods in which the activity is due are those of the exact model (C25, C26)."
  },
  {
   "property": "C84",
   "status": "proved",
   "theorems": [
    "C84_payment",
    "C84_annuity_repays",
    "C84_repaid",
    "C84_schedule_in_range",
    "C84_zero_rate",
    "C84_changed_terms",
    "C84_accurate_pow_exists",
    "C84_exactly_repaid_refuted"
   ],
   "note": "Proved for every power function accurate to one ulp (a hypothesis of the theorems; C84_accurate_pow_exists shows that the correctly rounded one is), because Python's pow is the C library's. Exact repayment is refuted (C84_exactly_repaid_refuted)."
  },
  {
   "property": "C85",
   "status": "proved",
   "theorems": [
    "C85_add",
    "C85_sub",
    "C85_neg",
    "C85_mul",
    "C85_div",
    "C85_less",
    "C85_equal",
    "C85_compare",
    "C85_negative_zero_refuted",
    "C85_nan_total_not_refused",
    "C85_empty_total"
   ],
   "note": "Ties the exact model with special values (M_Float) to binary64 (Flocq) operation by operation; the case of a negative zero divisor is excluded and refuted (C85_negative_zero_refuted)."
  },
  {
   "property": "C86",
   "status": "partial",
   "theorems": [
    "C86_balance_sheet",
    "C86_income_statement",
    "C86_transaction_list",
    "C86_transaction_list_mixed",
    "C86_year_end",
    "C86_year_end_causes",
    "C86_unknown_account_closed_refuted"
   ],
   "note": "The year-end closing does not notice every unknown account (refuted); the order in which two causes of a failed closing take effect is given only for a faulty posting after a prefix that closes."
  },
  {
   "property": "C87",
   "status": "partial",
   "theorems": [
    "C87_psd_extract",
    "C87_psd_add",
    "C87_psd_scale",
    "C87_psd_create",
    "C87_slurry_extract",
    "C87_slurry_add",
    "C87_slurry_scale",
    "C87_slurry_create",
    "C87_chem_extract",
    "C87_chem_add",
    "C87_chem_scale",
    "C87_chem_create",
    "C87_thermo_extract",
    "C87_thermo_add",
    "C87_thermo_scale",
    "C87_thermo_create",
    "C87_thermo_added_assay_refuted"
   ],
   "note": "chem, psd, slurry and thermo. For thermo addition the failure of the temperature search is excluded; creation from an assay added by the program is refuted."
  },
  {
   "property": "C88",
   "status": "partial",
   "theorems": [
    "C88_object_reads_back",
    "C88_text_is_the_data",
    "C88_cut_off",
    "C88_compound_reads_back",
    "C88_directory",
    "C88_phase_refuted",
    "C88_printable_text",
    "C88_escapes",
    "C88_other_files",
    "C88_no_compound"
   ],
   "note": "Refuted for classes that override __str__ (Phase, CpRecord, packages): the text written cannot be read. Shared sub-objects (py/id references) and characters above 255 are not modelled; float printing is any printer whose output reads back."
  },
  {
   "property": "C89",
   "status": "proved",
   "theorems": [
    "C89_counts_exact",
    "C89_molar_mass",
    "C89_amount",
    "C89_mass",
    "C89_element_fraction",
    "C89_element_fractions_sum",
    "C89_convert",
    "C89_convert_absent",
    "C89_amount_fractions",
    "C89_mass_fractions",
    "C89_overflow",
    "C89_no_atoms",
    "C89_all_zero",
    "C89_within_is_close",
    "C89_counts_above_2_53_refuted",
    "C89_round_trip_exact_refuted"
   ],
   "note": "Counts are exact up to 2^53 only (C89_counts_above_2_53_refuted) and the round trip is not exact (C89_round_trip_exact_refuted), as floats must be expected to behave."
  },
  {
   "property": "C90",
   "status": "partial",
   "theorems": [
    "C90_chem_material",
    "C90_psd_material",
    "C90_chem_reads_back",
    "C90_psd_reads_back",
    "C90_slurry_material",
    "C90_slurry_reads_back_refuted",
    "C90_wide_number_refuted",
    "C90_chem_package",
    "C90_chem_package_tells",
    "C90_psd_package",
    "C90_psd_package_tells",
    "C90_slurry_package",
    "C90_slurry_package_tells",
    "C90_long_names_refuted",
    "C90_nine_digits",
    "C90_thermo_package",
    "C90_thermo_stream",
    "C90_thermo_package_tells",
    "C90_thermo_material",
    "C90_added_assay_refuted",
    "C90_coal_stream_refuted",
    "C90_cut_names_refuted"
   ],
   "note": "Proved for names and numbers that fit their columns. The program violates the rest: columns are never cut nor separated, so names or numbers of 20 characters run together (C90_wide_number_refuted, C90_long_names_refuted); a slurry material's text cannot be read back (C90_slurry_reads_back_refuted); a thermo material with custom properties cannot be printed after add_assay (C90_added_assay_refuted: KeyError); a coal stream without a heating value cannot be printed (C90_coal_stream_refuted: TypeError); assay names are cut to 15 characters (C90_cut_names_refuted)."
  },
  {
   "property": "C91",
   "status": "proved",
   "theorems": [
    "C91_outcome",
    "C91_retry",
    "C91_history",
    "C91_horizon",
    "C91_where",
    "C91_books",
    "C91_causes",
    "C91_restored_refuted"
   ],
   "note": "Changes of an activity's window, of the clock's start or of the number of periods are not part of the histories (they are not taken up by a later run, C55). An activity belongs to one component. C91_restored_refuted shows that a failing run deletes the books of the run before it."
  },
  {
   "property": "C92",
   "status": "proved",
   "theorems": [
    "C92_listing",
    "C92_tells",
    "C92_order",
    "C92_nothing",
    "C92_accepted",
    "C92_shipped",
    "C92_shipped_nist",
    "C92_replaces",
    "C92_no_directory",
    "C92_loaded_files",
    "C92_failed_load",
    "C92_auxi",
    "C92_reference"
   ],
   "note": "C92_accepted needs names without comma, colon, line end and brackets, and phases whose records are contiguous from 298.15 K without magnetic data (true of the default data, C92_shipped). glob's treatment of special characters in the path is not modelled; the order in which glob gives the files is an argument."
  },
  {
   "property": "C93",
   "status": "proved",
   "theorems": [
    "C93_fails_alike",
    "C93_returned",
    "C93_same_text",
    "C93_files",
    "C93_no_pictures",
    "C93_csv",
    "C93_balance_csv",
    "C93_income_csv"
   ],
   "note": "How the table is drawn as text and as LaTeX is an argument of the theorems (C94 is about the former). Failures of the file system are not modelled."
  },
  {
   "property": "C94",
   "status": "partial",
   "theorems": [
    "C94_aligned",
    "C94_numbers",
    "C94_one_reading",
    "C94_columns",
    "C94_balance_sheet",
    "C94_income_statement",
    "C94_transaction_list_partial",
    "C94_transactions_tell_partial",
    "C94_large_amounts_refuted"
   ],
   "note": "Holds for the balance sheet and the income statement and for all but the amounts of the transaction list. The Amount column has nothing but numbers, so tabulate reads them back and draws them with six significant digits: amounts below 10000 are shown exactly, larger ones are not, and sales of 1234567.00 and 1234568.00 are drawn alike (C94_large_amounts_refuted). tabulate 0.7 is transcribed from its documentation and behaviour, as its source is not in /repo. C94_aligned and C94_numbers are stated for any reading of numbers that also takes every numeral (reads_numerals); the example builds one."
  },
  {
   "property": "C95",
   "status": "proved",
   "theorems": [
    "C95_describes",
    "C95_failures",
    "C95_range",
    "C95_least_squares",
    "C95_reproduces",
    "C95_residuals",
    "C95_rows_and_units",
    "C95_higher_degree",
    "C95_few_temperatures_refuted",
    "C95_plot",
    "C95_plot_refuted"
   ],
   "note": "np.polyfit's solution of the linear least squares problem is an argument of the model; the theorems assume what numpy documents of it, for the data at hand. The numbers pandas reads are given. C95_few_temperatures_refuted: with too few temperatures the law between them is not determined; C95_plot_refuted: models made without create, and data outside the range, cannot be plotted."
  },
  {
   "property": "C96",
   "status": "partial",
   "theorems": [
    "C96_run",
    "C96_paths",
    "C96_structures",
    "C96_shared_source_refuted",
    "C96_shared_loan_refuted"
   ],
   "note": "The program violates two parts: C96_shared_loan_refuted (a loan in two places keeps one balance, so the second place pays back a loan it never received) and C96_shared_source_refuted (the source of the transactions is the path of the component to which the activity was added last). Proved: run equivalence whenever no loan is in two places, structures, and paths when nothing is added twice."
  },
  {
   "property": "C97",
   "status": "partial",
   "theorems": [
    "C97_created",
    "C97_materials",
    "C97_names_refuted",
    "C97_made_is_loaded",
    "C97_made_is_loaded_refuted",
    "C97_ideal_plot",
    "C97_mixture_plot_partial",
    "C97_mixture_plot_refuted",
    "C97_no_plot_refuted"
   ],
   "note": "The program violates the rest: every gas is called after the file of its last property (C97_names_refuted); models of water, and models of data sets with a dot or an upper case letter in their name, are written to another file than is loaded (C97_made_is_loaded_refuted); the line of a second data set in a mixture drawing begins at the lowest temperature of the first and ends at 1000 K whatever was measured (C97_mixture_plot_refuted), so that ammonia cannot be drawn at all (C97_no_plot_refuted)."
  },
  {
   "property": "C98",
   "status": "partial",
   "theorems": [
    "C98_measurements",
    "C98_range",
    "C98_between_partial",
    "C98_fluids",
    "C98_between_refuted"
   ],
   "note": "The data violate one part for four files (C98_between_refuted): the density models of air (2015, 2018), nitrogen and oxygen swing away between the measurements (nitrogen by 40 % at 1541 K). Proved for the other 38 files, among them all that a shipped fluid uses (C98_fluids)."
  },
  {
   "property": "C99",
   "status": "partial",
   "theorems": [
    "C99_one_reading",
    "C99_table",
    "C99_balance_sheet",
    "C99_income_statement",
    "C99_transaction_list_partial",
    "C99_same_as_plain"
   ],
   "note": "Holds for the balance sheet and the income statement and for all but the amounts of the transaction list, which are shown to six digits (C94). tabulate 0.7 is transcribed from its documentation and behaviour, as its source is not in /repo. A table without rows is outside (no report makes one)."
  },
  {
   "property": "C100",
   "status": "proved",
   "theorems": [
    "C100_table",
    "C100_fails",
    "C100_where",
    "C100_csv",
    "C100_drawn",
    "C100_same_drawing",
    "C100_numbers_changed_refuted"
   ],
   "note": "Texts without white space other than blanks (drawings), without carriage returns (csv). C100_numbers_changed_refuted: with 1.50 as the only description the drawing shows 1.5. tabulate 0.7 is transcribed from its documentation and behaviour, as its source is not in /repo."
  },
  {
   "property": "C101",
   "status": "partial",
   "theorems": [
    "C101_polynomial_error",
    "C101_polynomial_finite",
    "C101_polynomial_at_zero",
    "C101_accepts",
    "C101_shipped",
    "C101_water_beta",
    "C101_ideal_rho_T",
    "C101_ideal_rho_TP",
    "C101_ideal_beta",
    "C101_ideal_rho_TPx",
    "C101_negative_refused",
    "C101_zero_refused_as_invalid_refuted",
    "C101_limits_refuse_nan_refuted",
    "C101_refuses_other_states"
   ],
   "note": "Masses, pressures and temperatures of the ideal gas theorems lie between 2^-200 and 2^200, mole fractions are 0 or between 2^-400 and 2^400. The program refuses neither absolute zero with a ValidationError (C101_zero_refused_as_invalid_refuted: ZeroDivisionError) nor a nan (C101_limits_refuse_nan_refuted: the models answer nan)."
  },
  {
   "property": "C102",
   "status": "partial",
   "theorems": [
    "C102_quotients",
    "C102_ratios",
    "C102_zero_denominator",
    "C102_grashof",
    "C102_grashof_cold",
    "C102_pressure_drop",
    "C102_smooth_turbulent",
    "C102_smooth_refused",
    "C102_rough_warnings",
    "C102_no_warnings",
    "C102_rough_refused",
    "C102_rough_turbulent",
    "C102_region",
    "C102_region_chart",
    "C102_region_special",
    "C102_correlations",
    "C102_hot_surface",
    "C102_any_rayleigh",
    "C102_boundary_refuted",
    "C102_colebrook",
    "C102_colebrook_sign",
    "C102_colebrook_refused",
    "C102_accurate_power_exists",
    "C102_accurate_log_exists"
   ],
   "note": "Lengths, gravity, expansion and conductivity lie between 2^-60 and 2^60, viscosity and diffusivity between 2^-30 and 2^30 (2^-100 to 2^100 for pressure drops). The gravity is an argument: the cosine for inclined surfaces is not modelled, nor is scipy's root search for the Colebrook equation. Haaland's formula squares a negative number: the power function must give the square of the positive one (a correctly rounded one does). Near a limit of a region the rounded Rayleigh number can choose another correlation than the exact one (C102_boundary_refuted); C102_any_rayleigh says which formula the result is near to then."
  }
 ]
}