{
 "claims": [
  {
   "property": "C01",
   "status": "proved",
   "theorems": [
    "C01_kfold_tests_partition",
    "C01_look_forward_drops_first"
   ],
   "note": ""
  },
  {
   "property": "C02",
   "status": "proved",
   "theorems": [
    "C02_kfold_no_group_leak"
   ],
   "note": ""
  },
  {
   "property": "C03",
   "status": "proved",
   "theorems": [
    "C03_kfold_train_exact"
   ],
   "note": ""
  },
  {
   "property": "C04",
   "status": "proved",
   "theorems": [
    "C04_kfold_number_of_splits"
   ],
   "note": ""
  },
  {
   "property": "C05",
   "status": "proved",
   "theorems": [
    "C05_group_filling_a_fold_fails",
    "C05_kfold_enough_groups_suffice_refuted",
    "C05_kfold_nonempty_tests_refuted",
    "C05_numpy_error_class",
    "C05_timestamps_empty_test"
   ],
   "note": ""
  },
  {
   "property": "C06",
   "status": "proved",
   "theorems": [
    "C06_kfold_default_groups",
    "C06_validated_settings_suffice_refuted"
   ],
   "note": ""
  },
  {
   "property": "C07",
   "status": "proved",
   "theorems": [
    "C07_purge_exact",
    "C07_embargo_exact",
    "C07_bad_input_rejected"
   ],
   "note": ""
  },
  {
   "property": "C08",
   "status": "proved",
   "theorems": [
    "C08_kfold_constructor",
    "C08_kfold_constructor_errors",
    "C08_walk_forward_constructor"
   ],
   "note": ""
  },
  {
   "property": "C09",
   "status": "proved",
   "theorems": [
    "C09_walk_forward_exact_windows"
   ],
   "note": ""
  },
  {
   "property": "C10",
   "status": "proved",
   "theorems": [
    "C10_walk_forward_train_before_test"
   ],
   "note": ""
  },
  {
   "property": "C11",
   "status": "proved",
   "theorems": [
    "C11_walk_forward_tests_cover"
   ],
   "note": ""
  },
  {
   "property": "C12",
   "status": "proved",
   "theorems": [
    "C12_walk_forward_disjoint_refuted",
    "C12_integer_gap_refuted",
    "C12_first_pair_overlaps_iff"
   ],
   "note": ""
  },
  {
   "property": "C13",
   "status": "proved",
   "theorems": [
    "C13_get_n_splits_accumulates",
    "C13_repeated_runs",
    "C13_get_n_splits_is_last_run_refuted"
   ],
   "note": ""
  },
  {
   "property": "C14",
   "status": "proved",
   "theorems": [
    "C14_walk_forward_terminates",
    "C14_default_test_window_diverges"
   ],
   "note": ""
  },
  {
   "property": "C15",
   "status": "proved",
   "theorems": [
    "C15_default_train_window_leaks"
   ],
   "note": ""
  },
  {
   "property": "C16",
   "status": "proved",
   "theorems": [
    "C16_bad_arguments_yield_nothing"
   ],
   "note": ""
  },
  {
   "property": "C17",
   "status": "proved",
   "theorems": [
    "C17_walk_forward_series_groups_fail"
   ],
   "note": ""
  },
  {
   "property": "C18",
   "status": "proved",
   "theorems": [
    "C18_bm_layout",
    "C18_gbm_layout",
    "C18_ou_layout",
    "C18_default_names_distinct"
   ],
   "note": ""
  },
  {
   "property": "C19",
   "status": "proved",
   "theorems": [
    "C19_bm_starts_at_x0",
    "C19_ou_starts_at_x0",
    "C19_gbm_starts_at_positive_x0",
    "C19_x0_length_rejected"
   ],
   "note": ""
  },
  {
   "property": "C20",
   "status": "proved",
   "theorems": [
    "C20_bm_increments"
   ],
   "note": ""
  },
  {
   "property": "C21",
   "status": "proved",
   "theorems": [
    "C21_gbm_paths"
   ],
   "note": ""
  },
  {
   "property": "C22",
   "status": "proved",
   "theorems": [
    "C22_ou_exact_step",
    "C22_ou_two_steps",
    "C22_ou_zero_mrr_is_nan"
   ],
   "note": ""
  },
  {
   "property": "C23",
   "status": "proved",
   "theorems": [
    "C23_bm_prefix",
    "C23_gbm_prefix",
    "C23_ou_prefix"
   ],
   "note": ""
  },
  {
   "property": "C24",
   "status": "proved",
   "theorems": [
    "C24_bm_fit_of_own_path",
    "C24_bm_fit_recovers_parameters"
   ],
   "note": ""
  },
  {
   "property": "C25",
   "status": "proved",
   "theorems": [
    "C25_gbm_fit_of_own_path",
    "C25_gbm_fit_inverts_refuted"
   ],
   "note": ""
  },
  {
   "property": "C26",
   "status": "proved",
   "theorems": [
    "C26_bm_nll",
    "C26_ou_nll",
    "C26_gbm_nll",
    "C26_gbm_nll_agrees_iff"
   ],
   "note": ""
  },
  {
   "property": "C27",
   "status": "proved",
   "theorems": [
    "C27_ou_fit_least_squares",
    "C27_ou_fit_noise_free",
    "C27_ou_fit_last_column",
    "C27_ou_path_after_fit_fails",
    "C27_ou_default_path_after_fit_fails"
   ],
   "note": ""
  },
  {
   "property": "C28",
   "status": "proved",
   "theorems": [
    "C28_ou_multivariate_paths_rejected"
   ],
   "note": ""
  },
  {
   "property": "C29",
   "status": "proved",
   "theorems": [
    "C29_scoring_replaces_fit",
    "C29_scoring_forgets"
   ],
   "note": ""
  },
  {
   "property": "C30",
   "status": "proved",
   "theorems": [
    "C30_bm_aic_bic",
    "C30_ou_aic_bic",
    "C30_aic_textbook_iff"
   ],
   "note": ""
  },
  {
   "property": "C31",
   "status": "proved",
   "theorems": [
    "C31_class_defaults",
    "C31_unusable",
    "C31_unfitted_defaults",
    "C31_other_strings",
    "C31_fitted_x0",
    "C31_fitted_dt",
    "C31_dt_positive",
    "C31_bad_dt_assertion"
   ],
   "note": ""
  },
  {
   "property": "C32",
   "status": "proved",
   "theorems": [
    "C32_container",
    "C32_names_without_index",
    "C32_columns_argument_fails",
    "C32_include_x0"
   ],
   "note": ""
  },
  {
   "property": "C33",
   "status": "proved",
   "theorems": [
    "C33_increment_covariance"
   ],
   "note": ""
  },
  {
   "property": "C34",
   "status": "proved",
   "theorems": [
    "C34_forms",
    "C34_cor_from_upper",
    "C34_other_lengths_rejected"
   ],
   "note": ""
  },
  {
   "property": "C35",
   "status": "proved",
   "theorems": [
    "C35_quasi_path",
    "C35_constant_signal_nan",
    "C35_short_paths_nan",
    "C35_shared_vol_rejected"
   ],
   "note": ""
  },
  {
   "property": "C36",
   "status": "proved",
   "theorems": [
    "C36_dates",
    "C36_durations",
    "C36_codes",
    "C36_calendar_sound",
    "C36_step_sound",
    "C36_steps_of_index",
    "C36_too_short"
   ],
   "note": ""
  },
  {
   "property": "C37",
   "status": "proved",
   "theorems": [
    "C37_three_stamps_daily"
   ],
   "note": ""
  },
  {
   "property": "C38",
   "status": "proved",
   "theorems": [
    "C38_by_name",
    "C38_accepts_exactly",
    "C38_matrix",
    "C38_scalar",
    "C38_monotone",
    "C38_frames_not_checked",
    "C38_corr_to_dist"
   ],
   "note": ""
  },
  {
   "property": "C39",
   "status": "proved",
   "theorems": [
    "C39_by_name",
    "C39_triangle"
   ],
   "note": ""
  },
  {
   "property": "C40",
   "status": "proved",
   "theorems": [
    "C40_by_name",
    "C40_affine_invariance",
    "C40_angular_reflection",
    "C40_symmetric_and_zero",
    "C40_degenerate"
   ],
   "note": ""
  },
  {
   "property": "C41",
   "status": "proved",
   "theorems": [
    "C41_distance",
    "C41_triangle",
    "C41_normalised",
    "C41_normalised_triangle"
   ],
   "note": ""
  },
  {
   "property": "C42",
   "status": "proved",
   "theorems": [
    "C42_bounds",
    "C42_normalised"
   ],
   "note": ""
  },
  {
   "property": "C43",
   "status": "proved",
   "theorems": [
    "C43_formula",
    "C43_self_zero",
    "C43_blind",
    "C43_nonneg_when_covered",
    "C43_nonneg_refuted"
   ],
   "note": ""
  },
  {
   "property": "C44",
   "status": "proved",
   "theorems": [
    "C44_positive",
    "C44_default_bins",
    "C44_defaults_finite"
   ],
   "note": ""
  },
  {
   "property": "C45",
   "status": "proved",
   "theorems": [
    "C45_matrix",
    "C45_rejects",
    "C45_var_info_metric"
   ],
   "note": ""
  },
  {
   "property": "C46",
   "status": "proved",
   "theorems": [
    "C46_log_det_nonneg",
    "C46_log_det_self",
    "C46_nonneg_needs_symmetry",
    "C46_von_neumann_self",
    "C46_von_neumann_nonneg",
    "C46_rejects"
   ],
   "note": ""
  },
  {
   "property": "C47",
   "status": "proved",
   "theorems": [
    "C47_entries_bounded",
    "C47_round_trip",
    "C47_covariance",
    "C47_local",
    "C47_rejects"
   ],
   "note": ""
  },
  {
   "property": "C48",
   "status": "proved",
   "theorems": [
    "C48_block_diagonal",
    "C48_valid_iff"
   ],
   "note": ""
  },
  {
   "property": "C49",
   "status": "proved",
   "theorems": [
    "C49_given_k",
    "C49_overwrites",
    "C49_overwrites_sum",
    "C49_automatic_k"
   ],
   "note": ""
  },
  {
   "property": "C50",
   "status": "proved",
   "theorems": [
    "C50_fit_empty",
    "C50_support",
    "C50_density",
    "C50_scaling",
    "C50_fit",
    "C50_fit_total"
   ],
   "note": ""
  },
  {
   "property": "C51",
   "status": "proved",
   "theorems": [
    "C51_eig_to_cor",
    "C51_cor_to_eig",
    "C51_round_trip",
    "C51_complete"
   ],
   "note": ""
  },
  {
   "property": "C52",
   "status": "proved",
   "theorems": [
    "C52_variances",
    "C52_valid",
    "C52_rejects"
   ],
   "note": ""
  },
  {
   "property": "C53",
   "status": "proved",
   "theorems": [
    "C53_indicators",
    "C53_bands",
    "C53_rolling_mom_refuted",
    "C53_micro",
    "C53_cusum"
   ],
   "note": ""
  },
  {
   "property": "C54",
   "status": "proved",
   "theorems": [
    "C54_numpy_pandas",
    "C54_mixtures"
   ],
   "note": ""
  },
  {
   "property": "C55",
   "status": "proved",
   "theorems": [
    "C55_rolling",
    "C55_bad_windows"
   ],
   "note": ""
  },
  {
   "property": "C56",
   "status": "proved",
   "theorems": [
    "C56_weighted_mean",
    "C56_span_below_one",
    "C56_bounds",
    "C56_constant",
    "C56_affine"
   ],
   "note": ""
  },
  {
   "property": "C57",
   "status": "proved",
   "theorems": [
    "C57_ordering",
    "C57_percent_b_ends",
    "C57_donchian"
   ],
   "note": ""
  },
  {
   "property": "C58",
   "status": "proved",
   "theorems": [
    "C58_range",
    "C58_negation",
    "C58_invariance",
    "C58_value"
   ],
   "note": ""
  },
  {
   "property": "C59",
   "status": "proved",
   "theorems": [
    "C59_difference",
    "C59_constant",
    "C59_equal_spans",
    "C59_antisymmetric",
    "C59_affine",
    "C59_signal_is_histogram",
    "C59_signal_line_refuted"
   ],
   "note": ""
  },
  {
   "property": "C60",
   "status": "proved",
   "theorems": [
    "C60_true_range",
    "C60_first_bar",
    "C60_average",
    "C60_nonnegative",
    "C60_bad_windows"
   ],
   "note": ""
  },
  {
   "property": "C61",
   "status": "proved",
   "theorems": [
    "C61_all_inputs",
    "C61_rogers_satchell",
    "C61_garman_klass",
    "C61_yang_zhang",
    "C61_becker_parkinson"
   ],
   "note": ""
  },
  {
   "property": "C62",
   "status": "proved",
   "theorems": [
    "C62_volatility",
    "C62_spread",
    "C62_impact"
   ],
   "note": ""
  },
  {
   "property": "C63",
   "status": "proved",
   "theorems": [
    "C63_range",
    "C63_value",
    "C63_published_refuted",
    "C63_wrong_direction"
   ],
   "note": ""
  },
  {
   "property": "C64",
   "status": "proved",
   "theorems": [
    "C64_value",
    "C64_sign",
    "C64_nonnegative",
    "C64_no_movement"
   ],
   "note": ""
  },
  {
   "property": "C65",
   "status": "proved",
   "theorems": [
    "C65_bulk_volume",
    "C65_bulk_value",
    "C65_vpin"
   ],
   "note": ""
  },
  {
   "property": "C66",
   "status": "proved",
   "theorems": [
    "C66_kyle",
    "C66_hasbrouck",
    "C66_amihud"
   ],
   "note": ""
  },
  {
   "property": "C67",
   "status": "proved",
   "theorems": [
    "C67_roll_measure",
    "C67_roll_impact"
   ],
   "note": ""
  },
  {
   "property": "C68",
   "status": "proved",
   "theorems": [
    "C68_value",
    "C68_no_movement",
    "C68_shape",
    "C68_bound",
    "C68_no_early_break",
    "C68_unit",
    "C68_first_return"
   ],
   "note": ""
  },
  {
   "property": "C69",
   "status": "proved",
   "theorems": [
    "C69_value",
    "C69_partition_only",
    "C69_global_state",
    "C69_overwrites_state",
    "C69_scale",
    "C69_scale_diagonal_refuted",
    "C69_ratio",
    "C69_published_equal_sizes",
    "C69_published_refuted",
    "C69_errors"
   ],
   "note": ""
  },
  {
   "property": "C70",
   "status": "proved",
   "theorems": [
    "C70_gap",
    "C70_gap_range",
    "C70_gap_raises",
    "C70_published_selects_no_more",
    "C70_silhouette",
    "C70_silhouette_nan_wins",
    "C70_errors"
   ],
   "note": ""
  },
  {
   "property": "C71",
   "status": "proved",
   "theorems": [
    "C71_source",
    "C71_optimum_state_free",
    "C71_linkage_fixed",
    "C71_history_free",
    "C71_follows_attributes_refuted"
   ],
   "note": ""
  },
  {
   "property": "C72",
   "status": "proved",
   "theorems": [
    "C72_unknown_keyword",
    "C72_one_dimensional",
    "C72_two_dimensional",
    "C72_unmatched",
    "C72_both"
   ],
   "note": ""
  },
  {
   "property": "C73",
   "status": "proved",
   "theorems": [
    "C73_user_removes",
    "C73_user_adds",
    "C73_user_level",
    "C73_state",
    "C73_messages_once",
    "C73_unwritable_file",
    "C73_import_of_distance",
    "C73_import_of_distance_refuted",
    "C73_imported_before"
   ],
   "note": ""
  },
  {
   "property": "C74",
   "status": "proved",
   "theorems": [
    "C74_treasury",
    "C74_one_name",
    "C74_no_merge",
    "C74_files"
   ],
   "note": ""
  },
  {
   "property": "C75",
   "status": "proved",
   "theorems": [
    "C75_failed_fit_half_changes",
    "C75_failed_bm_fit_mixes"
   ],
   "note": ""
  },
  {
   "property": "C76",
   "status": "proved",
   "theorems": [
    "C76_quasi_fit_fails",
    "C76_quasi_fit_moves_start"
   ],
   "note": ""
  },
  {
   "property": "C77",
   "status": "proved",
   "theorems": [
    "C77_quasi_prefix_refuted"
   ],
   "note": ""
  },
  {
   "property": "C78",
   "status": "proved",
   "theorems": [
    "C78_daily_range",
    "C78_weekly_range",
    "C78_business_range",
    "C78_docstring_example_refuted",
    "C78_month_end_range",
    "C78_month_start_range",
    "C78_quarter_and_year_ranges",
    "C78_last_day_ticks"
   ],
   "note": ""
  },
  {
   "property": "C79",
   "status": "proved",
   "theorems": [
    "C79_matrix_of_pair_distances",
    "C79_constant_column"
   ],
   "note": ""
  },
  {
   "property": "C80",
   "status": "proved",
   "theorems": [
    "C80_entropies_are_shannon",
    "C80_measures",
    "C80_accepts_exactly",
    "C80_unit_free",
    "C80_order_free"
   ],
   "note": ""
  },
  {
   "property": "C81",
   "status": "proved",
   "theorems": [
    "C81_random_cov",
    "C81_random_cor"
   ],
   "note": ""
  },
  {
   "property": "C82",
   "status": "proved",
   "theorems": [
    "C82_weighted_std"
   ],
   "note": ""
  },
  {
   "property": "C83",
   "status": "proved",
   "theorems": [
    "C83_range_estimators",
    "C83_yang_zhang",
    "C83_yang_zhang_window_one",
    "C83_yang_zhang_published_refuted",
    "C83_close_close",
    "C83_becker_parkinson",
    "C83_variance_units"
   ],
   "note": ""
  },
  {
   "property": "C84",
   "status": "proved",
   "theorems": [
    "C84_value",
    "C84_range",
    "C84_partition_only",
    "C84_scale",
    "C84_errors"
   ],
   "note": ""
  },
  {
   "property": "C85",
   "status": "proved",
   "theorems": [
    "C85_declared_vectors",
    "C85_declared_tables",
    "C85_declared_series",
    "C85_group_datetime_index_refuted",
    "C85_array",
    "C85_array_unreadable",
    "C85_frame",
    "C85_frame_wildcard_refuted",
    "C85_frame_dtype_ignored",
    "C85_frame_other_shapes",
    "C85_series"
   ],
   "note": ""
  },
  {
   "property": "C86",
   "status": "proved",
   "theorems": [
    "C86_fold_assignment"
   ],
   "note": ""
  },
  {
   "property": "C87",
   "status": "proved",
   "theorems": [
    "C87_settings_refused",
    "C87_outcome"
   ],
   "note": ""
  },
  {
   "property": "C88",
   "status": "proved",
   "theorems": [
    "C88_integer_series",
    "C88_timestamp_series"
   ],
   "note": ""
  },
  {
   "property": "C89",
   "status": "proved",
   "theorems": [
    "C89_every_pair",
    "C89_windows_advance",
    "C89_too_short",
    "C89_first_pair",
    "C89_tested_once_refuted",
    "C89_every_later_sample_tested_refuted",
    "C89_completes_after_first_pair_refuted"
   ],
   "note": ""
  },
  {
   "property": "C90",
   "status": "proved",
   "theorems": [
    "C90_windows_repeat",
    "C90_no_leak",
    "C90_tested_once"
   ],
   "note": ""
  },
  {
   "property": "C91",
   "status": "proved",
   "theorems": [
    "C91_what_the_bands_show",
    "C91_bollinger",
    "C91_bad_windows",
    "C91_moves_with_the_prices"
   ],
   "note": ""
  },
  {
   "property": "C92",
   "status": "proved",
   "theorems": [
    "C92_rolling",
    "C92_mean_of_changes",
    "C92_zero_and_negative",
    "C92_ewm",
    "C92_bad_span",
    "C92_straight_line"
   ],
   "note": ""
  },
  {
   "property": "C93",
   "status": "proved",
   "theorems": [
    "C93_transformer",
    "C93_identity_transformer",
    "C93_rejections",
    "C93_missing_observations",
    "C93_triangle_with_gaps_refuted"
   ],
   "note": ""
  },
  {
   "property": "C94",
   "status": "proved",
   "theorems": [
    "C94_rank_correlation",
    "C94_order_only",
    "C94_extremes"
   ],
   "note": ""
  },
  {
   "property": "C95",
   "status": "proved",
   "theorems": [
    "C95_wrong_size_ou",
    "C95_accepted_correlations",
    "C95_not_square",
    "C95_missing_correlation",
    "C95_bm_covariance",
    "C95_gbm_covariance",
    "C95_ou_covariance",
    "C95_lower_triangle",
    "C95_wrong_size",
    "C95_two_variates"
   ],
   "note": ""
  },
  {
   "property": "C96",
   "status": "proved",
   "theorems": [
    "C96_bm_nll",
    "C96_gbm_nll",
    "C96_ou_nll",
    "C96_bm_own_path",
    "C96_shared_volatility",
    "C96_fitted_ou"
   ],
   "note": ""
  },
  {
   "property": "C97",
   "status": "proved",
   "theorems": [
    "C97_affine",
    "C97_covariance",
    "C97_step_size"
   ],
   "note": ""
  },
  {
   "property": "C98",
   "status": "proved",
   "theorems": [
    "C98_bm_fit",
    "C98_gbm_fit",
    "C98_too_few_rows",
    "C98_fit_then_simulate"
   ],
   "note": ""
  },
  {
   "property": "C99",
   "status": "proved",
   "theorems": [
    "C99_same_dates",
    "C99_no_look_ahead",
    "C99_dates",
    "C99_written_out",
    "C99_written_out_refuted",
    "C99_gaps",
    "C99_buy_volume",
    "C99_buy_volume_refuted"
   ],
   "note": ""
  },
  {
   "property": "C100",
   "status": "proved",
   "theorems": [
    "C100_binary64",
    "C100_exact_results",
    "C100_distance",
    "C100_distance_order",
    "C100_distance_matrix",
    "C100_rsi",
    "C100_ewm_rsi",
    "C100_bands",
    "C100_ranges",
    "C100_spread",
    "C100_paths",
    "C100_gbm_start_refuted",
    "C100_gbm",
    "C100_gbm_positive_refuted"
   ],
   "note": ""
  },
  {
   "property": "C101",
   "status": "proved",
   "theorems": [
    "C101_corrcoef_refused",
    "C101_self_correlation",
    "C101_distance_matrix"
   ],
   "note": ""
  },
  {
   "property": "C102",
   "status": "proved",
   "theorems": [
    "C102_log_det_value",
    "C102_log_det_congruence",
    "C102_log_det_precision",
    "C102_diagonal",
    "C102_von_neumann_rotation",
    "C102_von_neumann_scale",
    "C102_not_metrics_refuted"
   ],
   "note": ""
  },
  {
   "property": "C103",
   "status": "proved",
   "theorems": [
    "C103_every_series",
    "C103_signs",
    "C103_geometric",
    "C103_straight_line",
    "C103_constant_series",
    "C103_units"
   ],
   "note": ""
  },
  {
   "property": "C104",
   "status": "proved",
   "theorems": [
    "C104_outcome",
    "C104_too_few_rows",
    "C104_exact_series",
    "C104_volatility"
   ],
   "note": ""
  },
  {
   "property": "C105",
   "status": "proved",
   "theorems": [
    "C105_bm",
    "C105_gbm",
    "C105_ou",
    "C105_gap"
   ],
   "note": ""
  },
  {
   "property": "C106",
   "status": "proved",
   "theorems": [
    "C106_clusters",
    "C106_refused",
    "C106_linkage_exists",
    "C106_centroid_refuted"
   ],
   "note": ""
  },
  {
   "property": "C107",
   "status": "proved",
   "theorems": [
    "C107_nested_with_groups",
    "C107_recovers",
    "C107_duplicates",
    "C107_rows",
    "C107_clusters",
    "C107_single",
    "C107_complete"
   ],
   "note": ""
  },
  {
   "property": "C108",
   "status": "proved",
   "theorems": [
    "C108_silhouette",
    "C108_gap"
   ],
   "note": ""
  },
  {
   "property": "C109",
   "status": "proved",
   "theorems": [
    "C109_clusters",
    "C109_unrelated",
    "C109_units",
    "C109_signs",
    "C109_order",
    "C109_var_info",
    "C109_groups"
   ],
   "note": ""
  },
  {
   "property": "C110",
   "status": "proved",
   "theorems": [
    "C110_moments"
   ],
   "note": ""
  },
  {
   "property": "C111",
   "status": "proved",
   "theorems": [
    "C111_bm_units",
    "C111_gbm_units",
    "C111_ou_units",
    "C111_choice_depends_on_units"
   ],
   "note": ""
  },
  {
   "property": "C112",
   "status": "proved",
   "theorems": [
    "C112_bm",
    "C112_ou",
    "C112_gbm",
    "C112_steps"
   ],
   "note": ""
  },
  {
   "property": "C113",
   "status": "proved",
   "theorems": [
    "C113_average_ranks_refuted",
    "C113_scale",
    "C113_shift",
    "C113_ranks",
    "C113_abs_squared",
    "C113_order",
    "C113_components"
   ],
   "note": ""
  },
  {
   "property": "C114",
   "status": "proved",
   "theorems": [
    "C114_one_observation",
    "C114_one_observation_ou",
    "C114_nll",
    "C114_scores",
    "C114_two_observations"
   ],
   "note": ""
  },
  {
   "property": "C115",
   "status": "proved",
   "theorems": [
    "C115_paths_look_like_data",
    "C115_no_frequency"
   ],
   "note": ""
  },
  {
   "property": "C116",
   "status": "proved",
   "theorems": [
    "C116_density",
    "C116_fit",
    "C116_denoise",
    "C116_given_k"
   ],
   "note": ""
  },
  {
   "property": "C117",
   "status": "proved",
   "theorems": [
    "C117_nan",
    "C117_straight_bm",
    "C117_straight_gbm",
    "C117_together",
    "C117_ou"
   ],
   "note": ""
  },
  {
   "property": "C118",
   "status": "proved",
   "theorems": [
    "C118_agrees",
    "C118_line",
    "C118_flat",
    "C118_level_refuted"
   ],
   "note": ""
  },
  {
   "property": "C119",
   "status": "proved",
   "theorems": [
    "C119_default",
    "C119_pairs",
    "C119_leak_refuted",
    "C119_tail",
    "C119_walk_forward"
   ],
   "note": ""
  },
  {
   "property": "C120",
   "status": "proved",
   "theorems": [
    "C120_in_range",
    "C120_unsigned_order",
    "C120_unsorted_refuted",
    "C120_purge",
    "C120_embargo",
    "C120_embargo_refuted"
   ],
   "note": ""
  },
  {
   "property": "C121",
   "status": "proved",
   "theorems": [
    "C121_atr",
    "C121_keltner",
    "C121_macd",
    "C121_ewm_rsi_refuted",
    "C121_ewm_mom",
    "C121_ewm_mom_refuted",
    "C121_indicators",
    "C121_micro",
    "C121_amihud",
    "C121_amihud_refuted",
    "C121_ewm",
    "C121_ewm_refuted",
    "C121_smallest",
    "C121_rsi_short_refuted",
    "C121_macd_signal"
   ],
   "note": ""
  },
  {
   "property": "C122",
   "status": "proved",
   "theorems": [
    "C122_only_fits_count",
    "C122_sampling_silent",
    "C122_fit_outcome",
    "C122_fresh_start",
    "C122_bm_parts",
    "C122_ou_parts",
    "C122_factor_matches",
    "C122_mixture_refuted"
   ],
   "note": ""
  },
  {
   "property": "C123",
   "status": "proved",
   "theorems": [
    "C123_in_range",
    "C123_order",
    "C123_overflow",
    "C123_long_window",
    "C123_never_ends_refuted"
   ],
   "note": ""
  },
  {
   "property": "C124",
   "status": "proved",
   "theorems": [
    "C124_independent",
    "C124_one_run",
    "C124_count"
   ],
   "note": ""
  },
  {
   "property": "C125",
   "status": "proved",
   "theorems": [
    "C125_below",
    "C125_steps",
    "C125_absolute",
    "C125_redundant",
    "C125_inside",
    "C125_inside_refuted",
    "C125_datasets"
   ],
   "note": ""
  },
  {
   "property": "C126",
   "status": "proved",
   "theorems": [
    "C126_by_name",
    "C126_star_refuted",
    "C126_star",
    "C126_star_shadows_refuted",
    "C126_module",
    "C126_unknown"
   ],
   "note": ""
  },
  {
   "property": "C127",
   "status": "proved",
   "theorems": [
    "C127_once",
    "C127_every_order",
    "C127_logger"
   ],
   "note": ""
  }
 ]
}