{"claims": [
 {"property": "C01", "status": "proved", "theorems": ["C01_chunker_partition", "C01_chunker_error"], "note": ""},
 {"property": "C02", "status": "proved", "theorems": ["C02_csv_round_trip", "C02_save_accepts", "C02_read_check_refuted"], "note": "Round trip under named assumptions on number printing/parsing; C02_read_check_refuted: on files not written by save_sample the assertion does not guarantee that each column is used once."},
 {"property": "C03", "status": "proved", "theorems": ["C03_standardized_columns", "C03_constructor_copies", "C03_constructor_values"], "note": ""},
 {"property": "C04", "status": "proved", "theorems": ["C04_getitem_is_xy"], "note": ""},
 {"property": "C05", "status": "proved", "theorems": ["C05_ksg_units", "C05_units_do_not_matter", "C05_product_space_units"], "note": ""},
 {"property": "C06", "status": "proved", "theorems": ["C06_fast_equals_slow", "C06_repeated_neighborhood_refuted"], "note": "Proved for distinct neighborhoods and all call histories; C06_repeated_neighborhood_refuted exhibits the divergence for repeated ones."},
 {"property": "C07", "status": "proved", "theorems": ["C07_ksg_equation_8", "C07_radius_exists", "C07_radius_unique", "C07_metrics"], "note": ""},
 {"property": "C08", "status": "proved", "theorems": ["C08_permutation"], "note": ""},
 {"property": "C09", "status": "proved", "theorems": ["C09_symmetry", "C09_same_predictions"], "note": ""},
 {"property": "C10", "status": "proved", "theorems": ["C10_lower_bound", "C10_upper_bound", "C10_estimate_is_mean", "C10_estimate_is_mean_fast"], "note": ""},
 {"property": "C11", "status": "proved", "theorems": ["C11_history_fast", "C11_history_slow", "C11_fit_accepts"], "note": ""},
 {"property": "C12", "status": "proved", "theorems": ["C12_constructor"], "note": ""},
 {"property": "C13", "status": "proved", "theorems": ["C13_duplicates"], "note": ""},
 {"property": "C14", "status": "proved", "theorems": ["C14_plugin", "C14_bounds", "C14_zero_iff", "C14_symmetric", "C14_permutation", "C14_constructor"], "note": ""},
 {"property": "C15", "status": "proved", "theorems": ["C15_units", "C15_flag"], "note": ""},
 {"property": "C16", "status": "proved", "theorems": ["C16_entropies", "C16_history", "C16_defaults", "C16_symmetric"], "note": ""},
 {"property": "C17", "status": "proved", "theorems": ["C17_value", "C17_constant_coordinate"], "note": ""},
 {"property": "C18", "status": "proved", "theorems": ["C18_backends_agree", "C18_textbook", "C18_single_pair", "C18_backend_choice"], "note": ""},
 {"property": "C19", "status": "proved", "theorems": ["C19_order", "C19_offsets", "C19_nwj_attains_dv"], "note": ""},
 {"property": "C20", "status": "proved", "theorems": ["C20_schedule", "C20_total", "C20_zero_interval", "C20_mine_schedule", "C20_mine_total"], "note": ""},
 {"property": "C21", "status": "proved", "theorems": ["C21_best_test_value"], "note": ""},
 {"property": "C22", "status": "proved", "theorems": ["C22_early_stop", "C22_stalled_finite"], "note": ""},
 {"property": "C23", "status": "proved", "theorems": ["C23_nan_first", "C23_no_test", "C23_number_first"], "note": ""},
 {"property": "C24", "status": "proved", "theorems": ["C24_partition", "C24_rejects", "C24_none"], "note": ""},
 {"property": "C25", "status": "proved", "theorems": ["C25_constructor", "C25_history", "C25_batch_too_large", "C25_trained", "C25_mine_history", "C25_mine_batch_too_large", "C25_mine_trained"], "note": ""},
 {"property": "C26", "status": "proved", "theorems": ["C26_batches", "C26_too_large", "C26_none"], "note": ""},
 {"property": "C27", "status": "proved", "theorems": ["C27_one_batch", "C27_weights", "C27_first_step"], "note": ""},
 {"property": "C28", "status": "proved", "theorems": ["C28_batches", "C28_whole_sample", "C28_independent_keys"], "note": ""},
 {"property": "C29", "status": "proved", "theorems": ["C29_warnings", "C29_negative_final", "C29_short_runs"], "note": ""},
 {"property": "C30", "status": "proved", "theorems": ["C30_network"], "note": ""},
 {"property": "C31", "status": "proved", "theorems": ["C31_gaussian_dimensions", "C31_student_dimensions", "C31_base_dimensions", "C31_dim_total", "C31_well_dimensioned", "C31_transformed_dimensions"], "note": ""},
 {"property": "C32", "status": "proved", "theorems": ["C32_mi_and_dimensions", "C32_rows", "C32_composition", "C32_negative_rejected"], "note": ""},
 {"property": "C33", "status": "proved", "theorems": ["C33_blocks", "C33_mi", "C33_exists"], "note": ""},
 {"property": "C34", "status": "proved", "theorems": ["C34_true_mi", "C34_decreasing", "C34_continuous", "C34_samples"], "note": ""},
 {"property": "C35", "status": "proved", "theorems": ["C35_true_mi", "C35_samples", "C35_multivariate"], "note": ""},
 {"property": "C36", "status": "proved", "theorems": ["C36_rejections", "C36_sampler", "C36_formula", "C36_series", "C36_ground_truth_refuted"], "note": ""},
 {"property": "C37", "status": "proved", "theorems": ["C37_accepts_positive_definite", "C37_formula", "C37_clamped", "C37_mean_independent", "C37_expected_log_ratio", "C37_entropy"], "note": ""},
 {"property": "C38", "status": "proved", "theorems": ["C38_exchange", "C38_linear_maps", "C38_zero_iff_uncorrelated"], "note": ""},
 {"property": "C39", "status": "proved", "theorems": ["C39_accepts", "C39_rejects", "C39_value"], "note": ""},
 {"property": "C40", "status": "proved", "theorems": ["C40_checks_only_eigenvalues", "C40_symmetric", "C40_asymmetric_accepted_refuted", "C40_wrong_shape_rejected"], "note": ""},
 {"property": "C41", "status": "proved", "theorems": ["C41_entries", "C41_negative_extra_fails", "C41_mutual_information"], "note": ""},
 {"property": "C42", "status": "proved", "theorems": ["C42_formula", "C42_expected_log_ratio", "C42_gaussian_plus_correction", "C42_accepts", "C42_covariance", "C42_infinite_df_refuted", "C42_one_point_refuted", "C42_sample", "C42_entropy"], "note": ""},
 {"property": "C43", "status": "proved", "theorems": ["C43_constructor", "C43_covariance_is_mixing", "C43_computed", "C43_positive_semidefinite", "C43_accepted", "C43_label_counts", "C43_row_labels", "C43_common_loadings", "C43_interacting_loadings", "C43_noise_loadings_x", "C43_noise_loadings_y", "C43_remaining_loadings_x", "C43_remaining_loadings_y"], "note": ""},
 {"property": "C44", "status": "proved", "theorems": ["C44_unit_diagonal", "C44_same_information", "C44_dense", "C44_sparse"], "note": ""},
 {"property": "C45", "status": "proved", "theorems": ["C45_entries", "C45_rejects", "C45_symmetric"], "note": ""},
 {"property": "C46", "status": "proved", "theorems": ["C46_pmi", "C46_kept", "C46_sample", "C46_monte_carlo"], "note": ""},
 {"property": "C47", "status": "proved", "theorems": ["C47_accepts", "C47_densities", "C47_marginals", "C47_identical", "C47_order", "C47_scaled", "C47_negative_refuted"], "note": ""},
 {"property": "C48", "status": "proved", "theorems": ["C48_product", "C48_pmi", "C48_everywhere_refuted", "C48_monte_carlo"], "note": ""},
 {"property": "C49", "status": "proved", "theorems": ["C49_profile", "C49_estimate"], "note": ""},
 {"property": "C50", "status": "proved", "theorems": ["C50_init", "C50_given", "C50_estimated", "C50_analytic_ignored_refuted"], "note": ""},
 {"property": "C51", "status": "proved", "theorems": ["C51_bracket", "C51_terminates", "C51_rounded_terminates", "C51_inverse", "C51_below", "C51_above", "C51_monotone", "C51_normal_cdf"], "note": ""},
 {"property": "C52", "status": "proved", "theorems": ["C52_generator", "C52_skew", "C52_accepted", "C52_rejected", "C52_skew_part", "C52_idempotent", "C52_fixed"], "note": ""},
 {"property": "C53", "status": "proved", "theorems": ["C53_exponential", "C53_formula", "C53_shapes", "C53_accepted", "C53_norm", "C53_bijective", "C53_plane", "C53_any_generator_refuted", "C53_rotate_x", "C53_rotate_y", "C53_rotate_isometry"], "note": ""},
 {"property": "C54", "status": "proved", "theorems": ["C54_half_cube", "C54_wiggly_x", "C54_wiggly_y", "C54_arcsinh", "C54_power", "C54_any_power_refuted", "C54_swissroll", "C54_swissroll_radius", "C54_normal_cdf", "C54_normal_density"], "note": ""},
 {"property": "C55", "status": "proved", "theorems": ["C55_run_returns", "C55_run_reports", "C55_success_iff_returned", "C55_error_described", "C55_run_raises"], "note": ""},
 {"property": "C56", "status": "proved", "theorems": ["C56_independent_runs", "C56_runs_leave_other_dictionaries", "C56_shared_dictionary_refuted", "C56_stale_error_refuted"], "note": ""},
 {"property": "C57", "status": "proved", "theorems": ["C57_metadata", "C57_metadata_error", "C57_properties", "C57_save_metadata", "C57_sample", "C57_saved_sample", "C57_params_copied_refuted"], "note": ""},
 {"property": "C58", "status": "proved", "theorems": ["C58_asinh", "C58_half_cube", "C58_normal_cdf", "C58_wiggly", "C58_swissroll", "C58_rotate", "C58_spiral", "C58_power", "C58_uniformise", "C58_gaussianise", "C58_rescale", "C58_swissroll_rejects", "C58_rotate_rejects", "C58_spiral_rejects", "C58_unreadable_base", "C58_parameters_copied_refuted"], "note": ""},
 {"property": "C59", "status": "proved", "theorems": ["C59_published_ids", "C59_published_distinct", "C59_dictionary_complete", "C59_list_builds", "C59_dictionary_builds", "C59_nothing_dropped", "C59_last_wins", "C59_spirals_collide"], "note": ""},
 {"property": "C60", "status": "proved", "theorems": ["C60_dump_converts", "C60_dump_sound", "C60_dump_succeeds", "C60_result_file", "C60_plain_idempotent", "C60_enum_of_path_refuted"], "note": ""},
 {"property": "C61", "status": "proved", "theorems": ["C61_measures_since_last_reset", "C61_never_negative", "C61_checks_never_decrease", "C61_check_and_reset", "C61_laps_and_gaps", "C61_laps_at_most_total", "C61_laps_additive_refuted"], "note": ""},
 {"property": "C62", "status": "proved", "theorems": ["C62_reads_number", "C62_strip", "C62_failure_raised", "C62_not_a_number", "C62_stdout_alone_refuted", "C62_noise_changes_number_refuted", "C62_r_ksg", "C62_r_lnn", "C62_julia_ksg", "C62_julia_histogram", "C62_julia_transfer", "C62_julia_kernel", "C62_r_ksg_accepts", "C62_r_lnn_accepts", "C62_julia_ksg_accepts", "C62_julia_bins_accepts", "C62_julia_kernel_accepts", "C62_temporary_file", "C62_failure_recorded", "C62_success_recorded"], "note": ""},
 {"property": "C63", "status": "proved", "theorems": ["C63_python_accepts", "C63_script_accepts", "C63_accepted", "C63_rejected_late", "C63_documented_values_refuted", "C63_same_validation_refuted", "C63_no_x_columns"], "note": ""},
 {"property": "C64", "status": "proved", "theorems": ["C64_covariances", "C64_draws_accepted", "C64_draw_density", "C64_mixture_densities", "C64_assertions", "C64_build_errors", "C64_build_dimensions", "C64_estimate", "C64_estimate_complete", "C64_all_draws", "C64_keys", "C64_histories", "C64_repeated_estimate_refuted", "C64_alpha_ignored", "C64_unfitted", "C64_mismatched", "C64_without_numpyro", "C64_failed_refit", "C64_too_many_draws", "C64_sample_mi", "C64_indices", "C64_program"], "note": ""},
 {"property": "C65", "status": "proved", "theorems": ["C65_benchmark_total", "C65_benchmark_index", "C65_benchmark_cells", "C65_relative_error", "C65_benchmark_ignores_n_samples", "C65_convergence_ignores_n_samples", "C65_restricted_refuted", "C65_default_restricted_refuted", "C65_converged", "C65_best_converges", "C65_none_converges", "C65_best_converges_refuted", "C65_convergence_table", "C65_read_row", "C65_read_row_default", "C65_read_results", "C65_columns_kept_refuted"], "note": ""},
 {"property": "C66", "status": "proved", "theorems": ["C66_sound", "C66_initial_value_refuted", "C66_range", "C66_errors", "C66_complete", "C66_restarts", "C66_exceptions_refuted", "C66_sparse_mi", "C66_found", "C66_generated_sound", "C66_small_dimension", "C66_negative", "C66_half_cube", "C66_spiral", "C66_spiral_in_two_dimensions"], "note": ""},
 {"property": "C67", "status": "proved", "theorems": ["C67_n_samples_needed", "C67_needed_unique", "C67_smallest_refuted", "C67_error", "C67_table", "C67_table_total", "C67_figure", "C67_annotations"], "note": ""},
 {"property": "C68", "status": "proved", "theorems": ["C68_accepts", "C68_error", "C68_layout", "C68_no_overlap", "C68_inside", "C68_all_returned", "C68_shape_returned", "C68_squeeze_false_refuted"], "note": ""},
 {"property": "C69", "status": "proved", "theorems": ["C69_affine"], "note": ""},
 {"property": "C70", "status": "proved", "theorems": ["C70_seeds"], "note": ""},
 {"property": "C71", "status": "proved", "theorems": ["C71_add_noise"], "note": ""},
 {"property": "C72", "status": "proved", "theorems": ["C72_preprocess", "C72_make_table", "C72_make_table_total", "C72_estimates", "C72_estimates_total", "C72_estimates_refuted", "C72_fails", "C72_fails_total", "C72_limit", "C72_scale_tasks"], "note": ""},
 {"property": "C73", "status": "proved", "theorems": ["C73_cholesky_exists", "C73_normal_accepts", "C73_normal_errors", "C73_normal_dimensions", "C73_normal_densities", "C73_normal_sample", "C73_normal_expected_pmi", "C73_normal_shift", "C73_asymmetric_refuted", "C73_student_accepts", "C73_student_densities", "C73_student_sample", "C73_student_expected_pmi", "C73_student_shift"], "note": ""},
 {"property": "C74", "status": "proved", "theorems": ["C74_oracles", "C74_x_task", "C74_x_task_rejects", "C74_x_pmi", "C74_ai_task", "C74_ai_task_rejects", "C74_galaxy_task", "C74_galaxy_task_rejects", "C74_bijections", "C74_waves_task", "C74_waves_task_rejects", "C74_concentric_task", "C74_concentric_task_rejects", "C74_inliers_task", "C74_inliers_task_rejects", "C74_inliers_pmi", "C74_inliers_lose", "C74_metadata_refuted"], "note": ""},
 {"property": "C75", "status": "proved", "theorems": ["C75_additive", "C75_bivariate", "C75_bimodal", "C75_rejected_arguments", "C75_latent", "C75_sparse", "C75_two_pair", "C75_dense", "C75_dense_rejected", "C75_student_identity", "C75_student_dense", "C75_student_sparse", "C75_student_two_pair", "C75_rejected_pairs"], "note": ""},
 {"property": "C76", "status": "proved", "theorems": ["C76_kde_effective", "C76_kde_determined", "C76_ksg_determined", "C76_variational_determined", "C76_mine_determined", "C76_cca_refuted", "C76_functional_run", "C76_functional_parameters"], "note": ""},
 {"property": "C77", "status": "proved", "theorems": ["C77_match_sound", "C77_fill", "C77_sample_path", "C77_result_path", "C77_result_paths_differ", "C77_sample_paths_differ", "C77_paths_refuted", "C77_numbers", "C77_table", "C77_completes", "C77_negative_seed", "C77_slash"], "note": ""},
 {"property": "C78", "status": "proved", "theorems": ["C78_closed_form", "C78_all_pairs", "C78_initial_alpha", "C78_initial_alpha_none", "C78_lambda", "C78_lambda_none", "C78_interacting", "C78_interacting_none", "C78_interacting_rejects"], "note": ""},
 {"property": "C79", "status": "proved", "theorems": ["C79_balls", "C79_profiles", "C79_profile_pmi", "C79_corners_independent", "C79_x", "C79_x_pmi", "C79_galaxy", "C79_galaxy_bijection", "C79_ai", "C79_waves", "C79_rejects"], "note": ""},
 {"property": "C80", "status": "proved", "theorems": ["C80_grids", "C80_plots", "C80_pmi_picture", "C80_dv_dofs", "C80_nce_dofs", "C80_same_dv", "C80_same_infonce", "C80_rejects", "C80_swapped_refuted"], "note": ""},
 {"property": "C81", "status": "proved", "theorems": ["C81_constant_bias", "C81_x_bias", "C81_setups", "C81_monte_carlo", "C81_nwj", "C81_ground_truth"], "note": ""},
 {"property": "C82", "status": "proved", "theorems": ["C82_demo", "C82_v1", "C82_v2", "C82_gmm", "C82_runs", "C82_settings", "C82_v1_published", "C82_display_names", "C82_gmm_in_v2", "C82_names_refuted"], "note": ""},
 {"property": "C83", "status": "proved", "theorems": ["C83_quantile", "C83_quantile_range", "C83_quantile_extremes", "C83_quantile_monotone", "C83_quantile_permutation", "C83_quantile_share", "C83_summary", "C83_summary_finite", "C83_summary_ordered", "C83_saved_mean", "C83_paths", "C83_results", "C83_completes", "C83_table", "C83_table_made", "C83_table_of_results", "C83_table_estimators_refuted"], "note": ""},
 {"property": "C84", "status": "proved", "theorems": ["C84_scaler", "C84_known", "C84_heights", "C84_offset", "C84_position", "C84_strips", "C84_apart", "C84_panel", "C84_true", "C84_drawn", "C84_few_values", "C84_many_values_refuted", "C84_configuration", "C84_figure", "C84_figure_drawn"], "note": ""},
 {"property": "C85", "status": "proved", "theorems": ["C85_made", "C85_labels", "C85_cells", "C85_deviation", "C85_rounding", "C85_any_size", "C85_one_size_refuted", "C85_names", "C85_printed"], "note": ""},
 {"property": "C86", "status": "proved", "theorems": ["C86_bernoulli", "C86_densities", "C86_pmi", "C86_bounds", "C86_shown", "C86_balance", "C86_sign", "C86_rules"], "note": ""},
 {"property": "C87", "status": "proved", "theorems": ["C87_densities", "C87_posterior", "C87_loses", "C87_own_noise", "C87_ends", "C87_signal", "C87_setups", "C87_variances", "C87_pmi", "C87_inliers_refuted"], "note": ""},
 {"property": "C88", "status": "proved", "theorems": ["C88_tasks", "C88_scaled", "C88_task_truth", "C88_mixed_truth", "C88_values", "C88_pooled", "C88_signal_truth", "C88_unknown"], "note": ""},
 {"property": "C89", "status": "proved", "theorems": ["C89_curves", "C89_unknown_estimator", "C89_unreadable", "C89_ground_truth", "C89_selected", "C89_mixing_panel", "C89_variance_panel"], "note": ""},
 {"property": "C90", "status": "proved", "theorems": ["C90_setups", "C90_paths", "C90_table", "C90_ground_truth", "C90_completes", "C90_bias", "C90_curves", "C90_unknown_estimator", "C90_figure"], "note": ""},
 {"property": "C91", "status": "proved", "theorems": ["C91_pointwise", "C91_parts", "C91_moments", "C91_panel", "C91_refused", "C91_extra", "C91_figure"], "note": ""},
 {"property": "C92", "status": "proved", "theorems": ["C92_informations", "C92_unique", "C92_pictures", "C92_positions", "C92_limits"], "note": ""},
 {"property": "C93", "status": "proved", "theorems": ["C93_positive", "C93_decreasing", "C93_dimensions", "C93_more_than_normal", "C93_figure", "C93_order", "C93_student_identity", "C93_student_dense", "C93_student_sparse", "C93_published", "C93_v1", "C93_v2"], "note": ""},
 {"property": "C94", "status": "proved", "theorems": ["C94_panel", "C94_no_parameter", "C94_unknown_estimator", "C94_styles", "C94_covered", "C94_frame", "C94_frame_whole", "C94_frame_empty", "C94_tails_tasks", "C94_tails_figure"], "note": ""},
 {"property": "C95", "status": "proved", "theorems": ["C95_initial_alpha", "C95_initial_value", "C95_tasks", "C95_matrices", "C95_panels", "C95_missing"], "note": ""},
 {"property": "C96", "status": "proved", "theorems": ["C96_tasks", "C96_panels", "C96_figure", "C96_missing"], "note": ""},
 {"property": "C97", "status": "proved", "theorems": ["C97_task", "C97_tasks", "C97_find_speed", "C97_find_no_speed", "C97_figure", "C97_unknown_task", "C97_picture", "C97_distance"], "note": ""},
 {"property": "C98", "status": "proved", "theorems": ["C98_stairs", "C98_erf", "C98_estimates", "C98_summary", "C98_one", "C98_two", "C98_spiral", "C98_norm", "C98_script", "C98_one_dimension", "C98_minus_one", "C98_bad_correlation", "C98_ravel"], "note": ""},
 {"property": "C99", "status": "proved", "theorems": ["C99_normal", "C99_student", "C99_densities", "C99_normal_form", "C99_student_form", "C99_rejected", "C99_normal_tails", "C99_student_tails", "C99_figure", "C99_strip", "C99_capitalize"], "note": ""},
 {"property": "C100", "status": "proved", "theorems": ["C100_selected", "C100_ids", "C100_missing", "C100_figure", "C100_wrong_width", "C100_files"], "note": ""},
 {"property": "C101", "status": "proved", "theorems": ["C101_styles", "C101_plot", "C101_truth", "C101_unknown_task", "C101_unknown_estimator"], "note": ""},
 {"property": "C102", "status": "proved", "theorems": ["C102_arguments", "C102_estimator", "C102_printed", "C102_stopped", "C102_defaults"], "note": ""}
]}
