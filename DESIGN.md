# Formal model of `bmi` in Coq 8.16.1: design and trusted base

## 1. Approach

The Python in `/repo` is read as text and re-written, function by function, as
total Gallina functions.  Each definition of the model cites the file and lines
it models and says where it simplifies.  Python exceptions are values
(`result A := Ok a | Err e`).  Objects with mutable state are records threaded
through operations; statements about histories quantify over lists of operations.

Calls into NumPy/SciPy/JAX/sklearn/pandas that only move data around (indexing,
stacking, sums, maxima) are re-implemented on lists or on functions from indices.
Calls with content of their own (digamma, random generators, optimisers, kernel
density estimators, distributions' densities, subprocesses, clocks) are
universally quantified parameters of the theorems; what is assumed about each is
a named hypothesis of the theorem that needs it.

### Numbers
* Python `int`: `Z` (or `nat` where the code guarantees non-negativity).
* Python/NumPy/JAX floats: exact reals `R` of the standard library.  Rounding is
  **not** modelled.  Where NaN or infinities matter for a property (KSG ties,
  training log, tables) an extended type `fl := Fin r | PInf | NInf | NaN` with
  IEEE comparison rules is used.

### File layout (`rocq/theories`)
* `*Model.v`: the code, nothing but definitions with citations.
* `*Spec.v`: small specifications used by the statements, independent of the model.
* `*Proofs.v`: lemmas.
* `*Props.v`: the property theorems only, each closed by `exact lemma.` and
  followed by `Print Assumptions`, with concrete `Example`s showing that the
  hypotheses are satisfiable.

## 2. Plan per property

| Property | Model | Proof |
|---|---|---|
| C01 chunker | `range(0,n,size)` unfolded on Z, generator as list | induction on the remaining length |
| C02 CSV | text level: header names, comma-joined cells, lines; float printing/parsing as oracle with `parse (print r) = r` and no separators in output | split/join lemmas, decimal names contain no foreign letter |
| C03-C05 ProductSpace | columns mean/variance/scale, zero scale replaced by 1 | finite sums over R |
| C06-C13, C69 KSG | both `fit`s over an arbitrary metric; `argsort` = any function returning a sorting permutation | order statistic of any sorting permutation is unique; sums over chunks |
| C14-C15 Histogram | `histogramdd` edges, binning, flattening, `mutual_info_score` | Gibbs inequality on finite sums, affine equivariance of binning |
| C16-C17 KDE, CCA | oracle density estimator / oracle correlations | algebra |
| C18-C19 objectives | both backends with scans written out | sums, Jensen, log/exp |
| C20-C23, C29 training | loop as fold with explicit log; oracle for values | invariants over histories |
| C24-C26 estimator facade | oracle permutation / trainer | lists, state machine |
| C27-C28 MINE | EMA recursion in log-space | closed form by induction |
| C30 MLP | layer size list | induction |
| C31-C33, C70 samplers | records of dims / sample / mi | algebra |
| C34 additive uniform | formula vs. Riemann integral of the exact density | Coquelicot `RInt` |
| C35 discrete-uniform | formula vs. integral of piecewise constant density | Coquelicot `RInt`/finite sums |
| C36 ZIP | partial sums | monotonicity |
| C37-C39, C41 | mathcomp `\det` over R | determinant algebra, Fischer inequality |
| C40 | boolean matrix test | counterexample + what holds |
| C42 Student | entropies with abstract gamma functions | algebra |
| C43-C45 LVM | entry functions/array updates in order | finite sums with indicators |
| C46-C49 BMM | densities as functions, bijectors with log-jacobian | algebra, log-sum-exp |
| C50 BMMSampler | state machine | invariants |
| C51 invert_mono | bisection loop | interval halving |
| C52-C53 rotations | matrices as functions; `expm` by its power series | Cauchy product of series |
| C54 transforms | real functions | monotonicity through derivatives |
| C55-C61 benchmark | heap of dictionaries for aliasing, id strings, decision logic | case analysis, induction |
| C62-C64 external | argument lists, parser | lists |
| C65-C67 workflows | frames as lists of rows | lists |
| C68 plotting | sizes and locator rectangles | sums |

## 3. Trusted base
* The kernel of Coq 8.16.1.  No plugin other than those shipped with Coq and with the
  installed libraries (mathcomp's ssreflect tactics); no kernel check is switched off.
* The five axioms of Coq's standard library listed in section 4.  No theorem depends on
  anything else; in particular there are no axioms of this development.
* Libraries used: the standard library, mathcomp (matrices and determinants over `R`) and
  Coquelicot (integrals, series).  mathcomp seals some definitions behind module types
  (for instance `BigOp.bigop`, `SubsetDef.subset`, `PermDef.perm`); tools which walk over the
  library list those members as opaque constants of a module, they are not assumptions of any
  theorem.  `R` is made an instance of mathcomp's algebraic structures in `RStruct.v`, with
  `ClassicalEpsilon.constructive_indefinite_description` for the choice structure.
* The reading of the Python code: that the Gallina definitions say what the cited lines do is
  established by inspection only.
* Floating point is not modelled (section 1), so nothing is claimed about rounding, overflow
  or the tolerance of comparisons.

## 4. Assumptions per theorem

`Print Assumptions` stands beneath every property theorem.  What it lists is one of:

* A1 `ClassicalDedekindReals.sig_forall_dec` (real numbers)
* A2 `ClassicalDedekindReals.sig_not_dec` (real numbers)
* A3 `FunctionalExtensionality.functional_extensionality_dep`
* A4 `Classical_Prop.classic` (excluded middle)
* A5 `ClassicalEpsilon.constructive_indefinite_description` (epsilon, for mathcomp matrices over `R`)

Per theorem:

**none: closed under the global context** (93 theorems)

* C01_chunker_partition, C01_chunker_error
* C02_csv_round_trip, C02_save_accepts, C02_read_check_refuted
* C04_getitem_is_xy
* C09_same_predictions
* C101_styles, C102_arguments, C102_estimator, C102_defaults, C100_ids, C100_missing, C100_wrong_width, C100_files
* C12_constructor
* C14_constructor
* C16_defaults
* C26_batches, C26_too_large, C26_none
* C28_batches, C28_whole_sample, C28_independent_keys
* C31_base_dimensions, C31_dim_total, C31_transformed_dimensions
* C32_mi_and_dimensions, C32_rows, C32_composition, C32_negative_rejected
* C42_one_point_refuted
* C43_constructor, C43_label_counts, C43_row_labels
* C50_init
* C57_sample, C57_saved_sample
* C59_published_distinct
* C60_dump_converts, C60_dump_sound, C60_dump_succeeds, C60_result_file, C60_plain_idempotent, C60_enum_of_path_refuted
* C62_reads_number, C62_strip, C62_failure_raised, C62_not_a_number, C62_r_ksg_accepts, C62_r_lnn_accepts, C62_julia_ksg_accepts, C62_julia_bins_accepts, C62_temporary_file
* C63_python_accepts, C63_script_accepts, C63_documented_values_refuted, C63_same_validation_refuted
* C65_read_row, C65_read_row_default, C65_read_results, C65_columns_kept_refuted
* C72_make_table, C72_make_table_total
* C76_kde_effective, C76_cca_refuted, C76_functional_parameters
* C77_match_sound, C77_fill, C77_sample_path, C77_result_path, C77_result_paths_differ, C77_sample_paths_differ, C77_paths_refuted, C77_numbers
* C82_runs, C82_settings, C82_v1_published, C82_display_names, C82_gmm_in_v2, C82_names_refuted
* C83_paths, C83_table, C83_table_made
* C84_position, C84_configuration
* C89_selected
* C90_paths
* C94_styles, C94_covered, C94_frame_empty
* C99_strip, C99_capitalize

**A1** (45 theorems)

* C33_blocks, C33_mi, C33_exists
* C41_entries, C41_negative_extra_fails
* C43_common_loadings, C43_interacting_loadings, C43_noise_loadings_x, C43_noise_loadings_y, C43_remaining_loadings_x, C43_remaining_loadings_y
* C46_kept, C46_sample
* C48_product
* C52_generator, C52_accepted, C52_rejected
* C53_shapes, C53_accepted
* C55_run_returns, C55_run_reports, C55_success_iff_returned, C55_error_described, C55_run_raises
* C56_independent_runs, C56_runs_leave_other_dictionaries, C56_shared_dictionary_refuted, C56_stale_error_refuted
* C61_measures_since_last_reset, C61_check_and_reset
* C62_r_ksg, C62_r_lnn, C62_julia_ksg, C62_julia_histogram, C62_julia_transfer, C62_failure_recorded, C62_success_recorded
* C63_accepted, C63_rejected_late, C63_no_x_columns
* C67_needed_unique
* C71_add_noise
* C76_functional_run
* C77_slash
* C98_ravel

**A1, A3** (137 theorems)

* C07_radius_exists, C07_radius_unique
* C101_plot, C101_truth, C101_unknown_task, C101_unknown_estimator, C100_figure
* C20_schedule, C20_total
* C21_best_test_value
* C22_early_stop, C22_stalled_finite
* C23_nan_first, C23_no_test, C23_number_first
* C24_partition, C24_rejects, C24_none
* C27_weights, C27_first_step
* C29_warnings, C29_negative_final, C29_short_runs
* C30_network
* C43_covariance_is_mixing, C43_computed
* C45_entries, C45_rejects, C45_symmetric
* C46_pmi
* C48_pmi
* C51_bracket, C51_terminates, C51_rounded_terminates, C51_inverse, C51_below, C51_above, C51_monotone
* C52_skew, C52_skew_part, C52_idempotent, C52_fixed
* C53_formula, C53_rotate_x, C53_rotate_y
* C57_metadata, C57_metadata_error, C57_properties, C57_save_metadata, C57_params_copied_refuted
* C58_rotate, C58_spiral, C58_uniformise, C58_gaussianise, C58_rotate_rejects, C58_spiral_rejects
* C59_nothing_dropped, C59_last_wins, C59_spirals_collide
* C61_never_negative, C61_checks_never_decrease, C61_laps_and_gaps, C61_laps_at_most_total, C61_laps_additive_refuted
* C62_stdout_alone_refuted, C62_noise_changes_number_refuted, C62_julia_kernel, C62_julia_kernel_accepts
* C64_program
* C65_convergence_ignores_n_samples, C65_converged, C65_best_converges, C65_none_converges, C65_best_converges_refuted, C65_convergence_table
* C66_sound, C66_initial_value_refuted, C66_range, C66_errors, C66_complete, C66_restarts, C66_exceptions_refuted
* C67_annotations
* C68_accepts, C68_error, C68_layout, C68_no_overlap, C68_inside, C68_all_returned, C68_shape_returned, C68_squeeze_false_refuted
* C72_limit
* C77_table, C77_completes, C77_negative_seed
* C80_plots, C80_pmi_picture, C80_dv_dofs, C80_nce_dofs, C80_swapped_refuted
* C81_monte_carlo
* C83_quantile, C83_quantile_range, C83_quantile_extremes, C83_quantile_monotone, C83_quantile_permutation, C83_quantile_share, C83_summary, C83_summary_finite, C83_summary_ordered, C83_saved_mean, C83_results, C83_completes, C83_table_of_results, C83_table_estimators_refuted
* C84_scaler, C84_known, C84_heights, C84_offset, C84_strips, C84_apart, C84_panel, C84_true, C84_drawn, C84_few_values, C84_many_values_refuted, C84_figure, C84_figure_drawn
* C85_rounding
* C88_pooled
* C89_ground_truth
* C91_moments
* C92_positions, C92_limits
* C94_frame, C94_frame_whole
* C98_summary

**A1, A2, A3** (76 theorems)

* C03_constructor_copies, C03_constructor_values
* C05_ksg_units, C05_units_do_not_matter, C05_product_space_units
* C06_fast_equals_slow, C06_repeated_neighborhood_refuted
* C07_ksg_equation_8, C07_metrics
* C08_permutation
* C09_symmetry
* C10_lower_bound, C10_upper_bound, C10_estimate_is_mean, C10_estimate_is_mean_fast
* C11_history_fast, C11_history_slow, C11_fit_accepts
* C13_duplicates
* C16_entropies, C16_history, C16_symmetric
* C20_zero_interval
* C25_history, C25_batch_too_large, C25_trained
* C44_unit_diagonal, C44_dense, C44_sparse
* C46_monte_carlo
* C48_monte_carlo
* C49_profile, C49_estimate
* C50_given, C50_estimated
* C54_swissroll, C54_swissroll_radius
* C58_half_cube, C58_wiggly, C58_swissroll, C58_rescale, C58_swissroll_rejects
* C69_affine
* C72_scale_tasks
* C74_bijections
* C76_kde_determined, C76_ksg_determined
* C79_galaxy_bijection
* C80_grids, C80_rejects
* C81_ground_truth
* C85_made, C85_labels, C85_cells, C85_deviation, C85_any_size, C85_one_size_refuted, C85_names, C85_printed
* C87_inliers_refuted
* C88_scaled
* C89_curves, C89_unknown_estimator, C89_unreadable
* C90_curves, C90_unknown_estimator
* C91_parts
* C94_panel, C94_no_parameter, C94_unknown_estimator
* C95_missing
* C96_panels, C96_missing
* C97_distance
* C98_estimates, C98_norm

**A1, A2, A3, A4** (167 theorems)

* C03_standardized_columns
* C102_stopped, C100_selected
* C14_plugin, C14_bounds, C14_zero_iff, C14_symmetric, C14_permutation
* C15_units, C15_flag
* C17_value, C17_constant_coordinate
* C18_backends_agree, C18_textbook, C18_single_pair, C18_backend_choice
* C19_order, C19_offsets, C19_nwj_attains_dv
* C20_mine_schedule, C20_mine_total
* C25_constructor, C25_mine_history, C25_mine_batch_too_large, C25_mine_trained
* C27_one_batch
* C31_well_dimensioned
* C34_true_mi, C34_decreasing, C34_continuous, C34_samples
* C35_true_mi, C35_samples, C35_multivariate
* C36_rejections, C36_sampler, C36_formula, C36_series, C36_ground_truth_refuted
* C39_rejects
* C47_accepts, C47_densities, C47_marginals, C47_identical, C47_order, C47_scaled, C47_negative_refuted
* C48_everywhere_refuted
* C50_analytic_ignored_refuted
* C51_normal_cdf
* C53_exponential, C53_norm, C53_bijective, C53_plane, C53_any_generator_refuted, C53_rotate_isometry
* C54_half_cube, C54_wiggly_x, C54_wiggly_y, C54_arcsinh, C54_power, C54_any_power_refuted, C54_normal_cdf, C54_normal_density
* C58_asinh, C58_normal_cdf, C58_power, C58_unreadable_base, C58_parameters_copied_refuted
* C59_published_ids, C59_dictionary_complete
* C64_assertions, C64_build_errors, C64_estimate, C64_estimate_complete, C64_all_draws, C64_keys, C64_histories, C64_alpha_ignored, C64_unfitted, C64_mismatched, C64_without_numpyro, C64_failed_refit, C64_too_many_draws, C64_sample_mi, C64_indices
* C65_benchmark_total, C65_benchmark_index, C65_benchmark_cells, C65_relative_error, C65_benchmark_ignores_n_samples, C65_restricted_refuted, C65_default_restricted_refuted
* C66_generated_sound, C66_small_dimension
* C67_n_samples_needed, C67_smallest_refuted, C67_error, C67_table, C67_table_total, C67_figure
* C70_seeds
* C72_preprocess, C72_estimates, C72_estimates_total, C72_estimates_refuted, C72_fails, C72_fails_total
* C73_normal_errors
* C75_additive, C75_rejected_arguments, C75_rejected_pairs
* C76_variational_determined, C76_mine_determined
* C78_interacting_rejects
* C79_profile_pmi, C79_corners_independent
* C80_same_dv, C80_same_infonce
* C81_constant_bias, C81_x_bias, C81_setups, C81_nwj
* C86_bernoulli, C86_bounds, C86_shown, C86_balance, C86_sign
* C87_densities, C87_posterior, C87_loses, C87_own_noise, C87_ends
* C90_table, C90_ground_truth, C90_completes, C90_bias
* C91_refused
* C92_informations, C92_unique, C92_pictures
* C93_positive, C93_decreasing, C93_dimensions, C93_figure, C93_order
* C94_tails_figure
* C95_initial_value, C95_panels
* C96_figure
* C97_find_speed, C97_find_no_speed, C97_figure, C97_unknown_task, C97_picture
* C98_stairs, C98_erf, C98_spiral, C98_bad_correlation
* C99_normal, C99_student, C99_densities, C99_normal_form, C99_student_form, C99_rejected, C99_normal_tails, C99_student_tails

**A1, A3, A4, A5** (8 theorems)

* C40_checks_only_eigenvalues, C40_asymmetric_accepted_refuted, C40_wrong_shape_rejected
* C42_accepts, C42_covariance, C42_sample
* C43_positive_semidefinite
* C64_covariances

**A1, A2, A3, A4, A5** (138 theorems)

* C102_printed
* C31_gaussian_dimensions, C31_student_dimensions
* C37_accepts_positive_definite, C37_formula, C37_clamped, C37_mean_independent, C37_expected_log_ratio, C37_entropy
* C38_exchange, C38_linear_maps, C38_zero_iff_uncorrelated
* C39_accepts, C39_value
* C40_symmetric
* C41_mutual_information
* C42_formula, C42_expected_log_ratio, C42_gaussian_plus_correction, C42_infinite_df_refuted, C42_entropy
* C43_accepted
* C44_same_information
* C59_list_builds, C59_dictionary_builds
* C64_draws_accepted, C64_draw_density, C64_mixture_densities, C64_build_dimensions, C64_repeated_estimate_refuted
* C66_sparse_mi, C66_found, C66_negative, C66_half_cube, C66_spiral, C66_spiral_in_two_dimensions
* C73_cholesky_exists, C73_normal_accepts, C73_normal_dimensions, C73_normal_densities, C73_normal_sample, C73_normal_expected_pmi, C73_normal_shift, C73_asymmetric_refuted, C73_student_accepts, C73_student_densities, C73_student_sample, C73_student_expected_pmi, C73_student_shift
* C74_oracles, C74_x_task, C74_x_task_rejects, C74_x_pmi, C74_ai_task, C74_ai_task_rejects, C74_galaxy_task, C74_galaxy_task_rejects, C74_waves_task, C74_waves_task_rejects, C74_concentric_task, C74_concentric_task_rejects, C74_inliers_task, C74_inliers_task_rejects, C74_inliers_pmi, C74_inliers_lose, C74_metadata_refuted
* C75_bivariate, C75_bimodal, C75_latent, C75_sparse, C75_two_pair, C75_dense, C75_dense_rejected, C75_student_identity, C75_student_dense, C75_student_sparse, C75_student_two_pair
* C78_closed_form, C78_all_pairs, C78_initial_alpha, C78_initial_alpha_none, C78_lambda, C78_lambda_none, C78_interacting, C78_interacting_none
* C79_balls, C79_profiles, C79_x, C79_x_pmi, C79_galaxy, C79_ai, C79_waves, C79_rejects
* C82_demo, C82_v1, C82_v2, C82_gmm
* C86_densities, C86_pmi, C86_rules
* C87_signal, C87_setups, C87_variances, C87_pmi
* C88_tasks, C88_task_truth, C88_mixed_truth, C88_values, C88_signal_truth, C88_unknown
* C89_mixing_panel, C89_variance_panel
* C90_setups, C90_figure
* C91_pointwise, C91_panel, C91_extra, C91_figure
* C93_more_than_normal, C93_student_identity, C93_student_dense, C93_student_sparse, C93_published, C93_v1, C93_v2
* C94_tails_tasks
* C95_initial_alpha, C95_tasks, C95_matrices
* C96_tasks
* C97_task, C97_tasks
* C98_one, C98_two, C98_script, C98_one_dimension, C98_minus_one
* C99_figure

## 5. What is modelled, and what is not

| Code | Model | Not modelled |
|---|---|---|
| `src/bmi/utils.py` | `UtilsModel` | quoting, blank lines and column renaming of `read_csv`; sklearn's tolerance for a zero variance |
| `src/bmi/interface.py` | `SamplersModel` (ISampler), `BenchmarkModel` (results, task and run metadata) | the abstract estimator class has no code |
| `src/bmi/estimators/ksg.py` | `KsgModel` | strings spelling numbers accepted by pydantic |
| `src/bmi/estimators/_histogram.py` | `HistogramModel` | degenerate samples without rows |
| `src/bmi/estimators/_kde.py`, `correlation.py` | `SimpleEstimatorsModel` | the density estimator and CCA themselves (oracles) |
| `src/bmi/estimators/function_wrapper.py`, the `parameters` methods of the estimators, default `estimate_with_info` | `ParametersModel` | `np.asarray` leaves arrays as they are; pydantic models are records |
| `src/bmi/estimators/neural/_backend_*.py` | `ObjectivesModel` | jit and vmap are transparent |
| `src/bmi/estimators/neural/_training_log.py` | `TrainingLogModel` | printing and the progress bar |
| `src/bmi/estimators/neural/_basic_training.py`, `_mine_estimator.py`, `_estimators.py`, `_critics.py` | `TrainingModel` | differentiation and the optimiser (oracles) |
| `src/bmi/estimators/external/external_estimator.py`, `r_estimators.py`, `julia_estimators.py`, `external/rmi.R`, `external/mi_estimator.jl` | `ExternalModel` | the operating system's process, the R and Julia libraries (oracles) |
| `src/bmi/estimators/external/gmm.py` | `GmmModel` | NumPyro's MCMC (oracle) |
| `src/bmi/samplers/base.py`, `_transformed.py`, `_independent_coordinates.py`, `_additive_uniform.py`, `_discrete_continuous.py` | `SamplersModel` | |
| `src/bmi/samplers/_splitmultinormal.py`, `_split_student_t.py` | `GaussianModel` | SciPy's and JAX's generators (oracles) |
| `src/bmi/samplers/_matrix_utils.py` | `MatrixUtilsModel` | |
| `src/bmi/samplers/_tfp/*.py` | `BmmModel`, `MultivariateModel` | TFP beyond the documented log-densities; how TFP draws |
| `src/bmi/transforms/*.py` | `TransformsModel` | |
| `src/bmi/benchmark/task.py`, `result.py`, `utils/*.py` | `BenchmarkModel` | the YAML syntax (documents are trees) |
| `src/bmi/benchmark/tasks/*.py`, `task_list.py`, `__init__.py` | `TasksModel`, `MixturesModel` | |
| `src/bmi/plot_utils/subplots_from_axsize.py` | `SubplotsModel` | drawing |
| `workflows/benchmark/_utils.py` | `TablesModel` | styling of the tables |
| `workflows/benchmark/_common_benchmark_rules.smk` (rules `results`, `sample_task`, `apply_estimator`) | `RulesModel` | Snakemake is modelled as far as these rules need it: filling patterns, matching a path against a pattern (greedy groups), `expand`, jobs run in any order in processes of their own; file contents are texts and YAML documents; memory limit, the table as written by pandas, and `benchmark_tables` (its functions are in `TablesModel`) left out |
| `workflows/projects/Beyond_Normal/_high_mi_utils.py` | `HighMiModel` | |
| `workflows/projects/Beyond_Normal/_sparsity_utils.py` | `SparsityModel` | the search is the one of `HighMiModel` |
| `workflows/projects/Mixtures/example_distributions.py` and the mixtures of `how_good_integration_is.smk`, `visualizing_critics.py`, `distinct_profiles.smk`, `pmi_plot_1v1.smk` | `PaperModel` | the plots are not modelled |
| `workflows/projects/Mixtures/visualizing_critics.py` 107-161, the samples and pictures of `pmi_plot_1v1.smk` and `distinct_profiles.smk`, the estimators, biases and ground truth of `how_good_integration_is.smk` | `CriticsModel` | drawing beyond the array and extent given to `imshow` is not modelled; critics are finite |
| `workflows/benchmark/demo/config.py`, `v1/config.py`, `v2/config.py`, and TASKS, NAMES, SEEDS of `workflows/projects/Mixtures/gmm_benchmark.smk`, `names` of `v2_results_table.smk` | `ConfigModel` | of the estimators only the names; TASKS is a generator, so the tasks are rescaled while TASKS_DICT is filled, as in the model |
| `workflows/projects/Mixtures/gmm_benchmark.smk` 88-215 (rules, quantiles, results, table) | `GmmBenchModel` | posteriors are lists of floats given by the estimator; a summary is of exact reals; formatting with two digits is a parameter |
| `workflows/projects/Mixtures/figure_bmm_vs_other.smk` | `BmmFigureModel` | positions of points, bars and ticks; titles, limits and colours left out |
| `workflows/projects/Mixtures/v2_results_table.smk` | `V2TableModel` | means and deviations of exact reals; the text of a number with two digits is a parameter; the LaTeX file is the table of texts |
| `workflows/projects/Mixtures/figure_discrete_continuous.smk` | `DiscreteModel` | Bernoulli's documented log-probability; draws are oracles; log-gamma is any function with log Γ(z+1) = ln z + log Γ(z) for z > 0; of the figure only colours and the range of the profile; files left out |
| `workflows/projects/Mixtures/outliers.smk` 27-113 and 252-347, `_benchmark_rules.smk` 18-28 | `OutliersModel` | draws, eigenvalues and Cholesky factors are oracles; parsing of floats is an oracle; JSON documents are the tuples of their numbers; the estimators and the benchmark rules are modelled elsewhere |
| `workflows/projects/Mixtures/outliers.smk` 115-127 and 164-233 | `OutliersPlotModel` | of the figure only positions, bands, colours and markers of the curves; reading a parameter from its text is an oracle; equal levels keep their order when sorted; limits, labels and legend left out |
| `workflows/projects/Mixtures/how_good_integration_is.smk` 34-38, 46-64, 95-117, 128-213, 216-286 (setups, rules, curves) | `IntegrationModel` | the rules making files, matched against paths and run in any order; critics are finite; files hold the values written; of the figures positions, bands, colours, markers, titles and the limits of the vertical axis |
| `scripts/Mixtures/validate_chi2_combination.py` | `ChiModel` | exact reals; of the picture the two samples, the bins, the two variances, the line and the shaded region |
| `scripts/Mixtures/plot_appearing_and_vanishing_mi.py` | `VanishingModel` | exact reals; of a picture the array, the extent, the limits of the colours and the title |
| `scripts/Beyond_Normal/figures/student/correction.py` | `CorrectionModel` | exact reals; of the figure the curves; `MARKER_LIST` is unused by the script |
| `workflows/projects/Beyond_Normal/_common_figure_utils.py` 18-67 and 97-156, `figure_tails.smk`, `figure_sparsity.smk` 40-66 | `PlotMiModel` | of a panel curves, bands, colours, labels, the line of true values and the label of the axis; a parameter is a number where it is present; rows hold the parameters and the mutual information of their task; limits of the axes and legend left out |
| `workflows/projects/Beyond_Normal/figure_sparsity.smk` | `SparsityFigureModel` (tasks, matrices), `PlotMiModel.figure_sparsity` (panels) | labels of the matrices, colours, ticks and limits of the axes left out; exact reals |
| `workflows/projects/Beyond_Normal/figure_high_mi.smk` | `HighMiFigureModel` | titles and panels of the figure; a family is a text; the first desired value is the integer 0 in the code and a float here; colours, limits of the axes and legend left out; exact reals |
| `workflows/projects/Beyond_Normal/figure_spiral.smk` (16-82), `scripts/plot_spiral.py` (points and labels) | `SpiralFigureModel` | exact reals; matrix exponential, NumPy's draws and number formats are parameters; sizes, axes and legends left out; the rules themselves are in `RulesModel` |
| `scripts/Beyond_Normal/figures/concept/1v1.py`, `2v1.py`, `scripts/Beyond_Normal/experimental/ksg_spiral.py` | `ConceptModel` | the estimator is any function defined everywhere; drawing, ticks, limits of the axes, rounding of the numbers in titles and rows, parsing of arguments; the unused grid function of 1v1.py |
| `workflows/projects/Beyond_Normal/figure_visualise_pointwise_mi.smk` | `PointwiseModel` | densities as SciPy's formulas in exact arithmetic (no underflow), the logarithm of the gamma function, the draws and the InfoNCE estimator as parameters; parameters of a task are read once; colours and sizes not modelled |
| `workflows/projects/Beyond_Normal/figure_visualise_tasks.smk` | `VisualTasksModel` | of a figure the title and the data frame; both samples of a task have as many rows; drawing by seaborn not modelled |
| `workflows/projects/Mixtures/cool_tasks.smk`: dictionaries and the rule plot_results | `CoolTasksModel` | the random shifts are a parameter; the rule plot_distributions, legend and limits not modelled |
| `scripts/Beyond_Normal/experimental/ksg_time_comparison.py`: get_args, get_estimator, main | `TimingModel` | argparse (parsing, `choices`), clocks (TimeIt) and printing not modelled; the estimators are any function of their parameters and the samples |
| `workflows/projects/Beyond_Normal/_common_figure_utils.py` | `FiguresModel` | drawing, colours |
| other `workflows/`, `scripts/`, `notebooks/`, `docs/`, tests | not modelled | |

## 6. Hypotheses about code outside the repository

Every call with content of its own is a universally quantified function.  Where a theorem
needs something of it, this is one of the following named hypotheses; for each of them an
`Example` (or an existence theorem) shows that it can be met.

* `valid_argsort`: `np.argsort` returns indices which sort the values.  Ties in any order.
* `prng_ok`: splitting a JAX key gives as many keys as asked for, `permutation` and `choice`
  give distinct indices in range.  Nothing is assumed about how keys differ, unless a theorem
  says so.
* `draws_ok`: arrays drawn by `jax.random` or SciPy have the shape asked for.
* `eigvals_ok`, `eigvals_exact`, `eigvals_symmetric`: `np.linalg.eigvals` returns the complex
  eigenvalues of the matrix (mathcomp's, written with real and imaginary parts); for symmetric
  matrices such a function exists (C74_oracles).  `eigvals_positive`: its weaker form in C58.
* `cholesky_ok`: for positive definite matrices `jnp.linalg.cholesky` returns a lower
  triangular factor with positive diagonal, and NaN (here `None`) otherwise; it looks at the
  symmetrised matrix, as JAX does.  Such a function exists (C73_cholesky_exists).
* `expectation`: a linear, normalised functional on the integrable functions, with the first
  and second moments of the distribution (normal case) or the logarithmic moment
  `student_log_moment` (Student case).  The Gaussian integrals themselves are not computed.
* `linear_on`: integrating out coordinates is linear.
* `is_expm`: `expm` is the sum of the power series (a function meeting this is built,
  `series_expm_ok`); `is_erf`: `erf` has the derivative and limits of the error function.
* digamma, log-gamma: arbitrary functions; where needed their recurrence, or
  `student_correction >= 0`, is a hypothesis.  The sign is proved in C93 from `gamma_functions`:
  the two recurrences and log-gamma above its tangents; functions meeting this are built
  (`gamma_functions_exist`).
* `python_floats`: `str` of the floats which occur in task identifiers (0.5, 0.75 and so on).
* number printing and parsing in CSV files: `parse (print r) = Some r`, no separators in the
  printed text.
* `nuts_counts`, `proper_latent`: MCMC returns as many draws as asked for, each with weights,
  means, scales and triangular correlation factors of the right shapes.
* `monotone`: the clock does not go back.
* TFP: `Mixture` normalises its weights (softmax of the logarithms), `TransformedDistribution`
  adds the inverse log-Jacobian, `Blockwise` adds log-densities, the linear operator normal and
  Student distributions have their documented log-densities.

## 7. Simplifications worth knowing

* Dimensions of joint distributions are natural numbers; a default mean for negative
  dimensions is not distinguished, since such dimensions are refused.
* `eta_x = None` of the latent variable parametrisation is not a value of the model (with it
  `covariance` raises TypeError); tasks always give a number.
* `skew_symmetrize` does not broadcast: arrays which are not square raise ValueError.
* Zero-inflated Poissonization: the closed form of the mutual information is proved to be the
  sum of the series for p > 0 as stated in C36, not for p = 0.
* `invert_cdf` runs its bisection with the fuel the code's iteration count gives.
* A BMM sampler inside a task is represented by the value of its first
  `mutual_information()` call; C50 shows that later calls return the same value.
* Python values in parameter dictionaries are trees with string keys; dictionaries shared
  between objects live in a heap, so aliasing is visible (C56, C57, C58).
* External processes: one call runs to completion; the standard output is a string, white
  space is ASCII, paths are not normalised beyond joining.
* `argparse` and `ArgParse.jl`: options written in full, each value the next argument.
* GMM: JAX clamps out-of-range indices; negative counts raise TypeError and an empty posterior
  IndexError, as in the model.
* Subplots: the divider with fixed sizes places axes at cumulative offsets.
* Tables and figures: the columns which are read exist, `mi_true` is never -0.0, and
  (estimator, task, number of samples, seed) is unique in C67 and C72.

## 8. Claims which are false

Where a natural claim about the code fails, a theorem ending in `_refuted` exhibits the
counterexample in the faithful model:

* `C02_read_check_refuted`: Outside files written by save_sample the check of read_sample does not guarantee that each column is used exactly once: a header "XY,Z" passes it, and the first column is returned both as x and as y.
* `C06_repeated_neighborhood_refuted`: ... and without that proviso the claim is false: with neighborhoods (1, 1) the two disagree on the sample x = y = 0, 1, 3, for any digamma with psi(1) < 0 and psi(1) < psi(3) (psi(1) = -0.577..., psi(3) = 0.922...).
* `C36_ground_truth_refuted`: C36 (refuted as a ground truth): the reported values for p = 0 and for any p > 0 cannot both be the mutual information of the sampled distribution, because an observed zero does not tell which of the two mechanisms produced it.
* `C40_asymmetric_accepted_refuted`: ... but does not reject asymmetric matrices, whatever the error message says.
* `C42_infinite_df_refuted`: the documented df = inf does not give the Gaussian case but NaN.
* `C42_one_point_refuted`: sampling one point always fails; otherwise the rows are split.
* `C47_negative_refuted`: Negative proportions are accepted; every density is then NaN.
* `C50_analytic_ignored_refuted`: The analytic mutual information carried by the distribution is never used.
* `C53_any_generator_refuted`: Generators which are not skew-symmetric are accepted, and give maps which are neither injective nor isometric.
* `C54_any_power_refuted`: For alpha = 0 the map is not injective and for alpha < 0 it is not defined at 0.
* `C56_shared_dictionary_refuted`: When the same non-empty dictionary is passed to two runs, the second run changes the result of the first one,
* `C56_stale_error_refuted`: and the error of a failed run is still recorded in a later successful one.
* `C57_params_copied_refuted`: The metadata does not contain a copy of the parameters but the same dictionary.
* `C58_parameters_copied_refuted`: The base task keeps its dictionary, but the transformed task uses the same object: who edits the parameters of the new task edits those of the base.
* `C60_enum_of_path_refuted`: An Enum member whose value is a path (or a NumPy value) is not dumped.
* `C61_laps_additive_refuted`: but need not reach it.
* `C62_noise_changes_number_refuted`: It can even make another number.
* `C62_stdout_alone_refuted`: It is not enough that standard output alone is a number: the error stream is read too.
* `C63_documented_values_refuted`: The documented value 0 (Jeffreys' prior) cannot be chosen, though the script takes it.
* `C64_repeated_estimate_refuted`: but a second estimate from the same data may differ from the first: the key is part of the estimator's state.
* `C65_restricted_refuted`: So it is false that the table is about runs with [n_samples] samples, also by default.
* `C66_exceptions_refuted`: One exception may keep the search from ever succeeding: the random restart ignores the bracket and can put the upper end back.
* `C66_initial_value_refuted`: ... in which case a point is returned although the function fails everywhere.
* `C67_smallest_refuted`: It is not the smallest size at which the error is small.
* `C68_squeeze_false_refuted`: ... but squeeze=False does not always give the array: a single axes is returned bare.
* `C72_estimates_refuted`: So names alone are not enough.
* `C73_asymmetric_refuted`: an asymmetric covariance is accepted, and then the reported mutual information is not that of the densities: here it is 0 while the densities have a positive one.
* `C74_metadata_refuted`: a task whose Monte Carlo estimate comes out negative has no metadata. The task is built, but reading its name or its dimensions raises ValidationError.
* `C76_cca_refuted`: The CCA estimator reports no parameters although its constructor has one.
* `C77_paths_refuted`: Without the conditions on slashes and signs paths are misunderstood.
* `C80_swapped_refuted`: the documented order of the arguments of [sample] is not the one used for the profiles and for the 1v1 plots: these rules never finish, for any distribution.
* `C82_names_refuted`: The names of the tasks themselves do not tell the tasks of the second version apart.
* `C83_table_estimators_refuted`: With a second estimator some results appear nowhere in the table.
* `C84_many_values_refuted`: Of more, it need not be: for every number above ten there is a posterior, of values which are not negative, whose mean is above its high quantile, so that the figure is not drawn.
* `C87_inliers_refuted`: The noise called inliers does not have the law of Y (its coordinates are independent), so the law of Y changes with the level.

## 9. Testing the theorems

`seeded/LOG.jsonl` lists edits of the model, each a realistic bug, with the theorems which
failed after it.  Edits which no theorem noticed led to the tightened theorems named there,
or are marked equivalent.
