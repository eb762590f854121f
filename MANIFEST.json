{
 "claims": [
  {
   "property": "C01",
   "status": "proved",
   "theorems": [
    "C01_constant_follows_signal_when_dry"
   ],
   "note": "float64, all inputs with n_average_last_dry >= 1"
  },
  {
   "property": "C02",
   "status": "proved",
   "theorems": [
    "C02_constant_frozen_during_event",
    "C02_constant_event_mean_exact",
    "C02_float_event_mean"
   ],
   "note": "float64; the mean is the sequential float sum divided by n, close to the exact mean; exact version gives the real mean"
  },
  {
   "property": "C03",
   "status": "proved",
   "theorems": [
    "C03_constant_nan_flag_is_wet",
    "C03_documented_nan_propagation_refuted"
   ],
   "note": "the documented behaviour is refuted; the actual behaviour is proved"
  },
  {
   "property": "C04",
   "status": "proved",
   "theorems": [
    "C04_constant_causal",
    "C04_constant_range_exact",
    "C04_constant_range_one_or_two",
    "C04_constant_range_float_refuted",
    "C04_float_range"
   ],
   "note": "causality in float64, range in exact arithmetic and, for averages of at most two samples, in float64; refuted in float64 for three, where it holds up to a bounded rounding error"
  },
  {
   "property": "C05",
   "status": "proved",
   "theorems": [
    "C05_linear_between_dry_steps",
    "C05_linear_exact",
    "C05_linear_range",
    "C05_linear_range_underflow_refuted"
   ],
   "note": "the range in exact arithmetic and, for moderate levels and at most 2^50 steps, in float64"
  },
  {
   "property": "C06",
   "status": "proved",
   "theorems": [
    "C06_linear_trailing_wet_is_zero"
   ],
   "note": ""
  },
  {
   "property": "C07",
   "status": "proved",
   "theorems": [
    "C07_linear_nan_period_is_nan",
    "C07_linear_ignore_nan_is_forward_fill",
    "C07_linear_ignore_nan_no_nan_exact"
   ],
   "note": ""
  },
  {
   "property": "C08",
   "status": "proved",
   "theorems": [
    "C08_linear_never_raises",
    "C05_linear_between_dry_steps"
   ],
   "note": "the explicit error branch is unreachable; the dead NaN branch is excluded by the dry clause of C05"
  },
  {
   "property": "C09",
   "status": "proved",
   "theorems": [
    "C09_markers_exact"
   ],
   "note": "markers on 1-D numpy series, float64 incl. NaN/inf"
  },
  {
   "property": "C10",
   "status": "proved",
   "theorems": [
    "C10_mask_exact",
    "C10_every_low_entry_is_marked_refuted"
   ],
   "note": "exact characterisation; the naive reading of the docstring is refuted by a concrete series"
  },
  {
   "property": "C11",
   "status": "proved",
   "theorems": [
    "C11_two_sided_mask_exact",
    "C11_low_neighbour_is_marked_refuted"
   ],
   "note": "the notebook's combination of both scan directions"
  },
  {
   "property": "C12",
   "status": "proved",
   "theorems": [
    "C12_any_markers"
   ],
   "note": "arbitrary marker arrays of the length of rsl"
  },
  {
   "property": "C13",
   "status": "proved",
   "theorems": [
    "C13_schleiss_is_least_candidate",
    "C13_schleiss_zero_tau"
   ],
   "note": "float64; also settles when ZeroDivisionError is raised"
  },
  {
   "property": "C14",
   "status": "proved",
   "theorems": [
    "C14_schleiss_nan_exact"
   ],
   "note": "holds for every waa_max, NaN included"
  },
  {
   "property": "C15",
   "status": "proved",
   "theorems": [
    "C15_schleiss_exponential_exact",
    "C15_exponential_monotone",
    "C15_wet_step_in_float",
    "C15_wet_period_in_float"
   ],
   "note": "formula in exact arithmetic; rise and bound by waa_max also in binary64, any tau > 0"
  },
  {
   "property": "C16",
   "status": "proved",
   "theorems": [
    "C16_pastorek_range_and_monotone",
    "C16_pastorek_formula",
    "C16_pastorek_dry_is_zero",
    "C16_pastorek_in_float",
    "C16_library_laws_satisfiable"
   ],
   "note": "strict bounds and strict growth in exact arithmetic; in binary64 range [0,A_max] and growth for any math library with monotone pow and exp (met by a correctly rounded one), zero at zero rain for any math library"
  },
  {
   "property": "C17",
   "status": "proved",
   "theorems": [
    "C17_waa_from_A_obs_exact",
    "C17_negative_observation_raises",
    "C17_in_float",
    "C17_library_laws_satisfiable"
   ],
   "note": "exact arithmetic with the exact spline for the k-R coefficients; in float64 up to 2^-39 dB for any a, b the spline may return (a*L and 1/b positive), under laws of pow and exp shown satisfiable; that A_obs - WAA is nondecreasing only in exact arithmetic"
  },
  {
   "property": "C18",
   "status": "proved",
   "theorems": [
    "C18_only_two_combinations"
   ],
   "note": ""
  },
  {
   "property": "C19",
   "status": "proved",
   "theorems": [
    "C19_rain_nan_exact",
    "C19_pow_assumptions_satisfiable"
   ],
   "note": "float64; assumes pow maps non-negative arguments to non-negative numbers (met by a correctly rounded pow)"
  },
  {
   "property": "C20",
   "status": "proved",
   "theorems": [
    "C20_inverts_power_law_exact",
    "C20_float_inverts_power_law",
    "C20_accuracy_satisfiable"
   ],
   "note": "exact arithmetic; in float64 an error bound for rates 0 and 2^-20..2^20 mm/h, for every power function of bounded relative error (met by a correctly rounded one)"
  },
  {
   "property": "C21",
   "status": "proved",
   "theorems": [
    "C21_rain_monotone",
    "C21_rain_monotone_exact"
   ],
   "note": "float64 given a monotone pow; unconditional in exact arithmetic"
  },
  {
   "property": "C22",
   "status": "proved",
   "theorems": [
    "C22_a_b_rejects",
    "C23_a_b_elementwise"
   ],
   "note": "float64; rejection and, for accepted input, array lengths"
  },
  {
   "property": "C23",
   "status": "proved",
   "theorems": [
    "C23_a_b_elementwise",
    "C24_itu_coefficients_positive"
   ],
   "note": "selection for an arbitrary interpolator; table entries at tabulated frequencies for the exact spline"
  },
  {
   "property": "C24",
   "status": "proved",
   "theorems": [
    "C24_itu_coefficients_positive",
    "C24_exact_interpolator_exists",
    "C24_retrieval_from_frequency_is_total"
   ],
   "note": "exact arithmetic; the interpolator is assumed to be the not-a-knot spline, whose existence is proved"
  },
  {
   "property": "C25",
   "status": "proved",
   "theorems": [
    "C25_min_max_retrieval_scaled",
    "C25_calibrated_coefficient",
    "C25_arguments"
   ],
   "note": "scaling: exact arithmetic, no infinite attenuation; the rest binary64, any math library"
  },
  {
   "property": "C26",
   "status": "proved",
   "theorems": [
    "C26_min_max_window",
    "C26_negative_window",
    "C26_window_from_zero"
   ],
   "note": "float64; the fill value of missing samples is existential here and exact in C27"
  },
  {
   "property": "C27",
   "status": "proved",
   "theorems": [
    "C27_min_max_no_nan_exact",
    "C27_float_no_nan"
   ],
   "note": "exact arithmetic; in float64 for levels and gains up to 1024 in size and at most 2^20 steps, the fill value within 1/2 + 2^-18 of the exact mean"
  },
  {
   "property": "C28",
   "status": "proved",
   "theorems": [
    "C28_reference_level_is_median",
    "C28_reference_level_range",
    "C28_reference_level_range_exact"
   ],
   "note": "float64; the range in exact arithmetic too"
  },
  {
   "property": "C29",
   "status": "proved",
   "theorems": [
    "C29_corrected_signals"
   ],
   "note": "float64"
  },
  {
   "property": "C30",
   "status": "proved",
   "theorems": [
    "C30_retrieval_mixes_exact",
    "C30_parameter_combinations",
    "C30_outlier_score",
    "C30_float_retrieval_mixes",
    "C30_float_mix_above_both_refuted"
   ],
   "note": "exact arithmetic; in float64 the mixture up to a relative error of 2^-28 plus that of the power function, for moderate levels, and its bounds refuted without the allowance; parameter check in float64"
  },
  {
   "property": "C31",
   "status": "proved",
   "theorems": [
    "C31_no_rain_when_not_wet",
    "C31_pow_law_satisfiable"
   ],
   "note": "float64, for every power function with pow(0,y)=0 for y>0"
  },
  {
   "property": "C32",
   "status": "proved",
   "theorems": [
    "C32_neighbour_relation"
   ],
   "note": "float64, for every sine that is odd up to the sign of zero"
  },
  {
   "property": "C33",
   "status": "proved",
   "theorems": [
    "C33_values_and_unclassified"
   ],
   "note": "float64"
  },
  {
   "property": "C34",
   "status": "proved",
   "theorems": [
    "C34_interior_rule"
   ],
   "note": "float64"
  },
  {
   "property": "C35",
   "status": "proved",
   "theorems": [
    "C35_ends_are_always_wet"
   ],
   "note": "float64"
  },
  {
   "property": "C36",
   "status": "proved",
   "theorems": [
    "C36_F_is_complete_window_sum_exact"
   ],
   "note": "exact arithmetic (bottleneck's running float sums are not modelled)"
  },
  {
   "property": "C37",
   "status": "proved",
   "theorems": [
    "C37_haversine_total_bounded_symmetric",
    "C37_haversine_float_symmetric",
    "C37_sine_law_satisfiable",
    "C37_float_range",
    "C37_trig_laws_satisfiable",
    "C37_antipodes_are_nan_refuted"
   ],
   "note": "exact arithmetic for all points; in float64 symmetry for all points, the range for points at most 90 degrees of longitude and 60 of latitude apart and not within one degree of a pole, for every libm meeting the listed laws; without those limits the float64 result can be NaN"
  },
  {
   "property": "C38",
   "status": "proved",
   "theorems": [
    "C38_haversine_is_great_circle_metric",
    "C38_float_is_great_circle",
    "C38_accuracy_satisfiable"
   ],
   "note": "metric in exact arithmetic; in float64 within 1 cm of the great circle for every libm accurate to a few ulp, for points at most 90 degrees of longitude and 60 of latitude apart and not within one degree of a pole"
  },
  {
   "property": "C39",
   "status": "proved",
   "theorems": [
    "C39_idw_weighted_mean_exact",
    "C39_query_contract_satisfiable",
    "C39_float_range",
    "C39_float_range_refuted"
   ],
   "note": "exact arithmetic, any exponent, for every neighbour search meeting scipy's documented contract; in float64 the range holds up to 10 units in the last place per neighbour (any search, any power function with moderate values) and is refuted without that allowance"
  },
  {
   "property": "C40",
   "status": "proved",
   "theorems": [
    "C40_reproduces_data_exact",
    "C40_hit_returns_value"
   ],
   "note": "exact arithmetic; float64 given the row of neighbours"
  },
  {
   "property": "C41",
   "status": "proved",
   "theorems": [
    "C41_only_nearest_values_matter_exact",
    "C41_only_returned_values_matter"
   ],
   "note": "exact arithmetic, every neighbour search meeting the contract; in float64 for the data points any search returns"
  },
  {
   "property": "C42",
   "status": "proved",
   "theorems": [
    "C42_history_with_constant_max_distance",
    "C42_search_contract_satisfiable",
    "C42_changed_max_distance_is_ignored"
   ],
   "note": "float64; the search is any function that does not distinguish numerically equal arguments"
  },
  {
   "property": "C43",
   "status": "proved",
   "theorems": [
    "C43_interpolator_history_independent"
   ],
   "note": "float64; includes in-place changes of the arguments when exclude_nan=True"
  },
  {
   "property": "C44",
   "status": "proved",
   "theorems": [
    "C44_grid_results",
    "C44_invalid_input",
    "C44_shape",
    "C44_nan_points_have_no_influence",
    "C44_all_nan",
    "C44_unequal_lengths"
   ],
   "note": "float64"
  },
  {
   "property": "C45",
   "status": "proved",
   "theorems": [
    "C45_generated_grid_covers_exact",
    "C45_resolution_required",
    "C45_given_grid_kept",
    "C45_no_stations"
   ],
   "note": "exact arithmetic"
  },
  {
   "property": "C46",
   "status": "proved",
   "theorems": [
    "C46_variogram_exact",
    "C46_variogram_bounds_exact",
    "C46_day_of_year",
    "C46_day_of_year_counts_days",
    "C46_same_in_exact_arithmetic",
    "C46_positive_in_float",
    "C46_library_laws_satisfiable"
   ],
   "note": "exact arithmetic; positivity and nugget <= sill also in float64 for any pow and cos with weak laws shown satisfiable"
  },
  {
   "property": "C47",
   "status": "proved",
   "theorems": [
    "C47_every_sample_in_its_bin",
    "C47_at_most_one_bin",
    "C47_rejects"
   ],
   "note": "instants are integers; one column; sorted indexes"
  },
  {
   "property": "C48",
   "status": "proved",
   "theorems": [
    "C48_sums_are_conserved_exact",
    "C48_counts_are_conserved_in_float",
    "C48_left_to_right_is_exact",
    "C48_tenths_are_not_conserved_refuted"
   ],
   "note": "exact arithmetic; in binary64 for multiples of a power of two, refuted for tenths"
  },
  {
   "property": "C49",
   "status": "proved",
   "theorems": [
    "C49_naive_index_labels_are_shifted",
    "C49_naive_index_refuted"
   ],
   "note": "fixed offset zones; refutes what new_index_tz promises"
  },
  {
   "property": "C50",
   "status": "proved",
   "theorems": [
    "C50_counts_add_up",
    "C50_unequal_shapes"
   ],
   "note": "float64"
  },
  {
   "property": "C51",
   "status": "proved",
   "theorems": [
    "C51_rates_complementary_exact",
    "C51_rates_in_float"
   ],
   "note": "exact arithmetic, and binary64 for up to 2^53 pairs"
  },
  {
   "property": "C52",
   "status": "proved",
   "theorems": [
    "C52_matthews_exact",
    "C52_matthews_float",
    "C52_matthews_close",
    "C52_perfect_is_not_one_refuted"
   ],
   "note": "range in exact arithmetic; zero, NaN, not-infinite and the distance to the exact value in float64 for up to 2^26 pairs; the strict range is refuted in float64"
  },
  {
   "property": "C53",
   "status": "proved",
   "theorems": [
    "C53_threshold_is_strict",
    "C53_documented_away_from_threshold",
    "C53_documented_threshold_refuted"
   ],
   "note": "float64; refutes the docstring"
  },
  {
   "property": "C54",
   "status": "proved",
   "theorems": [
    "C54_only_valid_pairs_matter",
    "C54_errors_exact",
    "C54_real_pairs_exist",
    "C54_float_errors_any_order",
    "C54_float_errors",
    "C54_float_mae_above_rmse_refuted"
   ],
   "note": "dependence on valid pairs in float64, the inequalities in exact arithmetic; distance of the float64 metrics to the exact ones for up to 2^20 valid pairs and any order of summation; MAE <= RMSE is refuted in float64"
  },
  {
   "property": "C55",
   "status": "proved",
   "theorems": [
    "C55_deprecated_rates_agree"
   ],
   "note": "float64"
  },
  {
   "property": "C56",
   "status": "proved",
   "theorems": [
    "C56_merge_is_python_binding",
    "C56_python_call"
   ],
   "note": "Signatures of positional-or-keyword parameters with distinct names (all wrapped functions). The binding is a declarative record, also shown equal to the modelled Python call."
  },
  {
   "property": "C57",
   "status": "proved",
   "theorems": [
    "C57_unknown_keyword_ignored",
    "C57_given_twice_keyword_ignored",
    "C57_surplus_ignored",
    "C57_missing_passed_on",
    "C57_without_time_rejected"
   ],
   "note": "A missing required argument reaches the function as inspect.Parameter.empty; whether it then fails is up to the function."
  },
  {
   "property": "C58",
   "status": "proved",
   "theorems": [
    "C58_each_series_separately",
    "C58_no_series_skipped",
    "C58_other_length_rejected",
    "C58_later_results_stretched",
    "C58_first_result_fixes_length",
    "C58_later_length_rejected"
   ],
   "note": "apply_ufunc(vectorize=True) is modelled on sizes and row-major data; coordinate labels, dtypes and numpy arrays mixed with DataArrays are not. Non-empty other dimensions."
  },
  {
   "property": "C59",
   "status": "proved",
   "theorems": [
    "C59_blackout_start_end_with_time",
    "C59_tuples_never_work"
   ],
   "note": "np.vectorize's check of the number of outputs is part of the model."
  },
  {
   "property": "C60",
   "status": "proved",
   "theorems": [
    "C60_rows_of_rg_and_rad",
    "C60_rows_of_online_models",
    "C60_rejects"
   ],
   "note": "float64 (any number type with the laws of numsem); the pickled models are an arbitrary function of one row. With bottleneck installed rg and rad already reject series shorter than 361 steps (rolling median)."
  },
  {
   "property": "C61",
   "status": "proved",
   "theorems": [
    "C61_online_models_are_causal"
   ],
   "note": "float64"
  },
  {
   "property": "C62",
   "status": "proved",
   "theorems": [
    "C62_predictions_at_window_end",
    "C62_no_window_anywhere"
   ],
   "note": "Any number type (the code mixes float32 and float64); the network is an arbitrary function of one window, so batching is not modelled. seq_len >= 1, variables present."
  },
  {
   "property": "C63",
   "status": "proved",
   "theorems": [
    "C63_cells_and_predictions",
    "C63_rejects"
   ],
   "note": "any number type"
  },
  {
   "property": "C64",
   "status": "proved",
   "theorems": [
    "C64_scaling_exact",
    "C64_features_independent",
    "C64_too_many_variables"
   ],
   "note": "Exact arithmetic. StandardScaler is modelled from scikit-learn's documented algorithm (it is a dependency, not part of the repository)."
  },
  {
   "property": "C65",
   "status": "proved",
   "theorems": [
    "C65_file_name_is_last_component",
    "C65_content_of_last_download",
    "C65_when_it_downloads",
    "C65_other_url_refuted",
    "C65_json_and_weights_with_one_name",
    "C65_trailing_slash_is_a_directory",
    "C65_local_files"
   ],
   "note": "Histories start without a cache directory; the network's behaviour is arbitrary. Three theorems go further: a JSON and a weights URL with the same file name resolve to one file, a URL ending in a slash resolves to the cache directory without a download, and local files are used as given."
  },
  {
   "property": "C66",
   "status": "proved",
   "theorems": [
    "C66_tf_truncated_file_stays",
    "C66_torch_truncated_file_stays",
    "C66_torch_model_unusable_until_forced",
    "C66_tf_without_crash_complete",
    "C66_torch_without_crash_complete"
   ],
   "note": "An interruption leaves an arbitrary content; md5 and torch.jit.load are arbitrary functions."
  },
  {
   "property": "C67",
   "status": "proved",
   "theorems": [
    "C67_windows_and_targets",
    "C67_targets_distinct_or_shared",
    "C67_rejects"
   ],
   "note": "reflength is an integer with |reflength| <= 2^53 (so int(reflength / 2) is exact)."
  },
  {
   "property": "C68",
   "status": "proved",
   "theorems": [
    "C68_predictions_at_target_time",
    "C68_rejects"
   ],
   "note": "Any number type; the network acts on each sample separately and returns one number per sample. Data with dimensions cml_id, time, channel (time before channel)."
  },
  {
   "property": "C69",
   "status": "proved",
   "theorems": [
    "C69_batch_size_irrelevant"
   ],
   "note": ""
  },
  {
   "property": "C70",
   "status": "proved",
   "theorems": [
    "C70_default_listing_misses_models",
    "C70_star_listing_finds_them",
    "C70_list_cached_models_refuted",
    "C70_empty_suffix",
    "C70_question_mark",
    "C70_question_mark_then"
   ],
   "note": "Glob patterns with * and ? only. Refutes the docstring."
  },
  {
   "property": "C71",
   "status": "proved",
   "theorems": [
    "C71_urls_go_through_the_cache",
    "C71_local_paths",
    "C71_others_rejected"
   ],
   "note": "The two Exception branches are one error value."
  },
  {
   "property": "C72",
   "status": "proved",
   "theorems": [
    "C72_content_of_last_download",
    "C72_when_it_downloads",
    "C72_clearing_forces_download",
    "C72_second_call_does_not_download",
    "C72_subdirectory_stops_clearing"
   ],
   "note": "Histories start without a cache directory; one process."
  },
  {
   "property": "C73",
   "status": "proved",
   "theorems": [
    "C73_scores_and_flags",
    "C73_missing_is_dry",
    "C73_negative_bounds"
   ],
   "note": "any number type satisfying the rounding laws (binary64 and exact reals are instances); specgram is an oracle"
  },
  {
   "property": "C74",
   "status": "proved",
   "theorems": [
    "C74_mirror_always_fails",
    "C74_mirror_type_error",
    "C74_mirror_supplied",
    "C74_spectrogram_without_frequencies",
    "C74_spectrogram_too_long",
    "C74_bad_combination"
   ],
   "note": "specgram is an oracle that may raise"
  },
  {
   "property": "C75",
   "status": "proved",
   "theorems": [
    "C75_lowest_std",
    "C75_found",
    "C75_no_window",
    "C75_find_removed",
    "C75_negative_window",
    "C75_slice_shifted_by_one",
    "C75_first_window_all_dry"
   ],
   "note": "the standard deviation of one full window is an oracle; whether mlab.find exists is a parameter"
  },
  {
   "property": "C76",
   "status": "proved",
   "theorems": [
    "C76_bounding_box_is_enough",
    "C76_no_positive_weight",
    "C76_no_data"
   ],
   "note": "any number type satisfying the rounding laws; sums left to right; the intersection weights are an argument"
  },
  {
   "property": "C77",
   "status": "proved",
   "theorems": [
    "C77_union_of_buffers",
    "C77_exact_discs_grow",
    "C77_exact_disc_exists",
    "C77_smaller_ygrid",
    "C77_cascaded_union_removed"
   ],
   "note": "membership in one link's buffer is an oracle; growth in the distance is for exact real discs"
  },
  {
   "property": "C78",
   "status": "proved",
   "theorems": [
    "C78_transparent",
    "C78_ignored",
    "C78_error_filter",
    "C78_unnamed",
    "C78_loop",
    "C78_once_filter"
   ],
   "note": "warnings.warn_explicit is modelled with the filter lookup as an oracle"
  },
  {
   "property": "C79",
   "status": "proved",
   "theorems": [
    "C79_every_link_and_channel",
    "C79_empty_file",
    "C79_bad_link",
    "C79_ok_or_bad"
   ],
   "note": "the file has the cmlh5 layout; the conversion of a float to datetime64 is an oracle; xr.concat is modelled with its defaults"
  },
  {
   "property": "C80",
   "status": "proved",
   "theorems": [
    "C80_imported_at_most_once",
    "C80_installs_only_if_permitted",
    "C80_not_permitted"
   ],
   "note": "What the imports, pip and nvidia-smi do in each call is arbitrary; one process, one thread."
  },
  {
   "property": "C81",
   "status": "proved",
   "theorems": [
    "C81_str_pol_with_several_frequencies_raises",
    "C81_documented_expansion_refuted"
   ],
   "note": "refutes the docstring"
  },
  {
   "property": "C82",
   "status": "proved",
   "theorems": [
    "C82_frequency_array_all_or_nothing",
    "C82_frequency_array_elementwise"
   ],
   "note": "float64, any interpolator and any pow"
  },
  {
   "property": "C83",
   "status": "proved",
   "theorems": [
    "C83_pastorek_scalar_rain_raises",
    "C83_leijnse_scalar_rain_raises",
    "C83_leijnse_shapes"
   ],
   "note": "contradicts the docstrings"
  },
  {
   "property": "C84",
   "status": "proved",
   "theorems": [
    "C84_leijnse_zero_rain"
   ],
   "note": "exact complex arithmetic"
  },
  {
   "property": "C85",
   "status": "proved",
   "theorems": [
    "C85_water_permittivity",
    "C85_double_debye"
   ],
   "note": "exact complex arithmetic"
  },
  {
   "property": "C86",
   "status": "proved",
   "theorems": [
    "C86_overwritten_query_points_stale",
    "C86_overwritten_coordinates_stale"
   ],
   "note": "float64"
  },
  {
   "property": "C87",
   "status": "proved",
   "theorems": [
    "C87_all_pairs_counts_rows",
    "C87_number_of_all_pairs_refuted"
   ],
   "note": "float64; refutes the docstring"
  },
  {
   "property": "C88",
   "status": "proved",
   "theorems": [
    "C88_pearson_range",
    "C88_pearson_exact",
    "C88_no_variation_means_constant"
   ],
   "note": "range in float64, the rest in exact arithmetic"
  },
  {
   "property": "C89",
   "status": "proved",
   "theorems": [
    "C89_rmse_decomposition_exact",
    "C89_bias_float",
    "C89_bias_above_mae_refuted"
   ],
   "note": "decomposition in exact arithmetic; bias also in binary64"
  },
  {
   "property": "C90",
   "status": "proved",
   "theorems": [
    "C90_rain_metrics_with_threshold_zero"
   ],
   "note": "float64"
  },
  {
   "property": "C91",
   "status": "proved",
   "theorems": [
    "C91_rain_of_false_and_missed_wet_exact",
    "C91_float_rain_of_false_and_missed_wet",
    "C91_float_mean_above_threshold_refuted"
   ],
   "note": "exact arithmetic; in float64 up to rounding, and refuted for the reported mean itself"
  },
  {
   "property": "C92",
   "status": "proved",
   "theorems": [
    "C92_right_labels",
    "C92_left_labels",
    "C92_owner_right",
    "C92_owner_left",
    "C92_rejects"
   ],
   "note": "one column; localising does not raise"
  },
  {
   "property": "C93",
   "status": "proved",
   "theorems": [
    "C93_leijnse_is_transmission_loss"
   ],
   "note": "exact complex arithmetic; normal incidence on plane layers; refractive indices with positive real and non-negative imaginary part"
  },
  {
   "property": "C94",
   "status": "proved",
   "theorems": [
    "C94_leijnse_lookup"
   ],
   "note": "exact arithmetic; the interval search of np.interp is any search that returns an interval containing the point; cubic spline oracle as in C12"
  },
  {
   "property": "C95",
   "status": "proved",
   "theorems": [
    "C95_solver_sees_valid_points_and_grid",
    "C95_nan_points_have_no_influence",
    "C95_history_independent",
    "C95_sigma_stays_from_earlier_call"
   ],
   "note": "pykrige is an oracle; warnings and backend choice are not modelled"
  },
  {
   "property": "C96",
   "status": "proved",
   "theorems": [
    "C96_integer_grid_without_data_raises",
    "C96_integer_grid_with_data",
    "C96_idw_is_an_instance"
   ],
   "note": "any interpolation function; the result of the last theorem links it to the IDW model"
  },
  {
   "property": "C97",
   "status": "proved",
   "theorems": [
    "C97_link_dimension_must_be_cml_id",
    "C97_named_cml_id",
    "C97_other_coordinate_is_read_as_cml_id",
    "C97_only_foreign_links",
    "C97_unknown_coordinate"
   ],
   "note": "coordinates hold strings; model loading and TensorFlow import are oracles"
  },
  {
   "property": "C98",
   "status": "proved",
   "theorems": [
    "C98_new_variable",
    "C98_existing_variable",
    "C98_rerun_is_idempotent",
    "C98_rerun_on_subset_conflicts"
   ],
   "note": "xr.merge is modelled with compat no_conflicts; variables have dimensions (link, time)"
  },
  {
   "property": "C99",
   "status": "proved",
   "theorems": [
    "C99_units_do_not_matter",
    "C99_depends_on_other_links",
    "C99_depends_on_the_future"
   ],
   "note": "invariance in exact arithmetic; the dependence witnesses are binary64 runs"
  },
  {
   "property": "C100",
   "status": "proved",
   "theorems": [
    "C100_total",
    "C100_frequency",
    "C100_dry_is_zero",
    "C100_clipping_has_no_effect",
    "C100_clipping_not_required",
    "C100_causal"
   ],
   "note": "binary64; pow is an oracle with pow_sane / pow_zero (proved for the correctly rounded library); one channel; wet flags are given"
  },
  {
   "property": "C101",
   "status": "proved",
   "theorems": [
    "C101_waa_lowers_rain",
    "C101_negative_waa_raises_rain",
    "C101_rain_below_baseline",
    "C101_pow_laws_hold"
   ],
   "note": "binary64; pow non-negative and monotone (proved for the correctly rounded library); witnesses use exponents 1/2"
  },
  {
   "property": "C102",
   "status": "proved",
   "theorems": [
    "C102_classification",
    "C102_reference_level",
    "C102_rain_rate"
   ],
   "note": "exact arithmetic (binary64 rounds the shifted levels differently); any libm"
  },
  {
   "property": "C103",
   "status": "proved",
   "theorems": [
    "C103_constant_baseline",
    "C103_chain",
    "C103_linear_baseline",
    "C103_linear_baseline_refuted"
   ],
   "note": "exact arithmetic; the refuted part holds for every non-zero offset"
  },
  {
   "property": "C104",
   "status": "proved",
   "theorems": [
    "C104_complete_data",
    "C104_even_offset",
    "C104_odd_offset_refuted"
   ],
   "note": "invariance in exact arithmetic; the refuting witness is a binary64 run"
  },
  {
   "property": "C105",
   "status": "proved",
   "theorems": [
    "C105_only_neighbours_matter",
    "C105_order_of_links"
   ],
   "note": "binary64; signed zeros of F may differ, all else is equal; link lengths are not zero"
  },
  {
   "property": "C106",
   "status": "proved",
   "theorems": [
    "C106_integer_coordinates",
    "C106_grid_covers_stations_refuted",
    "C106_coordinates_never_decrease",
    "C106_missing_first_coordinate",
    "C106_later_missing_coordinates_ignored",
    "C106_no_stations",
    "C106_no_ordinates",
    "C106_resolution_required",
    "C106_float_nearly_covers",
    "C106_float_degrees"
   ],
   "note": "binary64; np.arange modelled after numpy's C code; at most 2^53 coordinates"
  },
  {
   "property": "C107",
   "status": "proved",
   "theorems": [
    "C107_order_of_pairs",
    "C107_order_of_pairs_exact",
    "C107_order_of_pairs_float_refuted",
    "C107_order_of_pairs_float_close",
    "C107_exchange",
    "C107_matthews_exchange_exact"
   ],
   "note": "order and exchange of counts in binary64, order of the rain errors and Matthews exchange in exact arithmetic, the former up to rounding also in binary64 (at most 2^20 valid pairs of at most 2^200); at most 2^53 pairs for the exchange"
  },
  {
   "property": "C108",
   "status": "proved",
   "theorems": [
    "C108_unit_of_rain_rate_exact",
    "C108_power_of_two",
    "C108_other_factors_refuted",
    "C108_tiny_rates_refuted"
   ],
   "note": "exact arithmetic with infinities and NaN for all factors; binary64, bit by bit, for powers of two and sums from left to right"
  },
  {
   "property": "C109",
   "status": "proved",
   "theorems": [
    "C109_only_distances_matter_exact",
    "C109_moved_network_exact",
    "C109_order_of_stations_exact",
    "C109_ties_depend_on_the_order_refuted",
    "C109_unit_of_coordinates_exact"
   ],
   "note": "exact arithmetic; scipy's k-d tree query is an oracle with a contract; the tie witness is a binary64 run with a brute force search"
  },
  {
   "property": "C110",
   "status": "proved",
   "theorems": [
    "C110_linear_and_monotone_exact",
    "C110_monotone",
    "C110_shift_refuted",
    "C110_linear_float"
   ],
   "note": "exact arithmetic, scipy's k-d tree query being an oracle with a contract; monotone in float64 too, for non-negative weights; linearity (a shift) is refuted bit by bit in float64 and proved up to rounding under the conditions of C152"
  },
  {
   "property": "C111",
   "status": "proved",
   "theorems": [
    "C111_constant_ignores_wet_levels",
    "C111_linear_ignores_wet_levels",
    "C111_constant_idempotent",
    "C111_linear_idempotent_exact",
    "C111_linear_idempotent_refuted"
   ],
   "note": "binary64, except that baseline_linear is idempotent in exact arithmetic"
  },
  {
   "property": "C112",
   "status": "proved",
   "theorems": [
    "C112_constant_is_linear_exact",
    "C112_linear_is_linear_exact",
    "C112_constant_monotone_exact",
    "C112_constant_monotone",
    "C112_linear_monotone_exact",
    "C112_linear_reversible_exact"
   ],
   "note": "exact arithmetic, finite levels; the order of baseline_constant also in binary64"
  },
  {
   "property": "C113",
   "status": "proved",
   "theorems": [
    "C113_dry_step_forgets",
    "C113_scaling_exact",
    "C113_monotone_exact"
   ],
   "note": "memory in binary64, scaling and order in exact arithmetic"
  },
  {
   "property": "C114",
   "status": "proved",
   "theorems": [
    "C114_chain_can_be_restarted",
    "C114_restart_in_event_refuted"
   ],
   "note": "binary64; any pow; one channel; wet flags are given"
  },
  {
   "property": "C115",
   "status": "proved",
   "theorems": [
    "C115_never_missing",
    "C115_schleiss_never_missing",
    "C115_pastorek_chain_exact",
    "C115_leijnse_chain_exact"
   ],
   "note": "never missing in binary64 with pow as an oracle (laws proved for the correctly rounded library), the two table methods in exact arithmetic; Leijnse assumes that the last tabulated observed attenuation is not negative; one channel; wet flags are given"
  },
  {
   "property": "C116",
   "status": "proved",
   "theorems": [
    "C116_rain_rates",
    "C116_pow_law_satisfiable",
    "C116_final_after_two_steps",
    "C116_last_two_steps_refuted"
   ],
   "note": "binary64; pow is an oracle with three laws (proved for the correctly rounded library), no law for the second part; one channel; distances and coefficients as in C32-C36 and C23"
  },
  {
   "property": "C117",
   "status": "proved",
   "theorems": [
    "C117_counts_add",
    "C117_rates_between",
    "C117_matthews_between_refuted",
    "C117_sums_add_exact",
    "C117_errors_are_weighted_exact",
    "C117_float_errors_are_weighted",
    "C117_float_mae_between_refuted"
   ],
   "note": "counts and rates in binary64, rain errors in exact arithmetic and up to rounding in binary64; one-dimensional arrays; the weighted averages need a valid pair in each part"
  },
  {
   "property": "C118",
   "status": "proved",
   "theorems": [
    "C118_two_steps",
    "C118_sum_is_poolable_exact",
    "C118_maximum_is_poolable",
    "C118_gap_refuted",
    "C118_late_start_refuted",
    "C118_mean_refuted_exact",
    "C118_sums_in_float",
    "C118_counts_in_float",
    "C118_tenths_refuted"
   ],
   "note": "values of any type; poolability of sum and mean in exact arithmetic, sums also in binary64 with their rounding error"
  },
  {
   "property": "C119",
   "status": "proved",
   "theorems": [
    "C119_longer_link_less_rain",
    "C119_longer_link_less_rain_exact",
    "C119_threshold",
    "C119_only_the_product_matters",
    "C119_attenuation_per_length_exact",
    "C119_homogeneous_exact",
    "C119_exponent_exact"
   ],
   "note": "float64; scaling laws in exact arithmetic"
  },
  {
   "property": "C120",
   "status": "proved",
   "theorems": [
    "C120_ends_do_not_matter",
    "C120_classification_and_rain",
    "C120_larger_radius",
    "C120_missing_coordinate",
    "C120_nan_law_satisfiable",
    "C120_origin_of_longitudes_exact",
    "C120_full_turn_exact"
   ],
   "note": "float64; longitudes in exact arithmetic"
  },
  {
   "property": "C121",
   "status": "proved",
   "theorems": [
    "C121_only_short_gaps_are_filled",
    "C121_filled_on_line_exact",
    "C121_total",
    "C121_rain_needs_complete_window",
    "C121_missing_iff_loss_missing",
    "C121_long_average_refuted",
    "C121_later_data",
    "C121_last_steps_refuted"
   ],
   "note": "binary64, straight line in exact arithmetic; the standard deviation of a complete window and pow are oracles (pow with the laws of C100); xarray where, interpolate_na and rolling are modelled as documented; one channel"
  },
  {
   "property": "C122",
   "status": "proved",
   "theorems": [
    "C122_map_exists",
    "C122_assumptions_satisfiable",
    "C122_unreliable_links_left_out",
    "C122_fractions_add_exact",
    "C122_channels_refuted",
    "C122_silent_link",
    "C122_more_rain_more_map"
   ],
   "note": "binary64, additivity of the wet fraction in exact arithmetic; standard deviation, pow and the neighbour search are oracles with satisfiable laws; xarray resample.mean, sum and where are modelled as documented, grid given"
  },
  {
   "property": "C123",
   "status": "proved",
   "theorems": [
    "C123_mask_of_raw_levels",
    "C123_reversed_record",
    "C123_single_scan_refuted",
    "C123_threshold",
    "C123_plotted_gaps",
    "C123_no_gap_refuted",
    "C123_documented_choice_refuted"
   ],
   "note": "binary64; times in integer nanoseconds; xarray where and numpy's boolean indexing are modelled as documented"
  },
  {
   "property": "C124",
   "status": "proved",
   "theorems": [
    "C124_shaded_periods",
    "C124_open_ends_refuted",
    "C124_cleared_ends",
    "C124_workflow_flags",
    "C124_other_channel_refuted"
   ],
   "note": "flags are booleans; np.roll as in C09; drawing itself is not modelled"
  },
  {
   "property": "C125",
   "status": "proved",
   "theorems": [
    "C125_total",
    "C125_flag_rule",
    "C125_wet_needs_window",
    "C125_wet_needs_window_online",
    "C125_online_is_causal",
    "C125_offline_not_causal_refuted",
    "C125_offset_exact",
    "C125_flag_is_larger_output"
   ],
   "note": "binary64, offsets in exact arithmetic; the pickled models are an oracle for one row, as in C60; numpy's argmax as documented (the first NaN wins); one CML with two channels"
  },
  {
   "property": "C126",
   "status": "proved",
   "theorems": [
    "C126_timestamps_never_match_refuted",
    "C126_pairs_of_the_same_second",
    "C126_second_call_refuted"
   ],
   "note": "pandas' correlation is an oracle; both ways of joining texts with timestamps are modelled; a formatted time is represented by its second"
  },
  {
   "property": "C127",
   "status": "proved",
   "theorems": [
    "C127_flags",
    "C127_wet_needs_window",
    "C127_links_are_independent",
    "C127_offset_exact",
    "C127_later_samples_matter_refuted"
   ],
   "note": "binary64, offsets in exact arithmetic; the network is an oracle that treats samples separately; xarray where, interpolate_na and median are modelled as documented"
  },
  {
   "property": "C128",
   "status": "proved",
   "theorems": [
    "C128_where_predicted",
    "C128_fails_without_data",
    "C128_value_needs_window"
   ],
   "note": "binary64; the network is an oracle; xarray where and interpolate_na are modelled as documented"
  },
  {
   "property": "C129",
   "status": "proved",
   "theorems": [
    "C129_running_sum_exact",
    "C129_same_as_window_sums_exact",
    "C129_infinity_refuted",
    "C129_float_running_sum",
    "C129_float_window_only_refuted"
   ],
   "note": "exact arithmetic and binary64; bottleneck's move_sum is library code, modelled from its documented algorithm; the multiplication with interval/60 that follows is in C36"
  },
  {
   "property": "C130",
   "status": "proved",
   "theorems": [
    "C130_gain_exact",
    "C130_offset_refuted",
    "C130_dry_period_exact",
    "C130_window_scale_exact",
    "C130_sampling_rate_exact",
    "C130_missing_sample",
    "C130_reach",
    "C130_dry_scores_exact",
    "C130_one_band_is_dry",
    "C130_equal_columns_are_dry_exact",
    "C130_short_record_is_dry_exact",
    "C130_constant_level_is_dry_exact",
    "C130_total_power_exact",
    "C130_tone_exact",
    "C130_default_window"
   ],
   "note": "exact arithmetic, the Fourier sum instead of the FFT; one empty band also in float64"
  },
  {
   "property": "C131",
   "status": "proved",
   "theorems": [
    "C131_coefficients_bounded_and_ordered",
    "C131_order_at_low_frequencies_refuted",
    "C131_light_rain_exact"
   ],
   "note": "exact arithmetic; the interpolator is scipy's not-a-knot cubic spline, which is unique (C24)"
  },
  {
   "property": "C132",
   "status": "proved",
   "theorems": [
    "C132_kriging_system_exact",
    "C132_assumptions_satisfiable",
    "C132_constant_exact",
    "C132_reproduces_data_exact",
    "C132_linear_exact",
    "C132_far_from_stations_exact",
    "C132_only_distances_matter_exact",
    "C132_order_of_stations_exact",
    "C132_only_nugget_ratio_matters_exact",
    "C132_unit_of_length_exact",
    "C132_short_range_gives_mean_exact",
    "C132_season_enters_through_range_exact",
    "C132_variance_exact",
    "C132_single_station_raises",
    "C132_two_stations_at_one_place_raise_exact",
    "C132_negative_rain_refuted"
   ],
   "note": "exact arithmetic; pykrige is library code, modelled from its algorithm; the matrix inverse is any exact one, which exists"
  },
  {
   "property": "C133",
   "status": "proved",
   "theorems": [
    "C133_spherical_negative_definite_exact",
    "C133_always_works_exact",
    "C133_climatological_variogram_works_exact",
    "C133_minimum_variance_exact",
    "C133_variance_bounds_exact",
    "C133_strictly_positive_definite_exact",
    "C133_works_exactly_if_exact",
    "C133_only_minimum_exact"
   ],
   "note": "exact arithmetic; pykrige is library code, modelled from its algorithm; that the spherical correlation is positive definite in the plane is proved from scratch"
  },
  {
   "property": "C134",
   "status": "proved",
   "theorems": [
    "C134_assumptions_satisfiable",
    "C134_kriging_of_nearest_exact",
    "C134_spherical_always_works_exact",
    "C134_distinct_places_work_exact",
    "C134_all_stations_exact",
    "C134_constant_exact",
    "C134_reproduces_data_exact",
    "C134_variance_not_smaller_exact",
    "C134_two_nearest_bounds_exact",
    "C134_three_nearest_negative_refuted",
    "C134_less_than_two_raises"
   ],
   "note": "exact arithmetic; pykrige's moving window is library code, modelled from its algorithm; more neighbours than valid stations is outside the model (the C backend reads out of bounds); two-neighbour bounds for grid points exactly at a station or farther than 1e-10 from it"
  },
  {
   "property": "C135",
   "status": "proved",
   "theorems": [
    "C135_weights_exist",
    "C135_ends_inside_exact",
    "C135_weighted_sum_exact",
    "C135_uniform_rain_exact",
    "C135_between_exact",
    "C135_missing_pixel_is_zero_exact",
    "C135_along_edge_refuted",
    "C135_outside_raises_exact",
    "C135_direction_exact"
   ],
   "note": "exact arithmetic; poligrain's calc_intersect_weights is an oracle specified by the share of the path in each pixel; rectilinear grids"
  },
  {
   "property": "C136",
   "status": "proved",
   "theorems": [
    "C136_correlation_of_one_exact",
    "C136_correlation_recalibrated_exact",
    "C136_offset_exact",
    "C136_best_offset_exact",
    "C136_triangle_exact",
    "C136_triangle_with_gaps_refuted",
    "C136_constant_series_correlate_refuted",
    "C136_perfect_below_one_refuted",
    "C136_triangle_float",
    "C136_triangle_rounded_refuted"
   ],
   "note": "exact arithmetic, the triangle inequality also in float64; the float64 counterexamples are for sums of three terms taken from left to right"
  },
  {
   "property": "C137",
   "status": "proved",
   "theorems": [
    "C137_missing_station_spreads",
    "C137_variance_hides_it",
    "C137_nearest_only"
   ],
   "note": "binary64; pykrige is library code, modelled from its algorithm; inverse, solver and neighbour search only need to return the right number of entries"
  },
  {
   "property": "C138",
   "status": "proved",
   "theorems": [
    "C138_exact_run_exists",
    "C138_float_chain",
    "C138_power_laws_satisfiable"
   ],
   "note": "binary64; records without missing losses; coefficients given as numbers (from a frequency: C100_frequency); the power function's accuracy and monotonicity are hypotheses that a correctly rounded one meets"
  },
  {
   "property": "C139",
   "status": "proved",
   "theorems": [
    "C139_constant_baseline_exact",
    "C139_linear_baseline_exact",
    "C139_attenuation_exact",
    "C139_float_chain",
    "C139_bound_is_sharp",
    "C139_idw_exact"
   ],
   "note": "the same flags for both records (the flags themselves can change with the smallest error); complete records; C138_exact_run_exists gives the exact runs"
  },
  {
   "property": "C140",
   "status": "proved",
   "theorems": [
    "C140_bins_exist",
    "C140_levels",
    "C140_filled_exact",
    "C140_extremes",
    "C140_corrected_in_order",
    "C140_rain_rates",
    "C140_final"
   ],
   "note": "binary64, filled values in exact arithmetic; xarray's where, interpolate_na and resample are modelled as documented; whole seconds because then the float64 times are exact; one channel"
  },
  {
   "property": "C141",
   "status": "proved",
   "theorems": [
    "C141_minority",
    "C141_half_refuted",
    "C141_reference_errors_exact",
    "C141_rain_errors_exact",
    "C141_rain_errors_sharp_exact"
   ],
   "note": "the minority statement in binary64 (with the median's rounding), the error bounds in exact arithmetic; the wet flags are an input and are kept the same"
  },
  {
   "property": "C142",
   "status": "proved",
   "theorems": [
    "C142_wet_thresholds",
    "C142_blackout_threshold",
    "C142_wet_antenna_parameters_exact",
    "C142_nearby_parameters_exact",
    "C142_outlier_threshold",
    "C142_more_wet_more_rain_refuted"
   ],
   "note": "thresholds in binary64, correction parameters in exact arithmetic"
  },
  {
   "property": "C143",
   "status": "proved",
   "theorems": [
    "C143_errors_exact",
    "C143_errors_sharp_exact",
    "C143_errors_float",
    "C143_rates_exact",
    "C143_correlation_refuted"
   ],
   "note": "exact arithmetic; errors and means also in binary64 with rounding (at most 2^20 valid pairs of at most 2^200); C54 and C91 bound the rounding of one run"
  },
  {
   "property": "C144",
   "status": "proved",
   "theorems": [
    "C144_power_zero_exact",
    "C144_influence_exact",
    "C144_nearest_bound_exact",
    "C144_nearest_limit_exact",
    "C144_continuous_refuted",
    "C144_power_zero_float",
    "C144_influence_float",
    "C144_nearest_bound_float"
   ],
   "note": "exact arithmetic, and in binary64 up to rounding under the conditions of C152 (0 <= p <= 4, no near ties); the k-d tree query is an oracle with scipy's contract, as in C39"
  },
  {
   "property": "C145",
   "status": "proved",
   "theorems": [
    "C145_sums_exact",
    "C145_reference_exact",
    "C145_means_exact",
    "C145_sum_below_mean_exact",
    "C145_gap_is_dry",
    "C145_nested_sums_exact",
    "C145_nested_means_refuted",
    "C145_accumulation_exact",
    "C145_accumulation_grows",
    "C145_curve_exact",
    "C145_curve_order_exact",
    "C145_sums_float",
    "C145_sums_float_any_order",
    "C145_means_float",
    "C145_means_float_any_order",
    "C145_accumulation_float"
   ],
   "note": "sums from left to right (numpy adds pairwise; no difference in exact arithmetic; in float64 sums and means also in any order); reindex_like not modelled"
  },
  {
   "property": "C146",
   "status": "proved",
   "theorems": [
    "C146_baseline",
    "C146_chain",
    "C146_nearby_classification",
    "C146_nearby_rain",
    "C146_reference_level",
    "C146_mean_of_three_refuted",
    "C146_tenths_refuted",
    "C146_tenths_flags_refuted"
   ],
   "note": "binary64 counterpart of C102 and C103; the levels contain no -0.0 (adding 0.0 would turn it into 0.0)"
  },
  {
   "property": "C147",
   "status": "proved",
   "theorems": [
    "C147_rules_agree",
    "C147_range_removes_more",
    "C147_other_values_pass",
    "C147_order_available_exact",
    "C147_same_gaps_exact",
    "C147_measured_exact",
    "C147_gap_bound_exact",
    "C147_order_refuted"
   ],
   "note": "one channel; float64 levels; interpolation as in C121 and C140"
  },
  {
   "property": "C148",
   "status": "proved",
   "theorems": [
    "C148_wet_flags_and_scores",
    "C148_rain_rates",
    "C148_pieces",
    "C148_wet_step_before_refuted",
    "C148_rain_step_before_refuted"
   ],
   "note": "window sums as in C36; the calls of the notebook chained as in C116"
  },
  {
   "property": "C149",
   "status": "proved",
   "theorems": [
    "C149_only_the_window",
    "C149_gaps_refuted",
    "C149_zero_iff_quiet",
    "C149_quiet_is_dry",
    "C149_monotone",
    "C149_exact_excess"
   ],
   "note": "the two functions called one after the other with scalar a and b; laws of the power function as hypotheses, met by the correctly rounded one (C101)"
  },
  {
   "property": "C150",
   "status": "proved",
   "theorems": [
    "C150_no_rounding_error",
    "C150_even_offset",
    "C150_complete_data",
    "C150_tenths_refuted"
   ],
   "note": "binary64 counterpart of C104; equality is that of numbers, so 0.0 and -0.0 count as equal; the sum of the mean is taken from left to right, but being exact it does not depend on the order"
  },
  {
   "property": "C151",
   "status": "proved",
   "theorems": [
    "C151_only_computed_distances_matter",
    "C151_order_of_stations",
    "C151_reflections",
    "C151_moved_map",
    "C151_search_contract_satisfiable",
    "C151_moved_tenths_refuted"
   ],
   "note": "binary64 counterpart of C109; scipy's cKDTree is a parameter with the contract search_ok (orders and cuts off by squared distances, returns square roots), met by a plain search; equal computed distances are excluded, as in C109"
  },
  {
   "property": "C152",
   "status": "proved",
   "theorems": [
    "C152_float_map_close",
    "C152_same_neighbours",
    "C152_accurate_power_exists"
   ],
   "note": "links the exact theorems about inverse distance weighting (C39-C41, C109, C110, C144) with the code in float64; scipy's cKDTree is a parameter with the contract search_ok (C151), pow one with pow_accurate"
  }
 ]
}
