{
 "claims": [
  {
   "property": "C01",
   "status": "proved",
   "theorems": [
    "C01_init_validation",
    "C01_rejected_init_changes_nothing"
   ],
   "note": ""
  },
  {
   "property": "C02",
   "status": "proved",
   "theorems": [
    "C02_nan_parameters"
   ],
   "note": "Exact characterisation of success, NaN parameters included."
  },
  {
   "property": "C03",
   "status": "proved",
   "theorems": [
    "C03_state_after_init"
   ],
   "note": ""
  },
  {
   "property": "C04",
   "status": "proved",
   "theorems": [
    "C04_init_alloc_failure",
    "C04_failed_allocation_leaks_nothing"
   ],
   "note": ""
  },
  {
   "property": "C05",
   "status": "proved",
   "theorems": [
    "C05_unfitted_never_flags"
   ],
   "note": ""
  },
  {
   "property": "C06",
   "status": "proved",
   "theorems": [
    "C06_nan_observation"
   ],
   "note": ""
  },
  {
   "property": "C07",
   "status": "proved",
   "theorems": [
    "C07_anomaly_rule"
   ],
   "note": ""
  },
  {
   "property": "C08",
   "status": "proved",
   "theorems": [
    "C08_excess_rule"
   ],
   "note": ""
  },
  {
   "property": "C09",
   "status": "proved",
   "theorems": [
    "C09_outcome_effects",
    "C09_excess_window"
   ],
   "note": ""
  },
  {
   "property": "C10",
   "status": "proved",
   "theorems": [
    "C10_classification_monotone"
   ],
   "note": ""
  },
  {
   "property": "C11",
   "status": "proved",
   "theorems": [
    "C11_counters"
   ],
   "note": ""
  },
  {
   "property": "C12",
   "status": "proved",
   "theorems": [
    "C12_steps_keep_configuration"
   ],
   "note": ""
  },
  {
   "property": "C13",
   "status": "proved",
   "theorems": [
    "C13_window_is_fifo"
   ],
   "note": ""
  },
  {
   "property": "C14",
   "status": "proved",
   "theorems": [
    "C14_only_undefined_behaviour_is_cast",
    "C14_memory_safety_any_interleaving"
   ],
   "note": ""
  },
  {
   "property": "C15",
   "status": "proved",
   "theorems": [
    "C15_degenerate_window_overflows",
    "C15_degenerate_fit_overflows"
   ],
   "note": ""
  },
  {
   "property": "C16",
   "status": "proved",
   "theorems": [
    "C16_min_max_exact"
   ],
   "note": ""
  },
  {
   "property": "C17",
   "status": "proved",
   "theorems": [
    "C17_mean_exact"
   ],
   "note": "Exact real arithmetic."
  },
  {
   "property": "C18",
   "status": "proved",
   "theorems": [
    "C18_second_moment_without_extreme_eviction",
    "C18_extreme_eviction_loses_second_moment",
    "C18_variance_refuted"
   ],
   "note": "Exact real arithmetic for the general claims; a binary64 run for the negative variance."
  },
  {
   "property": "C19",
   "status": "proved",
   "theorems": [
    "C19_window_values_nonnegative",
    "C19_fit_keeps_positive"
   ],
   "note": ""
  },
  {
   "property": "C20",
   "status": "proved",
   "theorems": [
    "C20_tail_fit_best_candidate"
   ],
   "note": ""
  },
  {
   "property": "C21",
   "status": "proved",
   "theorems": [
    "C21_fit_return_codes"
   ],
   "note": ""
  },
  {
   "property": "C22",
   "status": "proved",
   "theorems": [
    "C22_quantile_within_data",
    "C22_excess_threshold_within_data",
    "C22_overflow_refuted"
   ],
   "note": ""
  },
  {
   "property": "C23",
   "status": "proved",
   "theorems": [
    "C23_p2_total"
   ],
   "note": ""
  },
  {
   "property": "C24",
   "status": "proved",
   "theorems": [
    "C24_sort5"
   ],
   "note": ""
  },
  {
   "property": "C25",
   "status": "proved",
   "theorems": [
    "C25_short_batch"
   ],
   "note": ""
  },
  {
   "property": "C26",
   "status": "proved",
   "theorems": [
    "C26_refit_keeps_window",
    "C26_fit_depends_on_history_refuted"
   ],
   "note": ""
  },
  {
   "property": "C27",
   "status": "proved",
   "theorems": [
    "C27_ldexp_correctly_rounded",
    "C27_ldexp_is_ieee_scaling"
   ],
   "note": ""
  },
  {
   "property": "C28",
   "status": "proved",
   "theorems": [
    "C28_frexp_exact"
   ],
   "note": ""
  },
  {
   "property": "C29",
   "status": "proved",
   "theorems": [
    "C29_xlog_special_values",
    "C29_xlog_accuracy",
    "C29_log_continued_fraction",
    "C29_relative_accuracy_above_one_refuted",
    "C29_accuracy_at_one_quarter_refuted"
   ],
   "note": "Special values for any ldexp/frexp pair, accuracy for the built-in one."
  },
  {
   "property": "C30",
   "status": "proved",
   "theorems": [
    "C30_xexp_special_values",
    "C30_xexp_domain",
    "C30_xexp_terminates",
    "C30_xexp_accuracy",
    "C30_xexp_overflow",
    "C30_xexp_monotone_refuted",
    "C30_exp_continued_fraction"
   ],
   "note": "Accuracy and overflow for the built-in ldexp; the value on [708,710] and in the last 1100 integers below 2^32*ln 2 is not described."
  },
  {
   "property": "C31",
   "status": "proved",
   "theorems": [
    "C31_probability_of_quantile",
    "C31_quantile_of_probability",
    "C31_probability_is_pareto_tail"
   ],
   "note": "Exact real arithmetic."
  },
  {
   "property": "C32",
   "status": "proved",
   "theorems": [
    "C32_quantile_strictly_decreasing",
    "C32_quantile_beyond_threshold_iff",
    "C32_anomaly_is_beyond_excess_threshold"
   ],
   "note": "Exact real arithmetic."
  },
  {
   "property": "C33",
   "status": "proved",
   "theorems": [
    "C33_success_contract",
    "C33_no_sign_change_fails",
    "C33_at_most_202_evaluations",
    "C33_exact_arithmetic",
    "C33_root_at_right_end",
    "C33_root_at_left_end",
    "C33_nan_reported_as_root",
    "C33_sign_change_found_refuted"
   ],
   "note": "The evaluation points and the distance to a true root are in exact arithmetic; the other clauses hold in binary64. C33_sign_change_found_refuted shows that a sign change is not always found."
  },
  {
   "property": "C34",
   "status": "proved",
   "theorems": [
    "C34_messages",
    "C34_other_codes_untouched",
    "C34_data_is_nan_refuted"
   ],
   "note": ""
  },
  {
   "property": "C35",
   "status": "proved",
   "theorems": [
    "C35_bounded_copy",
    "C35_copied_meaning",
    "C35_null_buffer",
    "C35_zero_size_overflows",
    "C35_short_buffer_overflows"
   ],
   "note": ""
  },
  {
   "property": "C36",
   "status": "proved",
   "theorems": [
    "C36_init_allocates_once",
    "C36_calls_never_allocate",
    "C36_free_releases_once",
    "C36_no_leak"
   ],
   "note": ""
  },
  {
   "property": "C37",
   "status": "proved",
   "theorems": [
    "C37_double_free",
    "C37_second_free_hits_another_detector",
    "C37_free_after_rejected_init"
   ],
   "note": ""
  },
  {
   "property": "C38",
   "status": "proved",
   "theorems": [
    "C38_set_allocators",
    "C38_set_float_utils"
   ],
   "note": ""
  },
  {
   "property": "C39",
   "status": "proved",
   "theorems": [
    "C39_stream_mirror",
    "C39_quantile_mirror",
    "C39_probability_mirror",
    "C39_mirror_at_threshold_refuted",
    "C39_calibration_mirror_refuted"
   ],
   "note": "Mirror image up to the sign of a zero threshold. The two refuted theorems show that the exclusion of the threshold is needed and that calibration is not symmetric."
  },
  {
   "property": "C40",
   "status": "proved",
   "theorems": [
    "C40_blind_until_next_excess",
    "C40_silent_nan_threshold_refuted"
   ],
   "note": ""
  },
  {
   "property": "C41",
   "status": "proved",
   "theorems": [
    "C41_detectors_do_not_interfere",
    "C41_every_interleaving_is_a_detector"
   ],
   "note": ""
  },
  {
   "property": "C42",
   "status": "proved",
   "theorems": [
    "C42_extreme_updates_one_marker",
    "C42_only_new_extremes",
    "C42_monotone_batch_threshold"
   ],
   "note": ""
  },
  {
   "property": "C43",
   "status": "proved",
   "theorems": [
    "C43_fit_on_list",
    "C43_fit_on_tuple_undefined",
    "C43_fit_without_memory_undefined",
    "C43_fit_on_non_iterable",
    "C43_step",
    "C43_step_nan_returns_code",
    "C43_quantile",
    "C43_probability",
    "C43_excesses",
    "C43_uninitialised_object",
    "C43_constructor"
   ],
   "note": "The CPython functions are modelled by their documented behaviour; reference counts and re-entrancy are not modelled."
  },
  {
   "property": "C44",
   "status": "proved",
   "theorems": [
    "C44_layout",
    "C44_getters_read_the_thresholds",
    "C44_step",
    "C44_fit",
    "C44_fit_on_view_undefined",
    "C44_constructor",
    "C44_rejected_object_finaliser",
    "C44_version"
   ],
   "note": "The 32-bit counters of wasm32 are modelled with 64 bits."
  },
  {
   "property": "C45",
   "status": "proved",
   "theorems": [
    "C45_quantile_at_zero_undefined",
    "C45_probability_at_endpoint_undefined",
    "C45_quantile_defined",
    "C45_probability_defined",
    "C45_probability_exponential_tail",
    "C45_step_undefined_only_for_huge_shape",
    "C45_fit_undefined_only_for_huge_shape",
    "C45_fit_is_defined_refuted",
    "C45_step_is_defined_refuted"
   ],
   "note": "The definedness clauses are for the built-in ldexp and frexp. The two refutations show that ordinary data reach the undefined conversion."
  },
  {
   "property": "C46",
   "status": "proved",
   "theorems": [
    "C46_xmin"
   ],
   "note": ""
  },
  {
   "property": "C47",
   "status": "proved",
   "theorems": [
    "C47_method_of_moments"
   ],
   "note": "Exact real arithmetic."
  },
  {
   "property": "C48",
   "status": "proved",
   "theorems": [
    "C48_log_likelihood",
    "C48_density_is_derivative"
   ],
   "note": "Exact real arithmetic."
  },
  {
   "property": "C49",
   "status": "proved",
   "theorems": [
    "C49_grimshaw_root_is_stationary"
   ],
   "note": "Exact real arithmetic."
  },
  {
   "property": "C50",
   "status": "proved",
   "theorems": [
    "C50_marker_invariants"
   ],
   "note": ""
  },
  {
   "property": "C51",
   "status": "proved",
   "theorems": [
    "C51_effect_of_fit"
   ],
   "note": ""
  },
  {
   "property": "C52",
   "status": "proved",
   "theorems": [
    "C52_roots_lie_in_the_searched_ranges",
    "C52_estimator_returns_best_point",
    "C52_fit_is_valid_and_no_worse_than_exponential"
   ],
   "note": "Exact real arithmetic. Roots closer to 0 or to -1/M than e are not searched by the program."
  },
  {
   "property": "C53",
   "status": "proved",
   "theorems": [
    "C53_p2_is_jain_chlamtac",
    "C53_interpolation_is_the_parabola",
    "C53_change_of_unit"
   ],
   "note": "Exact real arithmetic."
  },
  {
   "property": "C54",
   "status": "proved",
   "theorems": [
    "C54_xpow_accuracy"
   ],
   "note": "Built-in ldexp and frexp."
  },
  {
   "property": "C55",
   "status": "proved",
   "theorems": [
    "C55_quantile_accuracy",
    "C55_threshold_accuracy",
    "C55_quantile_lost_near_zero_shape"
   ],
   "note": "Built-in ldexp and frexp. The last theorem is a finding: near-zero shapes lose the whole excess."
  },
  {
   "property": "C56",
   "status": "proved",
   "theorems": [
    "C56_quantile_beyond_excess_threshold"
   ],
   "note": "Built-in ldexp and frexp; |gamma| <= 1e6 and sigma/|gamma| between 1e-300 and 1e300 (or gamma = 0)."
  },
  {
   "property": "C57",
   "status": "proved",
   "theorems": [
    "C57_probability_accuracy"
   ],
   "note": "Built-in ldexp and frexp; gamma = 0 or 1e-5 <= |gamma| <= 1e6."
  },
  {
   "property": "C58",
   "status": "proved",
   "theorems": [
    "C58_members",
    "C58_members_agree_with_dict",
    "C58_raw",
    "C58_raw_without_excesses",
    "C58_sizes"
   ],
   "note": "Release build of CPython on LP64, little endian; wasm32 for spot_size."
  },
  {
   "property": "C59",
   "status": "proved",
   "theorems": [
    "C59_running_sum_and_mean",
    "C59_detector_mean"
   ],
   "note": ""
  },
  {
   "property": "C60",
   "status": "proved",
   "theorems": [
    "C60_tiny_excesses_collapse",
    "C60_change_of_unit_refuted"
   ],
   "note": "Built-in ldexp and frexp. A finding: the property of its title is refuted, the consequences are proved."
  },
  {
   "property": "C61",
   "status": "proved",
   "theorems": [
    "C61_brent_stays_in_bracket"
   ],
   "note": "Any function, including one that is undefined somewhere."
  },
  {
   "property": "C62",
   "status": "proved",
   "theorems": [
    "C62_usable_or_collapsed",
    "C62_usable",
    "C62_threshold_exists",
    "C62_calibration_succeeds"
   ],
   "note": "Built-in ldexp and frexp."
  },
  {
   "property": "C63",
   "status": "proved",
   "theorems": [
    "C63_meaning_of_a_verdict",
    "C63_tail_is_a_survival_function"
   ],
   "note": "Built-in ldexp and frexp; parameters in the range of C55."
  },
  {
   "property": "C64",
   "status": "proved",
   "theorems": [
    "C64_change_of_origin",
    "C64_short_batch_refuted"
   ],
   "note": "Exact arithmetic for batches of at least five numbers; refuted in binary64 for shorter ones."
  },
  {
   "property": "C65",
   "status": "proved",
   "theorems": [
    "C65_likelihood_accuracy",
    "C65_exponential_likelihood_accuracy"
   ],
   "note": "Built-in ldexp and frexp; 1e-17 <= |gamma| <= 1e6 (or 0), 1e-100 <= sigma <= 1e100, at most 2^40 excesses."
  },
  {
   "property": "C66",
   "status": "proved",
   "theorems": [
    "C66_fit_no_worse_than_exponential"
   ],
   "note": "Built-in ldexp and frexp; fitted parameters in the range of C65, shape not zero."
  },
  {
   "property": "C67",
   "status": "proved",
   "theorems": [
    "C67_order_irrelevant",
    "C67_order_irrelevant_for_the_threshold",
    "C67_without_common_last_excess_refuted",
    "C67_binary64_refuted"
   ],
   "note": "Exact arithmetic, any logarithm, exponential and power. The two refuted theorems show that the conditions are needed."
  },
  {
   "property": "C68",
   "status": "proved",
   "theorems": [
    "C68_threshold_goes_stale",
    "C68_stale_threshold_refuted"
   ],
   "note": "A finding: the property of its first sentence is refuted. Exact arithmetic for the general statement."
  },
  {
   "property": "C69",
   "status": "proved",
   "theorems": [
    "C69_fit_misses_the_maximum",
    "C69_most_likely_fit_refuted"
   ],
   "note": "A finding: the property of its first sentence is refuted. The general statement is in exact arithmetic with the true logarithm; the constants bound where the searches for roots look."
  },
  {
   "property": "C70",
   "status": "proved",
   "theorems": [
    "C70_basic_c",
    "C70_only_undefined_behaviour_is_cast"
   ],
   "note": "Finding: the block of the detector is never freed. The log of the C library is any function that is not NaN on [0,1]; rand() is any sequence in its range."
  },
  {
   "property": "C71",
   "status": "proved",
   "theorems": [
    "C71_basic_py"
   ],
   "note": "CPython and numpy modelled by their documented behaviour as in C43; matplotlib not modelled."
  },
  {
   "property": "C72",
   "status": "proved",
   "theorems": [
    "C72_calibration_stores_no_zero",
    "C72_value_at_threshold_stores_zero",
    "C72_zero_excess_caps_shape"
   ],
   "note": "The loss of the heavy tail is shown by the Example C72_one_value_hides_the_heavy_tail."
  },
  {
   "property": "C73",
   "status": "proved",
   "theorems": [
    "C73_relative_error_is_signed",
    "C73_underestimates_report_no_error",
    "C73_mantissa_error_in_a_binade",
    "C73_half_of_the_reference_scores_zero"
   ],
   "note": "A finding: the property of its first sentence is refuted."
  },
  {
   "property": "C74",
   "status": "proved",
   "theorems": [
    "C74_benchmark_log_accuracy",
    "C74_library_log_has_the_benchmarked_accuracy_refuted",
    "C74_depth_11_is_the_unrolled_fraction"
   ],
   "note": "A finding: the library does not contain the function that was measured."
  },
  {
   "property": "C75",
   "status": "proved",
   "theorems": [
    "C75_benchmark_exp_is_the_library_exp",
    "C75_same_beyond_the_range_refuted",
    "C75_three_fractions_agree"
   ],
   "note": "Built-in ldexp and frexp."
  },
  {
   "property": "C76",
   "status": "proved",
   "theorems": [
    "C76_benchmark_sorts_decreasing",
    "C76_fewer_than_five",
    "C76_same_estimate_refuted"
   ],
   "note": "A finding: the property of its first sentence is refuted."
  },
  {
   "property": "C77",
   "status": "proved",
   "theorems": [
    "C77_depth_4_underestimates",
    "C77_table_refuted",
    "C77_depth_6_underestimates"
   ],
   "note": "A finding: a figure of the documentation is refuted. Continued fractions over the reals."
  },
  {
   "property": "C78",
   "status": "proved",
   "theorems": [
    "C78_monotone_batches"
   ],
   "note": "A finding: the number stated in the documentation is not reached on monotone batches."
  },
  {
   "property": "C79",
   "status": "proved",
   "theorems": [
    "C79_first_disagreement",
    "C79_lower_risk_flags_less_refuted"
   ],
   "note": "The property of the documentation is refuted in binary64; what remains of it is proved in exact arithmetic."
  },
  {
   "property": "C80",
   "status": "proved",
   "theorems": [
    "C80_sixty_four_bits",
    "C80_same_on_32_bits"
   ],
   "note": "The model with the width of unsigned long as a parameter."
  },
  {
   "property": "C81",
   "status": "proved",
   "theorems": [
    "C81_counter_wraps",
    "C81_threshold_jumps",
    "C81_counter_is_harmless_refuted",
    "C81_window_overflows",
    "C81_fit_overflows"
   ],
   "note": "A finding. The jump of the threshold is proved in exact arithmetic and witnessed in binary64."
  },
  {
   "property": "C82",
   "status": "proved",
   "theorems": [
    "C82_refit_is_usable",
    "C82_calibration_answers_0"
   ],
   "note": "Exact arithmetic; C62 is the statement for binary64."
  },
  {
   "property": "C83",
   "status": "proved",
   "theorems": [
    "C83_log_monotone",
    "C83_log_monotone_refuted",
    "C83_log_sign"
   ],
   "note": "Monotonicity everywhere is refuted; the first failure above 1 is at 32."
  },
  {
   "property": "C84",
   "status": "proved",
   "theorems": [
    "C84_probability_side",
    "C84_beyond_support",
    "C84_excess_probability_refuted"
   ],
   "note": "The expectation of the JavaScript test is refuted."
  },
  {
   "property": "C85",
   "status": "proved",
   "theorems": [
    "C85_exp_monotone"
   ],
   "note": ""
  },
  {
   "property": "C86",
   "status": "proved",
   "theorems": [
    "C86_quantile_order",
    "C86_quantile_order_refuted"
   ],
   "note": "Refuted outside the stated range of relative risks."
  },
  {
   "property": "C87",
   "status": "proved",
   "theorems": [
    "C87_probability_order"
   ],
   "note": ""
  },
  {
   "property": "C88",
   "status": "proved",
   "theorems": [
    "C88_reference_counts",
    "C88_fitted_never_reclaimed",
    "C88_detectors_never_reclaimed",
    "C88_only_fits_leak",
    "C88_release_terminates",
    "C88_no_leak_refuted"
   ],
   "note": "A finding: the absence of leaks is refuted, and what leaks is characterised exactly."
  },
  {
   "property": "C89",
   "status": "proved",
   "theorems": [
    "C89_sequential",
    "C89_plain_arguments",
    "C89_no_new_undefined_behaviour",
    "C89_batch_size",
    "C89_batch_is_the_list_refuted"
   ],
   "note": "The expectation that fit sees the items of the list is refuted."
  },
  {
   "property": "C90",
   "status": "proved",
   "theorems": [
    "C90_step_defined",
    "C90_fit_defined"
   ],
   "note": ""
  },
  {
   "property": "C91",
   "status": "proved",
   "theorems": [
    "C91_round_trip",
    "C91_threshold_probability"
   ],
   "note": ""
  },
  {
   "property": "C92",
   "status": "proved",
   "theorems": [
    "C92_verdict_and_probability"
   ],
   "note": ""
  },
  {
   "property": "C93",
   "status": "proved",
   "theorems": [
    "C93_silent",
    "C93_over_the_reals",
    "C93_never_from_a_negative_variance_refuted"
   ],
   "note": "the refuted statement is the one without the condition on the second moment"
  },
  {
   "property": "C94",
   "status": "proved",
   "theorems": [
    "C94_change_of_unit",
    "C94_answer_and_window",
    "C94_candidates",
    "C94_one_excess"
   ],
   "note": ""
  },
  {
   "property": "C95",
   "status": "proved",
   "theorems": [
    "C95_tail_fit",
    "C95_step",
    "C95_fit"
   ],
   "note": ""
  },
  {
   "property": "C96",
   "status": "proved",
   "theorems": [
    "C96_after_free",
    "C96_struct_after_free"
   ],
   "note": ""
  },
  {
   "property": "C97",
   "status": "proved",
   "theorems": [
    "C97_infinite_excess",
    "C97_blind",
    "C97_overflowing_sum"
   ],
   "note": ""
  },
  {
   "property": "C98",
   "status": "proved",
   "theorems": [
    "C98_evicting_an_extreme",
    "C98_evicting_an_infinity"
   ],
   "note": ""
  },
  {
   "property": "C99",
   "status": "proved",
   "theorems": [
    "C99_rejected_leave_no_trace",
    "C99_normal_only_counts"
   ],
   "note": ""
  },
  {
   "property": "C100",
   "status": "proved",
   "theorems": [
    "C100_until_first_anomaly",
    "C100_never_without"
   ],
   "note": ""
  },
  {
   "property": "C101",
   "status": "proved",
   "theorems": [
    "C101_until_full"
   ],
   "note": ""
  },
  {
   "property": "C102",
   "status": "proved",
   "theorems": [
    "C102_same_tail",
    "C102_same_codes"
   ],
   "note": ""
  },
  {
   "property": "C103",
   "status": "proved",
   "theorems": [
    "C103_without_excess",
    "C103_constant_batch",
    "C103_probability"
   ],
   "note": ""
  }
 ]
}
