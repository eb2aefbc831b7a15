#!/usr/bin/env python3
"""Write MANIFEST.json. One entry per property that has a theorem."""
import json, os

CLAIMS = {}

def claim(prop, status, theorems, note=""):
    CLAIMS[prop] = {"property": prop, "status": status, "theorems": theorems, "note": note}

claim("C01", "proved", ["C01_init_validation", "C01_rejected_init_changes_nothing"])
claim("C02", "proved", ["C02_nan_parameters"], "Exact characterisation of success, NaN parameters included.")
claim("C03", "proved", ["C03_state_after_init"])
claim("C04", "proved", ["C04_init_alloc_failure", "C04_failed_allocation_leaks_nothing"])
claim("C05", "proved", ["C05_unfitted_never_flags"])
claim("C06", "proved", ["C06_nan_observation"])
claim("C07", "proved", ["C07_anomaly_rule"])
claim("C08", "proved", ["C08_excess_rule"])
claim("C09", "proved", ["C09_outcome_effects", "C09_excess_window"])
claim("C10", "proved", ["C10_classification_monotone"])
claim("C11", "proved", ["C11_counters"])
claim("C12", "proved", ["C12_steps_keep_configuration"])

claim("C13", "proved", ["C13_window_is_fifo"])
claim("C14", "proved", ["C14_only_undefined_behaviour_is_cast", "C14_memory_safety_any_interleaving"])
claim("C15", "proved", ["C15_degenerate_window_overflows", "C15_degenerate_fit_overflows"])
claim("C16", "proved", ["C16_min_max_exact"])
claim("C17", "proved", ["C17_mean_exact"], "Exact real arithmetic.")
claim("C18", "proved", ["C18_second_moment_without_extreme_eviction", "C18_extreme_eviction_loses_second_moment", "C18_variance_refuted"],
      "Exact real arithmetic for the general claims; a binary64 run for the negative variance.")
claim("C19", "proved", ["C19_window_values_nonnegative", "C19_fit_keeps_positive"])
claim("C20", "proved", ["C20_tail_fit_best_candidate"])
claim("C21", "proved", ["C21_fit_return_codes"])
claim("C23", "proved", ["C23_p2_total"])
claim("C24", "proved", ["C24_sort5"])
claim("C25", "proved", ["C25_short_batch"])
claim("C26", "proved", ["C26_refit_keeps_window", "C26_fit_depends_on_history_refuted"])
claim("C40", "proved", ["C40_blind_until_next_excess", "C40_silent_nan_threshold_refuted"])
claim("C46", "proved", ["C46_xmin"])

claim("C34", "proved", ["C34_messages", "C34_other_codes_untouched", "C34_data_is_nan_refuted"])
claim("C35", "proved", ["C35_bounded_copy", "C35_copied_meaning", "C35_null_buffer", "C35_zero_size_overflows", "C35_short_buffer_overflows"])
claim("C36", "proved", ["C36_init_allocates_once", "C36_calls_never_allocate", "C36_free_releases_once", "C36_no_leak"])
claim("C37", "proved", ["C37_double_free", "C37_second_free_hits_another_detector", "C37_free_after_rejected_init"])
claim("C38", "proved", ["C38_set_allocators", "C38_set_float_utils"])
claim("C41", "proved", ["C41_detectors_do_not_interfere", "C41_every_interleaving_is_a_detector"])
claim("C22", "proved", ["C22_quantile_within_data", "C22_excess_threshold_within_data", "C22_overflow_refuted"])
claim("C42", "proved", ["C42_extreme_updates_one_marker", "C42_only_new_extremes", "C42_monotone_batch_threshold"])
claim("C50", "proved", ["C50_marker_invariants"])
claim("C27", "proved", ["C27_ldexp_correctly_rounded", "C27_ldexp_is_ieee_scaling"])
claim("C28", "proved", ["C28_frexp_exact"])
claim("C29", "proved", ["C29_xlog_special_values", "C29_xlog_accuracy", "C29_log_continued_fraction", "C29_relative_accuracy_above_one_refuted", "C29_accuracy_at_one_quarter_refuted"], "Special values for any ldexp/frexp pair, accuracy for the built-in one.")
claim("C30", "proved", ["C30_xexp_special_values", "C30_xexp_domain", "C30_xexp_terminates", "C30_xexp_accuracy", "C30_xexp_overflow", "C30_xexp_monotone_refuted", "C30_exp_continued_fraction"], "Accuracy and overflow for the built-in ldexp; the value on [708,710] and in the last 1100 integers below 2^32*ln 2 is not described.")
claim("C45", "proved", ["C45_quantile_at_zero_undefined", "C45_probability_at_endpoint_undefined", "C45_quantile_defined", "C45_probability_defined", "C45_probability_exponential_tail", "C45_step_undefined_only_for_huge_shape", "C45_fit_undefined_only_for_huge_shape", "C45_fit_is_defined_refuted", "C45_step_is_defined_refuted"], "The definedness clauses are for the built-in ldexp and frexp. The two refutations show that ordinary data reach the undefined conversion.")
claim("C31", "proved", ["C31_probability_of_quantile", "C31_quantile_of_probability", "C31_probability_is_pareto_tail"], "Exact real arithmetic.")
claim("C32", "proved", ["C32_quantile_strictly_decreasing", "C32_quantile_beyond_threshold_iff", "C32_anomaly_is_beyond_excess_threshold"], "Exact real arithmetic.")
claim("C47", "proved", ["C47_method_of_moments"], "Exact real arithmetic.")
claim("C48", "proved", ["C48_log_likelihood", "C48_density_is_derivative"], "Exact real arithmetic.")
claim("C49", "proved", ["C49_grimshaw_root_is_stationary"], "Exact real arithmetic.")
claim("C33", "proved", ["C33_success_contract", "C33_no_sign_change_fails", "C33_at_most_202_evaluations", "C33_exact_arithmetic", "C33_root_at_right_end", "C33_root_at_left_end", "C33_nan_reported_as_root", "C33_sign_change_found_refuted"], "The evaluation points and the distance to a true root are in exact arithmetic; the other clauses hold in binary64. C33_sign_change_found_refuted shows that a sign change is not always found.")
claim("C51", "proved", ["C51_effect_of_fit"])
claim("C39", "proved", ["C39_stream_mirror", "C39_quantile_mirror", "C39_probability_mirror", "C39_mirror_at_threshold_refuted", "C39_calibration_mirror_refuted"], "Mirror image up to the sign of a zero threshold. The two refuted theorems show that the exclusion of the threshold is needed and that calibration is not symmetric.")
claim("C43", "proved", ["C43_fit_on_list", "C43_fit_on_tuple_undefined", "C43_fit_without_memory_undefined", "C43_fit_on_non_iterable", "C43_step", "C43_step_nan_returns_code", "C43_quantile", "C43_probability", "C43_excesses", "C43_uninitialised_object", "C43_constructor"], "The CPython functions are modelled by their documented behaviour; reference counts and re-entrancy are not modelled.")
claim("C44", "proved", ["C44_layout", "C44_getters_read_the_thresholds", "C44_step", "C44_fit", "C44_fit_on_view_undefined", "C44_constructor", "C44_rejected_object_finaliser", "C44_version"], "The 32-bit counters of wasm32 are modelled with 64 bits.")

claim("C52", "proved", ["C52_roots_lie_in_the_searched_ranges", "C52_estimator_returns_best_point", "C52_fit_is_valid_and_no_worse_than_exponential"], "Exact real arithmetic. Roots closer to 0 or to -1/M than e are not searched by the program.")

claim("C53", "proved", ["C53_p2_is_jain_chlamtac", "C53_interpolation_is_the_parabola", "C53_change_of_unit"], "Exact real arithmetic.")

claim("C54", "proved", ["C54_xpow_accuracy"], "Built-in ldexp and frexp.")
claim("C55", "proved", ["C55_quantile_accuracy", "C55_threshold_accuracy", "C55_quantile_lost_near_zero_shape"], "Built-in ldexp and frexp. The last theorem is a finding: near-zero shapes lose the whole excess.")
claim("C56", "proved", ["C56_quantile_beyond_excess_threshold"], "Built-in ldexp and frexp; |gamma| <= 1e6 and sigma/|gamma| between 1e-300 and 1e300 (or gamma = 0).")
claim("C57", "proved", ["C57_probability_accuracy"], "Built-in ldexp and frexp; gamma = 0 or 1e-5 <= |gamma| <= 1e6.")
claim("C58", "proved", ["C58_members", "C58_members_agree_with_dict", "C58_raw", "C58_raw_without_excesses", "C58_sizes"], "Release build of CPython on LP64, little endian; wasm32 for spot_size.")
claim("C59", "proved", ["C59_running_sum_and_mean", "C59_detector_mean"], "")

claim("C60", "proved", ["C60_tiny_excesses_collapse", "C60_change_of_unit_refuted"], "Built-in ldexp and frexp. A finding: the property of its title is refuted, the consequences are proved.")
claim("C61", "proved", ["C61_brent_stays_in_bracket"], "Any function, including one that is undefined somewhere.")
claim("C62", "proved", ["C62_usable_or_collapsed", "C62_usable", "C62_threshold_exists", "C62_calibration_succeeds"], "Built-in ldexp and frexp.")
claim("C63", "proved", ["C63_meaning_of_a_verdict", "C63_tail_is_a_survival_function"], "Built-in ldexp and frexp; parameters in the range of C55.")
claim("C64", "proved", ["C64_change_of_origin", "C64_short_batch_refuted"], "Exact arithmetic for batches of at least five numbers; refuted in binary64 for shorter ones.")

claim("C65", "proved", ["C65_likelihood_accuracy", "C65_exponential_likelihood_accuracy"], "Built-in ldexp and frexp; 1e-17 <= |gamma| <= 1e6 (or 0), 1e-100 <= sigma <= 1e100, at most 2^40 excesses.")
claim("C66", "proved", ["C66_fit_no_worse_than_exponential"], "Built-in ldexp and frexp; fitted parameters in the range of C65, shape not zero.")

claim("C67", "proved", ["C67_order_irrelevant", "C67_order_irrelevant_for_the_threshold", "C67_without_common_last_excess_refuted", "C67_binary64_refuted"], "Exact arithmetic, any logarithm, exponential and power. The two refuted theorems show that the conditions are needed.")
claim("C68", "proved", ["C68_threshold_goes_stale", "C68_stale_threshold_refuted"], "A finding: the property of its first sentence is refuted. Exact arithmetic for the general statement.")
claim("C69", "proved", ["C69_fit_misses_the_maximum", "C69_most_likely_fit_refuted"], "A finding: the property of its first sentence is refuted. The general statement is in exact arithmetic with the true logarithm; the constants bound where the searches for roots look.")
claim("C70", "proved", ["C70_basic_c", "C70_only_undefined_behaviour_is_cast"], "Finding: the block of the detector is never freed. The log of the C library is any function that is not NaN on [0,1]; rand() is any sequence in its range.")
claim("C71", "proved", ["C71_basic_py"], "CPython and numpy modelled by their documented behaviour as in C43; matplotlib not modelled.")

claim("C72", "proved", ["C72_calibration_stores_no_zero", "C72_value_at_threshold_stores_zero", "C72_zero_excess_caps_shape"], "The loss of the heavy tail is shown by the Example C72_one_value_hides_the_heavy_tail.")
claim("C73", "proved", ["C73_relative_error_is_signed", "C73_underestimates_report_no_error", "C73_mantissa_error_in_a_binade", "C73_half_of_the_reference_scores_zero"], "A finding: the property of its first sentence is refuted.")
claim("C74", "proved", ["C74_benchmark_log_accuracy", "C74_library_log_has_the_benchmarked_accuracy_refuted", "C74_depth_11_is_the_unrolled_fraction"], "A finding: the library does not contain the function that was measured.")
claim("C75", "proved", ["C75_benchmark_exp_is_the_library_exp", "C75_same_beyond_the_range_refuted", "C75_three_fractions_agree"], "Built-in ldexp and frexp.")
claim("C76", "proved", ["C76_benchmark_sorts_decreasing", "C76_fewer_than_five", "C76_same_estimate_refuted"], "A finding: the property of its first sentence is refuted.")
claim("C77", "proved", ["C77_depth_4_underestimates", "C77_table_refuted", "C77_depth_6_underestimates"], "A finding: a figure of the documentation is refuted. Continued fractions over the reals.")
claim("C78", "proved", ["C78_monotone_batches"], "A finding: the number stated in the documentation is not reached on monotone batches.")
claim("C79", "proved", ["C79_first_disagreement", "C79_lower_risk_flags_less_refuted"], "The property of the documentation is refuted in binary64; what remains of it is proved in exact arithmetic.")
claim("C80", "proved", ["C80_sixty_four_bits", "C80_same_on_32_bits"], "The model with the width of unsigned long as a parameter.")
claim("C81", "proved", ["C81_counter_wraps", "C81_threshold_jumps", "C81_counter_is_harmless_refuted", "C81_window_overflows", "C81_fit_overflows"], "A finding. The jump of the threshold is proved in exact arithmetic and witnessed in binary64.")
claim("C82", "proved", ["C82_refit_is_usable", "C82_calibration_answers_0"], "Exact arithmetic; C62 is the statement for binary64.")
claim("C83", "proved", ["C83_log_monotone", "C83_log_monotone_refuted", "C83_log_sign"], "Monotonicity everywhere is refuted; the first failure above 1 is at 32.")
claim("C84", "proved", ["C84_probability_side", "C84_beyond_support", "C84_excess_probability_refuted"], "The expectation of the JavaScript test is refuted.")
claim("C85", "proved", ["C85_exp_monotone"], "")
claim("C86", "proved", ["C86_quantile_order", "C86_quantile_order_refuted"], "Refuted outside the stated range of relative risks.")
claim("C87", "proved", ["C87_probability_order"], "")
claim("C88", "proved", ["C88_reference_counts", "C88_fitted_never_reclaimed", "C88_detectors_never_reclaimed", "C88_only_fits_leak", "C88_release_terminates", "C88_no_leak_refuted"], "A finding: the absence of leaks is refuted, and what leaks is characterised exactly.")
claim("C89", "proved", ["C89_sequential", "C89_plain_arguments", "C89_no_new_undefined_behaviour", "C89_batch_size", "C89_batch_is_the_list_refuted"], "The expectation that fit sees the items of the list is refuted.")
claim("C90", "proved", ["C90_step_defined", "C90_fit_defined"], "")
claim("C91", "proved", ["C91_round_trip", "C91_threshold_probability"], "")
claim("C92", "proved", ["C92_verdict_and_probability"], "")
claim("C93", "proved", ["C93_silent", "C93_over_the_reals", "C93_never_from_a_negative_variance_refuted"], "the refuted statement is the one without the condition on the second moment")
claim("C94", "proved", ["C94_change_of_unit", "C94_answer_and_window", "C94_candidates", "C94_one_excess"], "")
claim("C95", "proved", ["C95_tail_fit", "C95_step", "C95_fit"], "")
claim("C96", "proved", ["C96_after_free", "C96_struct_after_free"], "")
claim("C97", "proved", ["C97_infinite_excess", "C97_blind", "C97_overflowing_sum"], "")
claim("C98", "proved", ["C98_evicting_an_extreme", "C98_evicting_an_infinity"], "")
claim("C99", "proved", ["C99_rejected_leave_no_trace", "C99_normal_only_counts"], "")
claim("C100", "proved", ["C100_until_first_anomaly", "C100_never_without"], "")
claim("C101", "proved", ["C101_until_full"], "")
claim("C102", "proved", ["C102_same_tail", "C102_same_codes"], "")
claim("C103", "proved", ["C103_without_excess", "C103_constant_batch", "C103_probability"], "")
root = os.path.dirname(os.path.dirname(os.path.abspath(__file__)))
with open(os.path.join(root, "MANIFEST.json"), "w") as f:
    json.dump({"claims": [CLAIMS[k] for k in sorted(CLAIMS, key=lambda c: int(c[1:]))]}, f, indent=1)
    f.write("\n")
