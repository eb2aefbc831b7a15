# libspot in Rocq: design

Model of asiffer/libspot (C99 core in `/repo/src`, headers in `/repo/include`, plus the
behavioural shell of the Python and JavaScript bindings), written in Gallina (Coq 8.16.1)
and proved in the same system.

## Layers

| file | models |
|------|--------|
| `Num.v` | the C arithmetic interface: a record `NumOps` of operations on `double`, the `res` monad (value or undefined behaviour), checked array access, unsigned wrap |
| `B64.v` | instance of `NumOps`: IEEE-754 binary64, round to nearest even (Flocq `BinarySingleNaN.binary_float 53 1024`), the bit encoding, `musl_ldexp` and `musl_frexp` |
| `RNum.v` | instance of `NumOps`: exact real arithmetic with one "not a number" value |
| `XMath.v` | `src/xmath.c` |
| `Ubend.v`, `Peaks.v`, `Brent.v`, `P2.v`, `Estimator.v`, `Tail.v`, `Spot.v` | the C file of the same name |
| `Str.v` | `strncpy`, `libspot_error`, `libspot_version`, `libspot_license` (spot.c) |
| `Heap.v` | allocator.c, pointers, several detectors over one heap, lifecycle |
| `Layout.v` | object representation of the structs of `include/structs.h` |
| `PyBinding.v`, `PyMembers.v`, `JsBinding.v` | python/libspotmodule.c; its member table and `raw`; wasm/index.ts and wasm/main.c |
| `PyRefs.v`, `PyReenter.v` | python/libspotmodule.c: references and memory of the Python objects; Python code that runs inside a call |
| `Programs.v` | examples/basic.c, examples/basic.py |
| `Suite.v`, `SuiteData.v` | the unit tests of /repo/test/src as Examples |

Every other file contains specifications (`Spec`, `Session`, `HeapSpec`, `P2Spec`, `TailSpec`, `MirrorSpec`, `BindSpec`,
`GrimshawSpec`, `OrdinarySpec`, `RefSpec`, `P2ExactSpec`, `AccSpec`, `MemberSpec`, `VerdictSpec`, `TranslateSpec`, `LikSpec`, `Demo`),
lemmas, or the property theorems (`Props_*`). A `Props_*` file contains theorems closed by one lemma, their examples, and
`Print Assumptions`.

The code is written **once**, polymorphically in `NumOps`. At the `B64` instance it is the C
program (bit exact up to NaN payloads); at the `RNum` instance it is the same program text with exact real
arithmetic. Facts about control flow, counters, memory and state hold for every `NumOps` and are then
instantiated; facts about comparisons and rounding are proved at `B64`; facts the C code can only satisfy up to
rounding (mean, inverse of quantile, ...) are proved at `RNum` and say "exact arithmetic" in their name and English.

## Undefined behaviour

`res A := Ret a | Undef why`. `Undef` is produced by: out-of-bounds array access (window, P2 markers,
string buffers), reads of indeterminate cells, out-of-range float-to-unsigned conversion, free of a pointer
which is not a live block. Division by zero is not undefined (IEC 60559 arithmetic). Unsigned wrap is
written explicitly (`mod 2^64`, `mod 2^32`).

## What is modelled and what is not

Modelled: every function of `src/*.c` (double branch), the structs and constants of `include/*.h`, all of the Python
class `Spot` (methods and member descriptors), all of the JavaScript class `Spot` and of `wasm/main.c`.

Not modelled, or simplified (also said in the comments of the definitions):

* LP64 platform (64-bit `unsigned long`, 32-bit `int`), `__SIZEOF_DOUBLE__ == 8`. The 4-byte branch of xmath.c is not modelled;
  as written it does not compile (`musl_ldexp` uses a member `f` its union does not have, `musl_frexp` calls an undeclared `frexp`).
  Windows (LLP64) and wasm32 have a 32-bit `unsigned long`: `Word.v` repeats the functions that compute with that type with its width
  as a parameter; C80 says when the two widths agree, C81 what happens otherwise. On wasm32 a pointer is 32 bits as well: of that only the
  struct layout is modelled. The batch size passed to `spot_fit` is assumed to fit in an `unsigned long`.
* Strict double evaluation (FLT_EVAL_METHOD 0, no FMA contraction, no fast-math; the Makefile uses -std=c99).
* A single NaN value (the code never inspects NaN payloads or signs; `musl_frexp` returns NaN unchanged).
* The pure layer keeps the window by value inside the struct (`data : list cell`), NULL or freed pointer = empty list; `Heap.v`
  puts it behind a pointer. Heap blocks are arrays of doubles; the caller's structs are not heap blocks.
* The batch given to `spot_fit` is a list: the caller's contract "`data` points to `size` readable doubles" is assumed.
* `set_float_utils` plug-ins are arbitrary total functions.
* Python: the CPython functions are modelled by their documented behaviour; reference counts and the memory of the Python objects are
  in `PyRefs.v` (containers are not modified after their creation, results of methods are not tracked), re-entrancy
  (a `__float__` that calls back) in `PyReenter.v`; threads and hooks in `__iter__` are not modelled. Members and `raw()` read the object of `Layout.v` (LP64, 16-byte object header).
* JavaScript: numbers are doubles, TextDecoder is the identity on ASCII, an ArrayBuffer holds a whole number of doubles,
  the struct and input allocations succeed.
* Benchmarks (`Bench.v`): the measured `_log`, `_exp`, `_pow`, the continued fractions, the accuracy loops and the P2 program are modelled; the
  grids, the C library, the timing loops, `_powbis`, the `_exp` of exp_cf_accuracy.c and exp_cf_speed.c, the abscissa fields of the accuracy loops and printing are not.
* Documentation and the Makefile are not modelled (VERSION is read from the Makefile).
* Validation: `Suite.v` replays the unit tests of `/repo/test/src` on the binary64 model, as Examples (the tests of `tail_fit`,
  `tail_probability` and `log_likelihood` on 200-1000 excesses are too long for the build: `tools/suite/run.sh` writes them from templates into a scratch directory, no theorem uses them and
  `vcheck` does not check them; run by hand, `log_likelihood`, `tail_probability`, `tail_quantile` and the fits to the exponential and
  uniform data pass, the fits to the Pareto and lognormal data have not been run to the end).
* Examples (`Programs.v`): rand(), the log of the C library and malloc are arbitrary functions; clock(), printf and matplotlib are left out.

## Plan per property

See `properties.jsonl` for the statements; the `MANIFEST.json` gives the theorem names.

* C01-C06, C09, C11, C12, C21, C25, C26, C40: generic case analysis / induction over the list of operations.
* C07, C08, C10: at `B64`, lemma "sign of the rounded difference = comparison" from Flocq's `round_plus_neq_0`.
* C13, C16, C17, C18: refinement of the ring buffer to the FIFO list, invariant by induction over pushes; C16 with the
  total preorder on non-NaN doubles; C17/C18 at `RNum` (C18 also by a computed binary64 witness).
* C14, C15, C19, C23: invariants over the `res` monad: result is never a memory `Undef`.
* C20: case analysis on the comparison chain, NaN included.
* C22, C24, C42, C50: P2 loop invariant at `B64` with monotonicity of rounding; `sort5` by decision tree.
* C27, C28: Flocq bit encodings, `Bmult_correct`, double-rounding argument.
* C29, C30: real analysis of the two continued fractions (derivative of the error has a sign), then rounding analysis.
* C31, C32, C47-C49: at `RNum` with the log/exp functions instantiated by the exact ones.
* C33: loop invariant at any `NumOps` (signs), interval containment at `RNum`.
* C34, C35: induction over the copy loops. C36, C37, C38, C41: heap invariants over all interleavings.
* C39: bisimulation at `B64`. C43, C44: call-protocol models over the heap model. C45: error bounds at `B64` and computed witnesses.
* C51: counting the pushes of the calibration loop.
* C52: at `RNum` with exact log: convexity inequalities for Grimshaw's equation, and the comparison chain of the estimator.
* C54-C57: error analysis at `B64` of the power, the quantile and the probability on top of C29 and C30; sign of the rounded log and exp.
* C58: the layout function at the LP64 parameters; little-endian decoding.
* C59: invariant over pushes at `B64`: the error is bounded by the current maximum because an extreme never leaves without a recomputation.
* C60: absorption `1 + (-2e-8)*y = 1` for y <= 2.7e-9 makes Grimshaw's function exactly 0 at the end of the bracket; follow the root through Brent, `tail_fit` and the quantile. Witness by `vm_compute`.
* C61: bounds on the rounded tolerance, on the interpolation step (accepted only when it is below 3/4 of the half bracket) and on the forced step; the next point is between the current best point and the opposite end of the bracket. Invariant of the loop for two functions that agree inside.
* C62: a likelihood that is not NaN has every logarithm defined, which forces the support condition; the exponential likelihood is not NaN, so the likelihood kept is not; the case of scale -0 can only come from the left search with a ratio that rounds to 1. A root bounded away from 0 and a sum of finite logarithms bound the shape, and a double other than 1 is at least 2^-53 from it, which bounds the ratio scale/shape from both sides; hence the anomaly threshold exists from conditions on the window alone.
* C63: the anomaly threshold is within the error of C55 of the exact quantile, and the generalised Pareto survival function is decreasing with the quantile as inverse; observations that are not excesses leave thresholds, parameters and excess count alone. `gpd_tail` (VerdictSpec) is written from its textbook formula.
* C64: in exact arithmetic the P2 markers of a shifted batch are the shifted markers (binary64 does not have this property), the excesses are unchanged, hence the whole session. The relation between calls and answers of the two detectors is in TranslateSpec.
* C65: forward error analysis of the running sum of logarithms, with the accuracy of `xlog` (C29) amplified by 1+1/gamma (LikSpec); for shape zero the error of the running sum (C59) enters.
* C66: `tail_fit` keeps the candidate whose computed likelihood is not exceeded by that of the exponential candidate; with C65 on both sides this is an inequality between the likelihoods over the reals.
* C67: over the reals the sums, the extremes and hence the whole fit are invariant under permutation of the window (an induction on permutations for the pushes without eviction); the answers depend on the excess threshold only.
* C68: the quantile depends on the counters only through q*n/Nt, in which it is strictly decreasing; normal observations increase n and do not refresh the threshold.
* C69: on such windows w'(t)<0 below 0 and w keeps its sign at both ends of the positive range, so that Grimshaw's method yields only the two fallback candidates; the likelihood of an explicit law is bounded from below.
* C70, C71: the example programs are functions over the shared heap of `Heap.v`; their loops are inductions on top of C07, C11, C36, C43.
* C72: the root finder started on an infinite bound walks on NaN until it gives up; signs of the remaining candidates on top of C16, C61, C62.
* C73: induction over the pairs, sign of a rounded quotient. C74: rounding analysis of the fraction on (1,2] (`LogB64Up.v`) next to that of C29. C75: the exponent field as multiplication by a power of two. C76: decision tree as C24.
* C77: error function of the Padé approximant of order 4 (`BenchDepth.v`), as in C30. C78: C42 and C51. C79: invariant on a pair of runs (same state, thresholds are the quantiles of the two risks in one state), monotonicity of the quantile (C32); the witness was found by search.
* C80: agreement of each function while the counters and the cursor stay below 2^32. C81: counter arithmetic; the jump from the monotonicity of the quantile in the excess rate (C68); the overflow from the length of the block. C82: the history of the window in exact arithmetic, then C52.
* C83: a checked evaluation of the continued fraction between two bounds (each rounded operation is monotone in one direction), the boundaries of the binades by computation, the rest by C29. C84: sign of each rounded intermediate, with the sides of log and exp.
* C85: each operation of the continued fraction of order 6 is monotone on the reduced interval; the reduction is monotone between two changes of the quotient, and at the 48 changes the values on both sides are compared by computation. C86, C87: each rounded operation is monotone, with C83 for the logarithm and C85 for the exponential; the error bounds of C54-C57 keep the arguments in their ranges.
* C88: one invariant, count = references of the program + of the live containers + fits, preserved by each operation and by the release loop (whose termination measure is the number of references held by live containers).
* C89: induction on the nesting depth and on the program; every method converts its arguments before it touches the struct.
* C90: the bounds of C62 on the fitted shape, applied to the window before the threshold is computed, and C45.
* C91, C92: the errors of C55 and C57 composed; the error of the quantile, measured in units of scale times rho^-shape, moves the logarithm of the survival by as much.
* C93: with V <= 0 <= E the computed ratio R is -inf, NaN or at most -1, because the rounded second moment is not negative; then 1 + R <= 0, the scale is not positive and its logarithm NaN. The refutation is a run of three evictions in a window of three.
* C94: the scaling commutes with every function of the model except the root search; a window of one excess gives an instance of the condition (no left root, right interval reduced to 0).
* C95: the points at which the logarithm is consulted are composed along `bind`; an evaluation of the equation takes n, a search 202 evaluations, a candidate 2 n + 1; two searches, three candidates.
* C96: invariant of the struct after spot_free (up_down and q NaN, capacity 0, `filled` -1, shape NaN or 0, scale NaN); comparisons with NaN are false, loops over 0 elements touch nothing.
* C97: the running sum of a window with an infinite element is infinite or NaN (the elements are not negative), hence both likelihoods are NaN and the fit keeps Grimshaw's zero root; C83 for the sign of the logarithm.
* C98: the stored minimum and maximum are exact (C16), so the test in peaks_push is true and the recomputation loop is a fold over the cells.
* C99: induction on the stream, from the effect of each answer (C09).
* C100: simulation; the field is read in one place.
* C101: simulation of the two windows; every loop over the window reads the cells below its size only.
* C102: simulation; q is read to compute the anomaly threshold, which is read by the test that discards and nowhere else.
* C103: Nt = 0 makes the quantile the logarithm of q/0, NaN in the built-in xlog; C22 for the constant batch.
* C53: at `RNum`: the observation loop against a textbook statement of the P2 algorithm (Jain and Chlamtac 1985).
* C46: case analysis.

## Trusted base

Coq 8.16.1 kernel (including `vm_compute`), the reading of the C code in the model, and the axioms of the Coq standard
library used through the reals (listed by `Print Assumptions` under every theorem; the list is kept below).

Axioms (all from the Coq standard library, reached through `Reals` and Flocq):

* `ClassicalDedekindReals.sig_not_dec`, `ClassicalDedekindReals.sig_forall_dec` (construction of the reals);
* `FunctionalExtensionality.functional_extensionality_dep`;
* `Classical_Prop.classic`.

The libraries Flocq, Coquelicot and std++ are used for their theorems; no axiom of theirs is used.

What `Print Assumptions` lists for each theorem (generated by `tools/gen_axioms.py`):

<!-- axioms -->
* none ("Closed under the global context"): C03_state_after_init, C04_failed_allocation_leaks_nothing, C04_init_alloc_failure, C09_outcome_effects, C12_steps_keep_configuration, C13_window_is_fifo, C15_degenerate_window_overflows, C33_at_most_202_evaluations, C33_no_sign_change_fails, C34_data_is_nan_refuted, C34_messages, C34_other_codes_untouched, C35_bounded_copy, C35_copied_meaning, C35_null_buffer, C35_short_buffer_overflows, C35_zero_size_overflows, C36_calls_never_allocate, C36_free_releases_once, C36_init_allocates_once, C36_no_leak, C37_double_free, C37_free_after_rejected_init, C37_second_free_hits_another_detector, C38_set_allocators, C38_set_float_utils, C41_detectors_do_not_interfere, C42_extreme_updates_one_marker, C44_layout, C44_version, C58_sizes, C80_same_on_32_bits, C80_sixty_four_bits, C81_counter_wraps, C81_window_overflows, C95_fit, C95_step, C95_tail_fit, C99_rejected_leave_no_trace, C99_normal_only_counts, C100_until_first_anomaly, C100_never_without, C101_until_full, C102_same_tail, C102_same_codes.
* `functional_extensionality_dep`, `sig_forall_dec`: C18_second_moment_without_extreme_eviction, C53_change_of_unit, C53_interpolation_is_the_parabola, C53_p2_is_jain_chlamtac, C64_change_of_origin, C67_order_irrelevant, C67_order_irrelevant_for_the_threshold, C74_depth_11_is_the_unrolled_fraction, C75_three_fractions_agree.
* `classic`, `functional_extensionality_dep`, `sig_forall_dec`: C17_mean_exact, C18_extreme_eviction_loses_second_moment.
* `functional_extensionality_dep`, `sig_forall_dec`, `sig_not_dec`: C33_exact_arithmetic.
* `classic`, `functional_extensionality_dep`, `sig_forall_dec`, `sig_not_dec`: C01_init_validation, C01_rejected_init_changes_nothing, C02_nan_parameters, C05_unfitted_never_flags, C06_nan_observation, C07_anomaly_rule, C08_excess_rule, C09_excess_window, C10_classification_monotone, C11_counters, C14_memory_safety_any_interleaving, C14_only_undefined_behaviour_is_cast, C15_degenerate_fit_overflows, C16_min_max_exact, C18_variance_refuted, C19_fit_keeps_positive, C19_window_values_nonnegative, C20_tail_fit_best_candidate, C21_fit_return_codes, C22_excess_threshold_within_data, C22_overflow_refuted, C22_quantile_within_data, C23_p2_total, C24_sort5, C25_short_batch, C26_fit_depends_on_history_refuted, C26_refit_keeps_window, C27_ldexp_correctly_rounded, C27_ldexp_is_ieee_scaling, C28_frexp_exact, C29_accuracy_at_one_quarter_refuted, C29_log_continued_fraction, C29_relative_accuracy_above_one_refuted, C29_xlog_accuracy, C29_xlog_special_values, C30_exp_continued_fraction, C30_xexp_accuracy, C30_xexp_domain, C30_xexp_monotone_refuted, C30_xexp_overflow, C30_xexp_special_values, C30_xexp_terminates, C31_probability_is_pareto_tail, C31_probability_of_quantile, C31_quantile_of_probability, C32_anomaly_is_beyond_excess_threshold, C32_quantile_beyond_threshold_iff, C32_quantile_strictly_decreasing, C33_nan_reported_as_root, C33_root_at_left_end, C33_root_at_right_end, C33_sign_change_found_refuted, C33_success_contract, C39_calibration_mirror_refuted, C39_mirror_at_threshold_refuted, C39_probability_mirror, C39_quantile_mirror, C39_stream_mirror, C40_blind_until_next_excess, C40_silent_nan_threshold_refuted, C41_every_interleaving_is_a_detector, C42_monotone_batch_threshold, C42_only_new_extremes, C43_constructor, C43_excesses, C43_fit_on_list, C43_fit_on_non_iterable, C43_fit_on_tuple_undefined, C43_fit_without_memory_undefined, C43_probability, C43_quantile, C43_step, C43_step_nan_returns_code, C43_uninitialised_object, C44_constructor, C44_fit, C44_fit_on_view_undefined, C44_getters_read_the_thresholds, C44_rejected_object_finaliser, C44_step, C45_fit_is_defined_refuted, C45_fit_undefined_only_for_huge_shape, C45_probability_at_endpoint_undefined, C45_probability_defined, C45_probability_exponential_tail, C45_quantile_at_zero_undefined, C45_quantile_defined, C45_step_is_defined_refuted, C45_step_undefined_only_for_huge_shape, C46_xmin, C47_method_of_moments, C48_density_is_derivative, C48_log_likelihood, C49_grimshaw_root_is_stationary, C50_marker_invariants, C51_effect_of_fit, C52_estimator_returns_best_point, C52_fit_is_valid_and_no_worse_than_exponential, C52_roots_lie_in_the_searched_ranges, C54_xpow_accuracy, C55_quantile_accuracy, C55_quantile_lost_near_zero_shape, C55_threshold_accuracy, C56_quantile_beyond_excess_threshold, C57_probability_accuracy, C58_members, C58_members_agree_with_dict, C58_raw, C58_raw_without_excesses, C59_detector_mean, C59_running_sum_and_mean, C60_change_of_unit_refuted, C60_tiny_excesses_collapse, C61_brent_stays_in_bracket, C62_calibration_succeeds, C62_threshold_exists, C62_usable, C62_usable_or_collapsed, C63_meaning_of_a_verdict, C63_tail_is_a_survival_function, C64_short_batch_refuted, C65_exponential_likelihood_accuracy, C65_likelihood_accuracy, C66_fit_no_worse_than_exponential, C67_binary64_refuted, C67_without_common_last_excess_refuted, C68_stale_threshold_refuted, C68_threshold_goes_stale, C69_fit_misses_the_maximum, C69_most_likely_fit_refuted, C70_basic_c, C70_only_undefined_behaviour_is_cast, C71_basic_py, C72_calibration_stores_no_zero, C72_value_at_threshold_stores_zero, C72_zero_excess_caps_shape, C73_half_of_the_reference_scores_zero, C73_mantissa_error_in_a_binade, C73_relative_error_is_signed, C73_underestimates_report_no_error, C74_benchmark_log_accuracy, C74_library_log_has_the_benchmarked_accuracy_refuted, C75_benchmark_exp_is_the_library_exp, C75_same_beyond_the_range_refuted, C76_benchmark_sorts_decreasing, C76_fewer_than_five, C76_same_estimate_refuted, C77_depth_4_underestimates, C77_depth_6_underestimates, C77_table_refuted, C78_monotone_batches, C79_first_disagreement, C79_lower_risk_flags_less_refuted, C81_counter_is_harmless_refuted, C81_fit_overflows, C81_threshold_jumps, C82_calibration_answers_0, C82_refit_is_usable, C83_log_monotone, C83_log_monotone_refuted, C83_log_sign, C84_beyond_support, C84_excess_probability_refuted, C84_probability_side, C85_exp_monotone, C86_quantile_order, C86_quantile_order_refuted, C87_probability_order, C88_reference_counts, C88_fitted_never_reclaimed, C88_detectors_never_reclaimed, C88_only_fits_leak, C88_release_terminates, C88_no_leak_refuted, C89_sequential, C89_no_new_undefined_behaviour, C89_batch_size, C89_batch_is_the_list_refuted, C90_step_defined, C90_fit_defined, C91_round_trip, C91_threshold_probability, C92_verdict_and_probability, C93_silent, C93_over_the_reals, C93_never_from_a_negative_variance_refuted, C94_change_of_unit, C94_answer_and_window, C94_candidates, C94_one_excess, C89_plain_arguments, C96_after_free, C96_struct_after_free, C103_without_excess, C103_constant_batch, C103_probability, C97_infinite_excess, C97_blind, C97_overflowing_sum, C98_evicting_an_extreme, C98_evicting_an_infinity.
<!-- end axioms -->
