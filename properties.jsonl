{"id": "C01", "title": "spot_init validates level and q exactly", "statement": "For non-NaN level and q, spot_init returns -ERR_LEVEL_OUT_OF_BOUNDS exactly when level<0 or level>=1; otherwise -ERR_Q_OUT_OF_BOUNDS exactly when q<=0 or q>=1-level (1-level rounded to double); otherwise it proceeds to the allocation. A rejected call does not write a single field of the caller's struct and performs no allocation.", "quantifier": "every pair of non-NaN doubles (level,q), every other argument, every previous content of the struct, every allocator", "why_tests_cant": "the (level,q) space is 2^128 and the boundary depends on the rounding of 1-level", "anchors": ["src/spot.c:spot_init", "include/structs.h:LibspotError"]}
{"id": "C02", "title": "NaN parameters are not rejected by spot_init", "statement": "The documented contract '0 on success implies 0<=level<1 and 0<q<1-level' fails exactly for NaN: with a working allocator spot_init returns 0 exactly when level is NaN and q is not <=0 (any q>0 or NaN), or level is valid and q is NaN, or both are numbers within the documented bounds.", "quantifier": "every pair of doubles (level,q) including NaN and infinities", "why_tests_cant": "one has to show that NaN is the only class of exceptions", "anchors": ["src/spot.c:spot_init"]}
{"id": "C03", "title": "State after a successful spot_init", "statement": "After spot_init returns 0 the detector stores q and level unchanged, low and discard_anomalies normalised to 0/1 (any non-zero int counts as 1), zero observations and zero excesses counted, both thresholds NaN, an empty window of capacity max_excess and NaN tail parameters, whatever the struct contained before.", "quantifier": "all accepted parameters, all previous struct contents", "why_tests_cant": "depends on arbitrary previous memory contents and all ints", "anchors": ["src/spot.c:spot_init", "src/tail.c:tail_init", "src/peaks.c:peaks_init", "src/ubend.c:ubend_init"]}
{"id": "C04", "title": "Failure of the allocator is reported and leaks nothing", "statement": "If no malloc was registered or malloc returns NULL, spot_init returns -ERR_MEMORY_ALLOCATION_FAILED, the heap is unchanged and a later spot_free neither frees anything nor faults; but the two thresholds keep whatever the struct contained before (they are not initialised).", "quantifier": "all accepted parameters, all heaps, all failing allocators, all previous struct contents", "why_tests_cant": "an allocation failure can happen at any point and the previous memory is arbitrary", "anchors": ["src/spot.c:spot_init", "src/allocator.c:xmalloc", "src/ubend.c:ubend_init"]}
{"id": "C05", "title": "An unfitted detector never flags", "statement": "Between spot_init and the first spot_fit, spot_step returns NORMAL for every non-NaN value (infinities included), only the observation counter changes, and no UB occurs.", "quantifier": "all finite histories of steps on a freshly initialised detector, both tails, both anomaly policies", "why_tests_cant": "all histories, and the argument rests on NaN comparison semantics", "anchors": ["src/spot.c:spot_step"]}
{"id": "C06", "title": "A NaN observation is rejected without any effect", "statement": "spot_step on NaN returns -ERR_DATA_IS_NAN and leaves the whole detector and its window bit-for-bit unchanged; it is the only input for which a negative code is returned.", "quantifier": "every detector state, every double", "why_tests_cant": "must hold in every reachable and unreachable state", "anchors": ["src/spot.c:spot_step"]}
{"id": "C07", "title": "ANOMALY decision rule", "statement": "With anomaly discarding on and a non-NaN x, spot_step returns ANOMALY exactly when x is strictly beyond the current anomaly threshold on the monitored side (x>threshold for the upper tail, x<threshold for the lower tail), for all finite x and thresholds whatever their magnitude; with discarding off it never returns ANOMALY.", "quantifier": "every state, every finite double x and threshold (subnormals and huge values included)", "why_tests_cant": "the code tests the sign of a rounded difference; only gradual underflow makes this equivalent to the comparison", "anchors": ["src/spot.c:spot_step"]}
{"id": "C08", "title": "EXCESS / NORMAL decision rule", "statement": "A non-NaN x that is not flagged ANOMALY is reported EXCESS exactly when it is at or beyond the excess threshold on the monitored side (x>=t upper, x<=t lower) and NORMAL otherwise, for all finite x and t; the returned code is always one of 0,1,2,-1005.", "quantifier": "every state, every finite double", "why_tests_cant": "same rounding argument over 2^128 pairs", "anchors": ["src/spot.c:spot_step"]}
{"id": "C09", "title": "What each outcome may change", "statement": "ANOMALY changes nothing at all; NORMAL changes only the observation counter (+1); EXCESS increments both counters by one, appends exactly one value (the distance to the excess threshold) to the window, refits the tail and recomputes the anomaly threshold from the updated counters; the excess threshold, q, level, side and policy never change.", "quantifier": "every state and input", "why_tests_cant": "frame condition over every field and state", "anchors": ["src/spot.c:spot_step"]}
{"id": "C10", "title": "Classification is monotone", "statement": "In any fixed state, if y is at least as extreme as x on the monitored side then y is classified at least as severely as x in the order NORMAL<EXCESS<ANOMALY.", "quantifier": "every detector state (any thresholds including NaN and infinities), every pair of non-NaN doubles", "why_tests_cant": "pairs of inputs in every state", "anchors": ["src/spot.c:spot_step"]}
{"id": "C11", "title": "Counters account for the whole history", "statement": "After spot_fit on a batch of size m and any sequence of steps, n = m + number of steps answered NORMAL or EXCESS and Nt = number of batch values strictly beyond the excess threshold + number of steps answered EXCESS (below 2^64 observations); in particular Nt<=n always.", "quantifier": "every batch, every history of steps", "why_tests_cant": "unbounded histories", "anchors": ["src/spot.c:spot_fit", "src/spot.c:spot_step"]}
{"id": "C12", "title": "Streaming never moves the excess threshold or the configuration", "statement": "No sequence of spot_step calls changes excess_threshold, q, level, low, discard_anomalies, or the window capacity.", "quantifier": "all histories of steps from any state", "why_tests_cant": "unbounded histories", "anchors": ["src/spot.c:spot_step"]}
{"id": "C13", "title": "The window is exactly the last max_excess excesses", "statement": "Starting from a freshly initialised window of capacity c>=1, after any sequence of pushes the window holds exactly the last min(k,c) pushed values (as a FIFO queue), its reported size is min(k,c), and each push returns the value pushed c pushes earlier, or NaN if there is none.", "quantifier": "every capacity c>=1 and every sequence of pushed values", "why_tests_cant": "unbounded capacity and history", "anchors": ["src/ubend.c:ubend_push", "src/ubend.c:ubend_size"]}
{"id": "C14", "title": "Memory safety of the streaming core", "statement": "For 1<=max_excess<2^61 and a successful init, no sequence of fit, step, quantile and probability calls ever reads or writes outside the allocated window, reads an uninitialised cell, or indexes outside the five P2 markers; only the float-to-integer conversion in the exponential can be undefined.", "quantifier": "every configuration, every batch, every history (NaN and infinities included)", "why_tests_cant": "all histories; tests cannot observe a silent out-of-bounds write", "anchors": ["src/ubend.c", "src/peaks.c", "src/p2.c", "src/estimator.c", "src/spot.c"]}
{"id": "C15", "title": "Degenerate capacities corrupt memory", "statement": "spot_init accepts max_excess=0 and max_excess>=2^61 (byte count wraps modulo 2^64): with an allocator that returns a non-null pointer of the requested size, init returns 0, and with max_excess=0 the first excess is written outside the allocated block; with max_excess=2^61 the block has 0 bytes and the same happens.", "quantifier": "max_excess=0, and every max_excess whose byte count wraps to less than 8", "why_tests_cant": "requires integer wrap-around reasoning at 2^61 elements", "anchors": ["src/ubend.c:ubend_init", "src/spot.c:spot_init"]}
{"id": "C16", "title": "Window minimum and maximum are exact at all times", "statement": "After any sequence of pushes of non-NaN values the stored min and max are the minimum and maximum of the values currently in the window (as doubles, infinities included).", "quantifier": "every capacity>=1, every sequence of non-NaN values", "why_tests_cant": "evictions and ties interact over unbounded histories", "anchors": ["src/peaks.c:peaks_push", "src/peaks.c:peaks_update_stats"]}
{"id": "C17", "title": "Window mean is the mean (exact arithmetic)", "statement": "In exact real arithmetic the running sum equals the sum of the window after any sequence of pushes, so peaks_mean is the mean of the last min(k,c) values.", "quantifier": "every capacity>=1, every sequence of reals", "why_tests_cant": "unbounded histories of incremental updates", "anchors": ["src/peaks.c:peaks_push", "src/peaks.c:peaks_mean"]}
{"id": "C18", "title": "Window variance is wrong after an extreme is evicted", "statement": "As long as no extreme value has been evicted the running second moment is the sum of squares (exact arithmetic); when the evicted value is the current min or max the recomputation leaves only the square of the last array cell, so peaks_var is no longer the variance and can be negative, and the method-of-moments scale can be negative.", "quantifier": "every window and every eviction of an extreme", "why_tests_cant": "unit tests only check a window that is not yet full", "anchors": ["src/peaks.c:peaks_update_stats", "src/peaks.c:peaks_var", "src/estimator.c:mom_estimator"]}
{"id": "C19", "title": "Stored excesses are numbers and non-negative", "statement": "In every state reachable by init, fit and steps, every value in the window is a non-NaN double >= 0; the values kept by fit are strictly positive.", "quantifier": "every batch and history (NaN and infinities included)", "why_tests_cant": "unbounded histories with special values", "anchors": ["src/spot.c:spot_fit", "src/spot.c:spot_step"]}
{"id": "C20", "title": "The tail fit keeps the most likely candidate", "statement": "tail_fit stores a pair (gamma,sigma) whose log-likelihood (as computed by the library on the current window) is the returned value; it is at least that of the method-of-moments candidate and of the exponential candidate whenever those likelihoods are numbers, and it is NaN only if both estimators returned NaN.", "quantifier": "every window content", "why_tests_cant": "comparison against all candidates in all states, with NaN semantics", "anchors": ["src/tail.c:tail_fit", "src/estimator.c:grimshaw_estimator", "src/estimator.c:mom_estimator"]}
{"id": "C21", "title": "spot_fit return codes", "statement": "spot_fit returns only 0, -ERR_EXCESS_THRESHOLD_IS_NAN or -ERR_ANOMALY_THRESHOLD_IS_NAN; on 0 both thresholds are numbers; on the first error the thresholds and window are untouched (only the counters were overwritten); on the second the excess threshold is a number and the anomaly threshold NaN.", "quantifier": "every detector state and batch", "why_tests_cant": "all batches and states", "anchors": ["src/spot.c:spot_fit"]}
{"id": "C22", "title": "The excess threshold lies within the training data", "statement": "For a batch of 5 to 2^52 finite values (spread below overflow) the excess threshold computed by spot_fit is a finite number between the minimum and maximum of the batch, for every level, both tails; hence such a fit never fails with ERR_EXCESS_THRESHOLD_IS_NAN.", "quantifier": "every batch of at least five finite doubles, every p", "why_tests_cant": "rounded marker interpolation over unbounded batches", "anchors": ["src/p2.c:p2_quantile", "src/p2.c:quantile", "src/spot.c:spot_fit"]}
{"id": "C23", "title": "P2 is total and index-safe on every input", "statement": "The P2 quantile terminates without out-of-bounds access for every array, including arrays containing NaN and infinities and including the case where the cell index wraps below zero.", "quantifier": "every array of doubles of every length, every p", "why_tests_cant": "the index k is decremented below zero and relied on to wrap; NaN makes every comparison false", "anchors": ["src/p2.c:quantile"]}
{"id": "C24", "title": "sort5 sorts", "statement": "sort5 returns a permutation of its five inputs for every input, and an ascending one whenever no input is NaN.", "quantifier": "every five doubles", "why_tests_cant": "2^320 inputs", "anchors": ["src/p2.c:sort5"]}
{"id": "C25", "title": "Batches shorter than five give a zero excess threshold", "statement": "spot_fit on fewer than five values sets the excess threshold to +0.0 whatever the data and level, counts the values strictly beyond zero as excesses and appends exactly those to the window.", "quantifier": "every batch of length < 5", "why_tests_cant": "all values of the batch", "anchors": ["src/p2.c:quantile", "src/spot.c:spot_fit"]}
{"id": "C26", "title": "Refitting does not forget the previous tail", "statement": "Calling spot_fit again resets the counters but not the window: after the second fit the window holds the last max_excess values of (old window ++ new excesses). So the result of fit depends on the history; the content of the window depends only on the batch if the window was empty or if the batch has at least max_excess excesses.", "quantifier": "every detector state and batch", "why_tests_cant": "history dependence over all states", "anchors": ["src/spot.c:spot_fit"]}
{"id": "C27", "title": "The built-in ldexp is correctly rounded", "statement": "musl_ldexp(x,n) returns the IEEE round-to-nearest-even of x*2^n (one rounding, including in the subnormal range and overflow to infinity), and propagates NaN, infinities and signed zeros, for every double x and every int n.", "quantifier": "every double, every int", "why_tests_cant": "2^96 inputs; double rounding only shows for rare inputs", "anchors": ["src/xmath.c:musl_ldexp"]}
{"id": "C28", "title": "The built-in frexp is exact", "statement": "For every finite non-zero double x, musl_frexp returns m and writes e with x = m*2^e exactly and 1/2<=|m|<1 (subnormals included); zero gives e=0 and the same zero; infinities and NaN are returned unchanged and the exponent is not written.", "quantifier": "every double", "why_tests_cant": "2^64 inputs with bit-level encoding", "anchors": ["src/xmath.c:musl_frexp"]}
{"id": "C29", "title": "xlog: special values and accuracy", "statement": "xlog returns NaN for NaN and negatives, -inf for both zeros, NaN (not +inf) for +inf. For every positive finite double the binary64 result is finite, has relative error at most 8e-16 on [1/2,1), absolute error at most 1e-10 on [1/4,1/2) and at most 1e-15+3e-16*|ln x| elsewhere. In exact arithmetic the continued fraction is never below ln, within 2e-17 on [1/2,1] and 9e-11 on [1/4,1]. The documented relative error of 4e-16 is violated just above 1 (half of the value is lost) and at 1/4 (error above 6e-11).", "quantifier": "every positive double / every real in the range", "why_tests_cant": "a bound for all arguments; the documented table was sampled", "anchors": ["src/xmath.c:xlog", "src/xmath.c:_log_cf_11", "docs/internals/50_math.md"]}
{"id": "C30", "title": "xexp: special values, accuracy and domain", "statement": "xexp(NaN)=NaN and xexp(+-0)=1 exactly. For |x|<=708 the binary64 result is finite with relative error at most 1.5e-16*|x|+3e-15; from 710 to 2^31*ln 2 it is +inf (0 for the opposite). The conversion of x/ln2 to unsigned int is defined for |x|<=2977044471 and undefined from 2977044472 on, infinities included; between 2^31*ln 2 and 2^32*ln 2 the exponent wraps and exp of a huge positive number is 0, of a huge negative one +inf. In exact arithmetic the continued fraction is never above exp on [0,ln 2], within a relative 1.6e-15.", "quantifier": "every double", "why_tests_cant": "needs all arguments", "anchors": ["src/xmath.c:xexp", "src/xmath.c:_exp_cf_6"]}
{"id": "C31", "title": "Quantile and tail probability are mutually inverse (exact arithmetic)", "statement": "With exact log/exp, for sigma>0, 0<q, Nt>0: spot_probability(spot_quantile(q)) = q and spot_quantile(spot_probability(z)) = z for every z inside the support, for every gamma (zero, positive or negative) and both tails.", "quantifier": "all tail parameters, counters, q and z", "why_tests_cant": "continuum of parameters", "anchors": ["src/spot.c:spot_quantile", "src/spot.c:spot_probability", "src/tail.c"]}
{"id": "C32", "title": "Ordering of thresholds (exact arithmetic)", "statement": "With exact log/exp and sigma>0, the quantile function is strictly decreasing in q on the monitored side, and the anomaly threshold is at or beyond the excess threshold exactly when q <= Nt/n; so ANOMALY implies strictly beyond the excess threshold as long as q<=Nt/n.", "quantifier": "all tail parameters, counters and q", "why_tests_cant": "continuum of parameters", "anchors": ["src/tail.c:tail_quantile", "src/spot.c:spot_quantile"]}
{"id": "C33", "title": "Root finder contract", "statement": "For every function f, if brent reports success with result b then f(b)=0 or there is an evaluated point c with f(c) of the opposite (or zero) sign and |c-b|/2 within the tolerance; it fails immediately if f has the same strict sign at both ends; it evaluates f at most 202 times; in exact arithmetic all evaluation points stay between the two ends, and for continuous f a true root lies within 2*tol1 of b.", "quantifier": "every function, every interval, every tolerance", "why_tests_cant": "every function and floating-point interval", "anchors": ["src/brent.c:brent"]}
{"id": "C34", "title": "Error messages", "statement": "libspot_error with a code from 1000 to 1004 fills the buffer with the corresponding message truncated to size-1 and zero-padded; for every other code, including the documented ERR_DATA_IS_NAN=1005, it leaves the buffer untouched.", "quantifier": "every code, every buffer, every size >= 1", "why_tests_cant": "all sizes and codes", "anchors": ["src/spot.c:libspot_error", "src/spot.c:strncpy"]}
{"id": "C35", "title": "String copies are bounded and terminated", "statement": "For size>=1, libspot_version/libspot_license/libspot_error write only indices below size, always terminate with NUL, and copy exactly the longest prefix that fits; a null buffer is a no-op; size=0 with a non-null buffer writes outside the buffer.", "quantifier": "every source string, buffer and size", "why_tests_cant": "all sizes", "anchors": ["src/spot.c:strncpy"]}
{"id": "C36", "title": "Allocation discipline", "statement": "One successful init performs exactly one allocation, of 8*max_excess bytes; fit, step, quantile and probability never call the allocator; one spot_free releases exactly that block; so init;(fit|step|quantile|probability)*;free leaves the heap as it was.", "quantifier": "every history, every heap", "why_tests_cant": "leaks and double frees depend on whole histories", "anchors": ["src/spot.c", "src/ubend.c", "src/allocator.c"]}
{"id": "C37", "title": "Hazards of spot_free", "statement": "spot_free does not clear the data pointer: a second spot_free frees the same block again; after a rejected spot_init, spot_free frees whatever pointer was in the uninitialised struct (harmless only if it was NULL).", "quantifier": "every state after one free / after a rejected init", "why_tests_cant": "use-after-free is invisible to unit tests", "anchors": ["src/ubend.c:ubend_free", "src/spot.c:spot_free"]}
{"id": "C38", "title": "Pluggable functions", "statement": "set_allocators installs exactly the two given functions, null included (then init fails with -1000 and frees are no-ops); set_float_utils replaces only the functions whose pointer is non-null.", "quantifier": "every previous configuration and arguments", "why_tests_cant": "all combinations in any order", "anchors": ["src/allocator.c", "src/xmath.c:internal_set_float_utils"]}
{"id": "C39", "title": "Lower tail mirrors upper tail", "statement": "A lower-tail detector whose thresholds are the negatives of an upper-tail detector's and with the same window answers exactly like it on the negated stream and stays its mirror image after every step, as long as no observation equals the excess threshold (then the pushed zero has opposite sign). Calibration is not symmetric: opposite batches and complementary orders need not give opposite thresholds.", "quantifier": "every pair of mirrored states, every stream", "why_tests_cant": "bisimulation over all streams with rounding", "anchors": ["src/spot.c:spot_step", "src/spot.c:spot_quantile"]}
{"id": "C40", "title": "The detector can become blind", "statement": "spot_step may set the anomaly threshold to NaN without reporting an error, and from then until the next EXCESS recomputes it no value whatever (infinities included) is reported ANOMALY.", "quantifier": "every state with NaN anomaly threshold and every stream", "why_tests_cant": "all streams", "anchors": ["src/spot.c:spot_step"]}
{"id": "C41", "title": "Detectors do not interfere", "statement": "Operations on one detector never change another detector's fields, window or results, for any interleaving of operations on separately initialised detectors.", "quantifier": "every interleaving of operations on any number of detectors", "why_tests_cant": "all interleavings", "anchors": ["src/spot.c", "src/allocator.c"]}
{"id": "C42", "title": "P2 ignores new extremes", "statement": "Values below the current minimum or above the current maximum update only the extreme marker and no position; hence for every strictly increasing (or strictly decreasing) batch of size >= 5 the excess threshold is the third of the first five sorted values whatever the level: the threshold is not the level-quantile.", "quantifier": "every monotone batch, every level", "why_tests_cant": "all batches", "anchors": ["src/p2.c:quantile", "docs/internals/60_fit.md"]}
{"id": "C43", "title": "Python binding semantics", "statement": "Spot.fit on a list or an iterable other than a tuple is spot_fit on the values of its items, an item that is not a number counting as -1, and every failure is seen as SystemError because None is returned with an exception set; on any tuple, or when malloc fails, it writes outside the buffer. Spot.step observes -1 for a non-number before the exception is seen, and returns the error code of NaN as an ordinary int. Spot.excesses() lists the window in array order. The constructor is spot_init with the documented defaults, or raises and leaves the heap unchanged. A Spot on which __init__ has not run writes through a null pointer at its first finite observation.", "quantifier": "every python argument, every state", "why_tests_cant": "argument classes x states x allocator answers", "anchors": ["python/libspotmodule.c"]}
{"id": "C44", "title": "JavaScript binding semantics", "statement": "The byte offsets 32 and 40 read by the JS class are those of anomaly_threshold and excess_threshold in the wasm32 layout of the struct, and the getters return the two thresholds bit for bit. step throws exactly on NaN, with an empty message, and otherwise returns 0, 1 or 2. fit on an array that is its whole buffer is spot_fit, a failed fit throws and leaks its input buffer; on any other view it writes past the allocated block. The finaliser of an object whose parameters were rejected frees the address the struct memory held before: an invalid free, or another detector's window.", "quantifier": "every argument, memory and state", "why_tests_cant": "layout and lifecycle facts", "anchors": ["wasm/index.ts", "include/structs.h"]}
{"id": "C45", "title": "Undefined conversions reachable from the API", "statement": "spot_quantile(q=0) and spot_probability at the support end point (1+gamma*d/sigma = 0) reach an undefined float-to-unsigned conversion for every non-zero finite gamma; any other q is defined when gamma is NaN or |gamma| <= 3.9e6, and any other value is defined for |gamma| >= 3e-7. With gamma = 0 spot_probability is defined exactly for scaled excesses below 2^32*ln2. spot_fit and spot_step are undefined only if the fit finds a shape beyond 3.9e6 in magnitude; this does happen, for instance on a batch of zeros with three peaks of 0.3.", "quantifier": "every state of the detector, every argument", "why_tests_cant": "all states", "anchors": ["src/xmath.c:xexp", "src/tail.c", "src/spot.c"]}
{"id": "C46", "title": "xmin is a NaN-propagating minimum", "statement": "xmin returns NaN if either argument is NaN, otherwise one of its arguments, which is less than or equal to both.", "quantifier": "every pair of doubles", "why_tests_cant": "2^128 pairs", "anchors": ["src/xmath.c:xmin"]}
{"id": "C47", "title": "Method of moments (exact arithmetic)", "statement": "On a window with a correct second moment and positive variance the method-of-moments estimator returns the unique (gamma,sigma) with gamma<1/2 whose generalised Pareto mean sigma/(1-gamma) and variance sigma^2/((1-gamma)^2(1-2gamma)) are the window mean and variance.", "quantifier": "every window of reals", "why_tests_cant": "continuum of windows", "anchors": ["src/estimator.c:mom_estimator"]}
{"id": "C48", "title": "log_likelihood is the generalised Pareto log-likelihood (exact arithmetic)", "statement": "With exact log, for sigma>0 and all points in the support, log_likelihood(gamma,sigma) is the sum over the window of the log-density of the generalised Pareto distribution, for gamma zero and non-zero.", "quantifier": "every window, gamma, sigma", "why_tests_cant": "continuum of windows", "anchors": ["src/peaks.c:log_likelihood"]}
{"id": "C49", "title": "Grimshaw roots are stationary points (exact arithmetic)", "statement": "Any non-zero root x of the function searched by the Grimshaw estimator yields gamma = mean log(1+x*y), sigma = gamma/x at which both partial derivatives of the generalised Pareto log-likelihood vanish.", "quantifier": "every window, every root", "why_tests_cant": "continuum", "anchors": ["src/estimator.c:grimshaw_w", "src/estimator.c:grimshaw_v"]}
{"id": "C50", "title": "Marker invariants of P2", "statement": "Throughout the P2 run on finite non-overflowing data the five markers stay sorted and the marker positions stay strictly increasing integers; the outer markers are exactly the running minimum and maximum of the data.", "quantifier": "every batch of finite doubles up to 2^52 values, every p", "why_tests_cant": "loop invariant with rounding", "anchors": ["src/p2.c:quantile"]}
{"id": "C51", "title": "The complete effect of a calibration", "statement": "A spot_fit that returns takes as excess threshold the P2 quantile of the batch of order level (upper tail) or 1-level (lower tail). If that is NaN it returns -1003 having changed the two counters only. Otherwise it sets n to the batch size, Nt to the number of values strictly beyond the threshold, pushes exactly the distances of those values in order, refits the tail on the window so filled, sets the anomaly threshold to spot_quantile(q) of the state it leaves, returns -1004 or 0 according to whether that is NaN, and leaves q, level, side and policy alone.", "quantifier": "every reachable detector, every batch below 2^64 values", "why_tests_cant": "all histories x all batches", "anchors": ["src/spot.c:spot_fit"]}
{"id": "C52", "title": "Maximum likelihood search (exact arithmetic)", "statement": "For a window of positive excesses with least value m, greatest value M and mean E, every non-zero root of Grimshaw's function lies in (-1/M, 0) or (0, 2(E-m)/m^2), the two ranges searched. The estimator returns the most likely of the exponential fit and of the points found by the searches on [-1/M+e, -e] and [e, 2(E-m)/m^2] with e = min(2e-8, 1/(2M)); a point found is within 8e-8*|x|+2e-8 of a root. tail_fit then leaves sigma>0 with every excess inside the support, and a likelihood no smaller than that of the exponential fit and of the moment fit.", "quantifier": "every window of positive reals", "why_tests_cant": "continuum of windows", "anchors": ["src/estimator.c:grimshaw_estimator", "src/tail.c:tail_fit"]}
{"id": "C53", "title": "P2 is the Jain-Chlamtac algorithm (exact arithmetic)", "statement": "For every p and every batch of at least five reals, p2_quantile is the height of the middle marker of the P2 algorithm run on the sorted first five values, with desired positions p/2, p and (1+p)/2 of the top position, parabolic interpolation through the neighbouring markers, linear interpolation where the parabola leaves the interval between the neighbours, and values beyond the current extremes replacing them uncounted. The estimate follows any change of unit x -> a*x+b, a>0, of the data.", "quantifier": "every p, every batch of reals", "why_tests_cant": "continuum of batches of any length", "anchors": ["src/p2.c"]}
{"id": "C54", "title": "Accuracy of xpow", "statement": "With the built-in ldexp and frexp, for a finite positive base a and a finite exponent x with |x|<=1e6 and |x ln a|<=700, xpow(a,x) is defined, finite, and differs from a^x by a relative error of at most 1.01*E*|x| + 4e-16*|x ln a| + 3.1e-15, E the absolute error of the logarithm (1e-10 for a in [1/4,1/2), 1e-15(1+|ln a|) otherwise).", "quantifier": "every pair of doubles in the range", "why_tests_cant": "2^128 pairs", "anchors": ["src/xmath.c:xpow"]}
{"id": "C55", "title": "Accuracy of the anomaly threshold", "statement": "For a detector with finite parameters away from overflow, spot_quantile (hence the anomaly threshold stored after an excess and after a successful spot_fit) differs from the ideal generalised Pareto quantile of its parameters by at most an explicit bound: the relative error of log and exp, the latter divided by |gamma|. The division matters: when |gamma|*|ln(rho)| < 1e-16 the quantile is exactly the excess threshold, although the ideal one lies beyond it by sigma*|ln(rho)|.", "quantifier": "every state with finite parameters, every risk", "why_tests_cant": "continuum of states; the loss needs shapes no test would produce", "anchors": ["src/spot.c:spot_quantile", "src/tail.c:tail_quantile"]}
{"id": "C56", "title": "The anomaly threshold never lies inside the excess threshold (binary64)", "statement": "For a detector with finite parameters and any risk 0<q<=Nt/n, spot_quantile is not NaN and lies on the outer side of the excess threshold or on it, whatever the rounding errors of log, exp, division and subtraction.", "quantifier": "every state with finite parameters, every risk", "why_tests_cant": "the signs of the rounded log and exp matter at every double", "anchors": ["src/spot.c:spot_quantile", "src/tail.c:tail_quantile", "src/xmath.c:xexp", "src/xmath.c:xlog"]}
{"id": "C57", "title": "Accuracy of the tail probability", "statement": "For a detector with finite parameters and a finite value z whose argument 1+gamma*(z-et)/sigma is at least 1/1000, spot_probability is defined, finite and differs from (Nt/n)*P(generalised Pareto excess > distance) by an explicit relative error: the errors of the argument and of its logarithm divided by |gamma|, plus a few units.", "quantifier": "every state with finite parameters, every value in the range", "why_tests_cant": "continuum of states", "anchors": ["src/spot.c:spot_probability", "src/tail.c:tail_probability"]}
{"id": "C58", "title": "Python attributes, raw() and struct sizes", "statement": "On LP64 the eight attributes q, level, anomaly_threshold, excess_threshold, Nt, n, gamma, sigma of a Python Spot object are exactly the members of the C struct (doubles bit for bit, counters modulo 2^64), there is no other data attribute, and they agree with as_dict(). raw() is the 152 bytes of the struct: every member can be read in it, and the excesses are not in it. On wasm32 spot_size() is 128.", "quantifier": "every detector state, every memory holding it", "why_tests_cant": "depends on offsets, padding and byte order", "anchors": ["python/libspotmodule.c:Spot_raw", "python/libspotmodule.c:Spot_members", "wasm/main.c:spot_size"]}
{"id": "C59", "title": "The running mean does not drift", "statement": "After any sequence of at most 2^50 finite non-negative excesses up to 1e280, in binary64 the incrementally maintained sum differs from the sum of the window by at most 4*K*2^-53*(n+1)*max and the mean from the true mean by at most 10*K*2^-53*max+2^-1074, where K counts the excesses so far, n the window and max is the largest value of the window now: large values that have left the window leave no error behind.", "quantifier": "every sequence of excesses, every capacity", "why_tests_cant": "error accumulation over unbounded histories", "anchors": ["src/peaks.c:peaks_push", "src/peaks.c:peaks_update_stats", "src/peaks.c:peaks_mean"]}
{"id": "C60", "title": "Detectors of very small quantities", "statement": "A change of unit of the observations should not change the verdicts. It does: when the largest excess of the window is at most 2.7e-9, the term 1-2e-8*y of Grimshaw's function rounds to 1, the search returns its end point as a root, and the fit is shape 0 and scale -0 with likelihood +infinity. The anomaly threshold is then the excess threshold, so a detector that discards anomalies answers ANOMALY to every value beyond the excess threshold and never records one again.", "quantifier": "every reachable detector whose excesses are at most 2.7e-9", "why_tests_cant": "needs data in an unusual unit; the cause is absorption in a sum", "anchors": ["src/estimator.c:grimshaw_estimator", "src/brent.c:brent", "src/tail.c:tail_fit"]}
{"id": "C61", "title": "The root finder stays in its bracket (binary64)", "statement": "In binary64 and for any function whatever (continuous or not, NaN or not), with finite bounds up to 1e199 in either order and a tolerance of at least 1e-40: the root brent reports is a finite number between the two bounds, and the function is never evaluated outside them, so two functions that agree between the bounds give the same result. The interpolation steps, the step of at least the tolerance and their roundings never leave the bracket.", "quantifier": "every function, every pair of bounds, every tolerance in the range", "why_tests_cant": "every function on the doubles; the danger is a rounded step just outside the bracket, where Grimshaw's function takes the log of a negative number", "anchors": ["src/brent.c:brent"]}
{"id": "C62", "title": "The fitted parameters are usable (binary64)", "statement": "Just after an excess or a successful spot_fit, in binary64, if the mean excess is finite and positive then the shape and the scale are finite, the scale is positive and, for a non-zero shape, each excess y of the window has 1+(gamma/sigma)*y>=0 as computed; or shape and scale are 0 and -0. The latter is excluded when the largest excess is at least 2e-8 times the number of excesses and at most 1e30, the smallest at least 1e-80 and at most the computed mean; then, for a risk q<=Nt/n and a computed variance of at least 1e-6 times the square of the mean, the anomaly threshold is not NaN and is not on the inner side of the excess threshold, so that spot_fit never returns -1004.", "quantifier": "every reachable detector, every observation, every batch", "why_tests_cant": "the parameters come out of an iterative search on rounded logarithms", "anchors": ["src/tail.c:tail_fit", "src/estimator.c:grimshaw_estimator", "src/peaks.c:log_likelihood", "src/spot.c:spot_step", "src/spot.c:spot_fit"]}
{"id": "C63", "title": "What a verdict means (binary64)", "statement": "A detector that discards anomalies answers ANOMALY to x exactly when the fitted law says that values beyond x have probability at most q, up to an explicit error on x: just after an excess or a calibration, and after any further observations that are not excesses, if x is flagged then Nt/n times the generalised Pareto survival function at D+err is at most q, and if x is not flagged then at D-err it is at least q, where D is the signed distance of x to the excess threshold and err bounds all the roundings and the error of xpow and xlog.", "quantifier": "every detector with parameters in the usual range, every stream without excess, every observation", "why_tests_cant": "relates the code returned to a probability over the reals", "anchors": ["src/spot.c:spot_step", "src/spot.c:spot_quantile", "src/tail.c:tail_quantile"]}
{"id": "C64", "title": "Change of origin (exact arithmetic)", "statement": "Adding a constant b to every observation changes nothing but the origin: two detectors initialised alike, one receiving x and the other x+b in every fit and step, return the same codes and the same probabilities, their thresholds and quantiles differ by b and their tails are equal, for every interleaving of calls whose batches hold at least five numbers. A batch of fewer than five breaks it, because the excess threshold is then 0 whatever the data.", "quantifier": "every session, every b", "why_tests_cant": "an equality over all streams and all shifts", "anchors": ["src/spot.c:spot_fit", "src/spot.c:spot_step", "src/p2.c:p2_quantile"]}
{"id": "C65", "title": "Accuracy of the log-likelihood (binary64)", "statement": "For a detector with n finite excesses up to 1e100 and finite parameters of ordinary magnitude whose support contains the excesses with a margin of 1e-5, the log-likelihood the code computes is a finite number and its distance to the generalised Pareto log-likelihood over the reals is at most n*(1+1/|gamma|)*(1e-9+2e-13*n); for shape zero the distance is at most n*1e-9 plus (4e-16*S+|S-true sum|)/sigma, S being the running sum.", "quantifier": "every reachable detector, every pair of parameters in the range", "why_tests_cant": "a sum of rounded logarithms over every window", "anchors": ["src/peaks.c:log_likelihood", "src/peaks.c:peaks_push", "src/xmath.c:xlog"]}
{"id": "C66", "title": "The fit is no worse than the exponential fit (binary64)", "statement": "Just after an excess or a calibration, in binary64, the fitted generalised Pareto law makes the window at least as likely, over the reals, as the exponential law with the computed mean, up to the errors of the two computed likelihoods (C65) and of the running sum.", "quantifier": "every reachable detector with fitted parameters in the range of C65", "why_tests_cant": "compares two real likelihoods chosen by rounded computations", "anchors": ["src/tail.c:tail_fit", "src/peaks.c:log_likelihood", "src/estimator.c:grimshaw_estimator", "src/spot.c:spot_step", "src/spot.c:spot_fit"]}
{"id": "C67", "title": "The order of the observations is irrelevant (exact arithmetic)", "statement": "With anomalies not discarded and as long as no excess leaves the window, a stream and any permutation of it give the same answer to each observation and leave the same excess threshold, counters, shape, scale and multiset of excesses; if both end with the same excess, the same anomaly threshold. The last condition is needed (the anomaly threshold depends on where the last excess was) and so is exact arithmetic (in binary64 the order of the excesses changes the threshold by roundings).", "quantifier": "every reachable detector, every stream, every permutation", "why_tests_cant": "all permutations of all streams", "anchors": ["src/spot.c:spot_step", "src/peaks.c:peaks_push", "src/tail.c:tail_fit", "src/estimator.c:grimshaw_estimator"]}
{"id": "C68", "title": "The anomaly threshold goes stale between excesses", "statement": "The anomaly threshold should be the quantile of q of the detector's present law. It is only recomputed at an excess: after observations none of which is an excess and at least one of which is normal, the quantile of q with the present counters is strictly inside the threshold in use (exact arithmetic), and every observation between the two is not flagged although spot_probability gives it less than q. A binary64 run shows it: 11.5 is recorded as an excess while its computed probability is below q.", "quantifier": "every detector with real parameters, every stream without excess", "why_tests_cant": "an inequality between two reals for every stream", "anchors": ["src/spot.c:spot_step", "src/spot.c:spot_quantile", "src/spot.c:spot_probability"]}
{"id": "C69", "title": "The fit is not the most likely law", "statement": "The fitted generalised Pareto law should be the most likely one for the excesses of the window. It is not: if half of the n excesses are a and half are b>=1024*a, in any order, the fitted shape is never positive, and a law of positive shape is more likely by a factor of at least (b/a)^(n/8) (exact arithmetic), because the two searches for a root see no sign change. A binary64 run shows it: with the excesses 1/64, 256, 1/64, 256 the program's own log_likelihood gives the law of shape 6 and scale 5/128 eight units more than the fit.", "quantifier": "every a, every b, every number of excesses, every order", "why_tests_cant": "a comparison of real likelihoods for every sample of the family", "anchors": ["src/estimator.c:grimshaw_estimator", "src/tail.c:tail_fit", "src/peaks.c:log_likelihood", "src/brent.c:brent"]}
{"id": "C70", "title": "The example program basic.c", "statement": "examples/basic.c, whatever rand() returns: either malloc(1600) fails, main returns 1000 and the heap is as before; or that block is the only allocation and is still in the heap at the end (it is never freed), and either the calibration fails and main returns 1003 or 1004, or main returns 0 and the printed ANOMALY, EXCESS and NORMAL add up to the number of steps (so that the ints cannot overflow), n is the number of initial data plus EXCESS plus NORMAL, and Nt the number of initial data beyond the excess threshold plus EXCESS. The only undefined behaviour is an out-of-range float to integer conversion.", "quantifier": "every sequence of random numbers, every number of data and steps, every fresh malloc", "why_tests_cant": "all outcomes of rand() and malloc", "anchors": ["examples/basic.c:main", "src/spot.c:spot_init", "src/spot.c:spot_fit", "src/spot.c:spot_step"]}
{"id": "C71", "title": "The example program basic.py", "statement": "examples/basic.py on any training set and any stream without NaN: the line has one value per observation; the points drawn as anomalies are exactly the observations above the previous value of the line (the threshold after the calibration for the first), in order, once each; and each of them lies strictly above the line as drawn.", "quantifier": "every training set, every stream", "why_tests_cant": "all streams", "anchors": ["examples/basic.py", "python/libspotmodule.c:Spot_step", "src/spot.c:spot_step"]}
{"id": "C72", "title": "An observation equal to the excess threshold hides a heavy tail", "statement": "The estimated shape should follow the data. Calibration stores only excesses that are strictly positive, but spot_step counts an observation equal to the excess threshold as an excess and stores a zero. While a zero is in the window (largest excess between 2e-8 times their number and 1e30, computed mean and variance positive), the fitted shape is at most 1/2 whatever the other excesses, because the search for the positive root starts from an infinite bound. A binary64 run shows the effect: one such observation lowers the shape from above 2 to below 1/2 and divides the anomaly threshold by more than ten, so that 5000, far below the threshold, becomes an anomaly.", "quantifier": "every reachable detector, every window holding a zero excess", "why_tests_cant": "all windows, over binary64", "anchors": ["src/spot.c:spot_step", "src/spot.c:spot_fit", "src/estimator.c:grimshaw_estimator", "src/brent.c:brent"]}
{"id": "C73", "title": "What the accuracy benchmarks report", "statement": "The maximum relative error printed by the accuracy benchmarks should bound the relative error of the approximation. It does not: it is the largest of 0 and of the signed quotients (app-ref)/ref, so values that are too small in magnitude and NaNs are never reported. The mantissa error bounds the error in units of the last place within a binade only; the exponent is ignored, so an approximation that returns half of the reference everywhere scores zero for both figures, for every grid of normal references.", "quantifier": "every list of pairs (reference, approximation)", "why_tests_cant": "a statement about every approximation the benchmark could be given", "anchors": ["benchmark/pow_accuracy_speed.c:accuracy", "benchmark/log_cf_accuracy.c:accuracy", "benchmark/exp_cf_accuracy.c:accuracy"]}
{"id": "C74", "title": "The logarithm of the benchmarks", "statement": "The logarithm measured by the benchmarks has relative error at most 1.5e-15 on every positive normal double. It is not the logarithm of the library, which selects the direct range by another exponent test and for which even 0.48 is not a bound. Over the reals the recursive continued fraction at depth 11 is the unrolled one.", "quantifier": "every positive normal double; every positive real for the fraction", "why_tests_cant": "2^62 doubles, error against the real logarithm", "anchors": ["benchmark/pow_accuracy_speed.c:_log", "benchmark/log_cf_speed.c:_log", "benchmark/log_cf_accuracy.c:log_cf", "src/xmath.c:xlog"]}
{"id": "C75", "title": "The exponential of the benchmarks", "statement": "On [-709,709] the exponential of pow_accuracy_speed.c is the library's bit for bit. Beyond, it adds to the exponent field modulo 2^11: exp(710) is NaN, exp(1000) is below 1, exp(-1000) above 1, exp of an infinity is undefined behaviour. Over the reals the recursive fraction at depth 6, the rewritten one of exp_cf_speed.c and the library's are the same function.", "quantifier": "every double in the range; every real for the fractions", "why_tests_cant": "2^63 doubles", "anchors": ["benchmark/pow_accuracy_speed.c:_exp", "benchmark/exp_cf_speed.c:_exp_cf_6", "benchmark/exp_cf_accuracy.c:exp_cf", "src/xmath.c:xexp"]}
{"id": "C76", "title": "The P2 program of the benchmarks is not the library's", "statement": "The P2 estimate of benchmark/p2.c should be that of the library. It is not: its sort5 is a permutation in decreasing order, so the markers start reversed, and it answers NaN instead of 0 for fewer than five values; on a concrete batch of ten the medians are 3 and 2.6.", "quantifier": "every five doubles without NaN, every shorter batch", "why_tests_cant": "all orders of all values", "anchors": ["benchmark/p2.c:sort5", "benchmark/p2.c:quantile", "src/p2.c:p2_quantile"]}
{"id": "C77", "title": "The table of depths of the exponential", "statement": "The documentation gives 1.014192E-14 as the maximal relative error of the continued fraction of exp at depth 4. Over the reals that fraction underestimates exp by at least 3.93e-8*z^9 in relative value on [0,0.7], so 1.5e-9 is not a bound; the documented figure comes from the signed error of the benchmark. At depth 6, the depth of the library, the fraction underestimates as well.", "quantifier": "every real of the range", "why_tests_cant": "an inequality against the real exponential", "anchors": ["docs/internals/50_math.md", "benchmark/exp_cf_accuracy.c:exp_cf", "src/xmath.c:xexp"]}
{"id": "C78", "title": "What a calibration keeps", "statement": "The documentation says that with size=1000 and level=0.99 the 990 lowest data are dropped and the 10 highest kept. On a batch in increasing or decreasing order the number of excesses after calibration does not depend on the level: it is the size minus 3 when the values come from the far side of the tail, and 2 otherwise.", "quantifier": "every reachable detector, every strictly monotone batch of at least five values", "why_tests_cant": "all sizes, all levels, all monotone batches", "anchors": ["docs/30_parameters.md", "src/spot.c:spot_fit", "src/p2.c:p2_quantile"]}
{"id": "C79", "title": "A lower risk flags less", "statement": "The documentation says that a lower q gives a lower detection rate. For two detectors that differ by q only, calibrated on the same batch and fed the same stream, at the first observation answered differently the one with the larger q answers ANOMALY (exact arithmetic). From then on the order is lost: in a binary64 run the detector with q=3/32 flags two of four observations and the one with q=1/8 only one.", "quantifier": "every pair of risks, every batch, every stream", "why_tests_cant": "all streams and all pairs of risks", "anchors": ["docs/30_parameters.md", "src/spot.c:spot_step", "src/spot.c:spot_fit", "src/spot.c:spot_quantile"]}
{"id": "C80", "title": "A 32-bit unsigned long gives the same detector", "statement": "The Windows wheels and the WebAssembly build have a 32-bit unsigned long, the other builds a 64-bit one. With max_excess below 2^29 and fewer than 2^32 observations in all, every call gives the same answer and the same state on both.", "quantifier": "every session, every arithmetic, every value of the parameters", "why_tests_cant": "all sessions of up to 2^32 observations", "anchors": ["src/ubend.c:ubend_push", "src/ubend.c:ubend_init", "src/spot.c:spot_step", "src/spot.c:spot_fit", ".github/workflows/python.yaml", "wasm/libspot.test.ts"]}
{"id": "C81", "title": "Beyond 2^32 with a 32-bit unsigned long", "statement": "The counter of observations starts again at 0 after 2^32 observations, and nothing else changes until an excess: then, over the reals, the anomaly threshold is strictly farther out than on 64 bits for the same stream; in binary64 a run gives 8.3 instead of -25, and an infinite tail probability when the counter is 0. From max_excess = 2^29 on, the size of the window is computed modulo 2^32: spot_init answers 0 and the excesses are written past the end of the block.", "quantifier": "every detector and stream of normal observations followed by an excess; every capacity from 2^29 to 2^32", "why_tests_cant": "streams of more than 2^32 observations, windows of 4 GiB", "anchors": ["src/spot.c:spot_step", "src/ubend.c:ubend_init", "src/ubend.c:ubend_push", "src/spot.c:spot_fit"]}
{"id": "C82", "title": "Every refit is usable over the reals", "statement": "In exact arithmetic, after every excess and every calibration that found its excess threshold, the excesses of the window being positive, the fitted distribution is usable: the scale is positive, every excess is in the support, the likelihood is at least that of the exponential fit, and the anomaly threshold is a real number, the quantile of q. Such a calibration answers 0.", "quantifier": "every reachable detector, every window of positive excesses", "why_tests_cant": "all sessions, over the reals", "anchors": ["src/spot.c:spot_step", "src/spot.c:spot_fit", "src/tail.c:tail_fit", "src/estimator.c:grimshaw_estimator"]}
{"id": "C83", "title": "The logarithm is monotone between 2^-48 and 32", "statement": "xlog preserves the order of two doubles of the same binade, of two doubles between 2^-48 and 32, and strictly of two doubles a relative 1e-9 apart, and its sign is right everywhere. It is not monotone: the logarithm of 32 is below that of the preceding double.", "quantifier": "every pair of positive finite doubles", "why_tests_cant": "2^124 pairs", "anchors": ["src/xmath.c:xlog", "src/xmath.c:_log_cf_11", "src/xmath.c:musl_frexp"]}
{"id": "C84", "title": "The tail probability is on the right side of the frequency of the excesses", "statement": "spot_probability of a value beyond the excess threshold is between 0 and the computed Nt/n, that of a value inside is at least Nt/n, and at the excess threshold it is Nt/n exactly (binary64). Beyond the end of the support of a light tail, where the probability is 0, it is NaN. The test of the JavaScript binding expects an observation flagged EXCESS to have probability at most 1-level: a run with level 3/4 refutes it.", "quantifier": "every detector with finite parameters in the stated ranges, every double", "why_tests_cant": "inequalities between doubles for every state", "anchors": ["src/spot.c:spot_probability", "src/tail.c:tail_probability", "wasm/libspot.test.ts"]}
{"id": "C85", "title": "The exponential is monotone between -33 and 33", "statement": "xexp preserves the order of two doubles between -33 and 33, and strictly of two doubles 1e-12 apart between -708 and 708.", "quantifier": "every pair of doubles of the range", "why_tests_cant": "about 2^124 pairs", "anchors": ["src/xmath.c:xexp", "src/xmath.c:_exp_cf_6", "src/xmath.c:musl_ldexp"]}
{"id": "C86", "title": "A larger risk never gives a threshold further out", "statement": "In binary64, for two risks whose ratio to Nt/n is between 1e-14 and 31, spot_quantile of the larger one is not further out than that of the smaller one, in both directions and for every sign of the shape. Outside this range it can be: with Nt/n = 1/64 the threshold of risk 1/2 is above that of the preceding double.", "quantifier": "every detector with finite parameters in the stated ranges, every pair of risks", "why_tests_cant": "an order between doubles for all states and all pairs", "anchors": ["src/spot.c:spot_quantile", "src/tail.c:tail_quantile", "src/xmath.c:xpow"]}
{"id": "C87", "title": "A value further out is never reported as more likely", "statement": "In binary64, spot_probability does not increase when the value moves away in the direction of the tail, as long as the argument of the power stays between 1/1000 and 31 and the logarithm of the survival between -32 and 32.", "quantifier": "every detector with finite parameters in the stated ranges, every pair of values", "why_tests_cant": "an order between doubles for all states and all pairs", "anchors": ["src/spot.c:spot_probability", "src/tail.c:tail_probability", "src/xmath.c:xpow"]}
{"id": "C88", "title": "fit and the destructor of the Python object leak; nothing else does", "statement": "At any point of any Python program over the binding, the reference count of a live object is the number of references of the program and of the live containers, plus the number of fits on it. A sequence that went through fit is never given back, nor are its items; every detector ever constructed keeps its block and a reference of its type; nothing else leaks. The expectation that a program which drops everything gets its memory back is refuted.", "quantifier": "every program (creations, calls, drops in any order)", "why_tests_cant": "the effect is invisible in results; tests never look at reference counts", "anchors": ["python/libspotmodule.c:Spot_fit", "python/libspotmodule.c:Spot_dealloc", "python/libspotmodule.c:Spot_init"]}
{"id": "C89", "title": "Python code running inside a call acts before the call", "statement": "Objects whose __float__ calls the binding again, on the same detector or another, and modifies the list being fitted, leave the detectors in the state in which the same calls made one after the other, in the order of their completion, leave them; they add no undefined behaviour. The batch of fit has the size the list had at the call; items removed meanwhile are observed as -1, so that a list whose items all convert to numbers may be calibrated on as if it contained something else.", "quantifier": "every program, every nesting of such objects, every recursion limit", "why_tests_cant": "arbitrary code inside a conversion, unbounded nesting", "anchors": ["python/libspotmodule.c:Spot_fit", "python/libspotmodule.c:Spot_step", "python/libspotmodule.c:Spot_quantile", "python/libspotmodule.c:Spot_probability", "python/libspotmodule.c:Spot_init"]}
{"id": "C90", "title": "The calls that refit are defined on ordinary windows", "statement": "In binary64, spot_step and spot_fit have no undefined behaviour when the window on which they refit is ordinary: the largest excess between 2e-8 times their number and 1e30, the smallest at least 1e-80, the computed mean not below the smallest, the computed standard deviation at least a thousandth of the mean. Nothing is assumed about the fit. (C45 shows a batch of equal peaks on which they are undefined.)", "quantifier": "every reachable detector, every observation, every batch", "why_tests_cant": "undefined behaviour for all windows", "anchors": ["src/spot.c:spot_step", "src/spot.c:spot_fit", "src/xmath.c:xexp"]}
{"id": "C91", "title": "The probability of the quantile of q is q", "statement": "In binary64, for a detector with parameters of everyday size, spot_probability of spot_quantile of q is within 2e-8 q of q; in particular the probability reported for the anomaly threshold in use after an excess or a calibration is q to seven digits.", "quantifier": "every finite detector of everyday size (scale 1e-30 to 1e30, threshold within 1000 scales, shape 0 or 0.01 to 2 in absolute value, risk from a millionth of the frequency of the excesses to that frequency), both tails", "why_tests_cant": "two approximate functions composed, for all parameters and risks", "anchors": ["src/spot.c:spot_quantile", "src/spot.c:spot_probability", "src/tail.c:tail_quantile", "src/tail.c:tail_probability", "src/xmath.c:xpow"]}
{"id": "C92", "title": "The verdict and the reported probability agree", "statement": "In binary64, just after an excess or a calibration, a value that spot_step flags has a spot_probability of at most q (1 + e), a value that it does not flag has one of at least q (1 - e), where e is 1e-8 plus the error of the probability.", "quantifier": "every reachable detector of everyday size that discards anomalies, every value in the range of the probability", "why_tests_cant": "agreement of two independent code paths for all states and all observations", "anchors": ["src/spot.c:spot_step", "src/spot.c:spot_probability", "src/tail.c:tail_probability"]}
{"id": "C93", "title": "A variance that is not positive silences the method of moments, unless the second moment is negative", "statement": "In binary64, if the sums of the excesses and of their squares kept by the code are not negative and the variance computed from them is not positive (or not a number), tail_fit stores Grimshaw's estimate: the moments candidate has no likelihood. Over the reals its shape is below 1/2 for a positive variance, and between 1/2 and 1, with a scale below half the mean, when the kept second moment is negative, which evicting an extreme makes possible (C18); that a candidate made from a negative variance is never stored is refuted.", "quantifier": "every window (finite or not) of at most 2^53 excesses; the refutation is a window of three", "why_tests_cant": "every combination of sums the bookkeeping can produce, rounding included", "anchors": ["src/estimator.c:mom_estimator", "src/tail.c:tail_fit", "src/peaks.c:peaks_var", "src/peaks.c:peaks_update_stats"]}
{"id": "C94", "title": "Only Grimshaw's search depends on the unit of the observations (exact arithmetic)", "statement": "Multiplying every observation by c > 0 changes nothing but the unit, as long as Grimshaw's estimate is unit-free on the windows of the session: same codes, same probabilities, same shape, thresholds, quantiles, window and scale multiplied by c. Without that condition the answer of each spot_step, the excess threshold, the counters and the window still follow the unit; the method of moments, Grimshaw's equation and the candidate made from a root are always unit-free. (The absolute tolerance of the search is not: C60.)", "quantifier": "every session, every c > 0; every window for the estimators", "why_tests_cant": "an equality over all streams and all units", "anchors": ["src/spot.c:spot_fit", "src/spot.c:spot_step", "src/estimator.c:mom_estimator", "src/estimator.c:grimshaw_estimator", "src/peaks.c:peaks_push", "src/tail.c:tail_fit"]}
{"id": "C95", "title": "The work of a call is bounded by the capacity, not by the length of the stream", "statement": "The result of spot_step depends on the values of the logarithm at no more than 411 max_excess + 5 points, and at none when it does not answer EXCESS; that of spot_fit at no more than 411 max_excess + 5, whatever the length of the batch. A fit of the tail on n excesses uses 411 n + 4 at most.", "quantifier": "every arithmetic, every reachable detector, every observation, every batch", "why_tests_cant": "a bound over all streams; a test measures the time of one", "anchors": ["src/spot.c:spot_step", "src/spot.c:spot_fit", "src/tail.c:tail_fit", "src/estimator.c:grimshaw_estimator", "src/brent.c:brent"]}
{"id": "C96", "title": "A freed detector is inert", "statement": "After spot_free, and until spot_init or spot_free is called on the same struct again, whatever is done to other detectors meanwhile (including giving them the released block): spot_step answers NORMAL (-1005 on NaN), spot_fit fails with -1003 or -1004, spot_quantile and spot_probability are NaN, none of them has undefined behaviour or changes the heap or another detector. Every double of the struct is NaN and the counters are zero; the pointer remains.", "quantifier": "every world, every sequence of calls on any number of detectors after the free, every registered ldexp and frexp", "why_tests_cant": "use after free is invisible to tests unless it crashes; all interleavings", "anchors": ["src/spot.c:spot_free", "src/spot.c:spot_step", "src/spot.c:spot_fit", "src/tail.c:tail_free", "src/peaks.c:peaks_free", "src/ubend.c:ubend_free"]}
{"id": "C97", "title": "An infinite excess blinds the detector while it is in the window", "statement": "When the tail is fitted, by an excess or by a calibration, with an infinite excess among those stored, the shape is 0, the scale is infinite or NaN and the anomaly threshold is infinite or NaN. If moreover q is at most Nt/n at the fits (as a sensible configuration has it), no observation, not even an infinite one, is an anomaly as long as the infinite excess stays in the window. Finite excesses have the same effect when their running sum overflows. Nothing tells the caller: a calibration on such a batch can answer 0.", "quantifier": "every reachable detector, every window containing an infinite excess (or whose sum is infinite), every stream afterwards; the first part for every registered ldexp and frexp", "why_tests_cant": "all windows and all streams; tests use finite data", "anchors": ["src/spot.c:spot_step", "src/spot.c:spot_fit", "src/peaks.c:peaks_push", "src/peaks.c:peaks_update_stats", "src/estimator.c:mom_estimator", "src/estimator.c:grimshaw_estimator", "src/tail.c:tail_fit", "src/tail.c:tail_quantile"]}
{"id": "C98", "title": "Evicting an extreme forgets the past", "statement": "When a full window loses an excess that is not above (or not below) any of those that remain, the running sum becomes the sum of the stored cells in storage order and the running sum of squares the square of the last cell alone (not the sum of squares: C18). No rounding error, overflow or infinity accumulated before survives; in particular an infinite excess, which blinds the detector while it is stored (C97), leaves no trace once evicted.", "quantifier": "every reachable detector, every EXCESS step that evicts an extreme, every choice of mathematical functions", "why_tests_cant": "holds whatever happened before, over all streams", "anchors": ["src/peaks.c:peaks_push", "src/peaks.c:peaks_update_stats", "src/ubend.c:ubend_push", "src/spot.c:spot_step"]}
{"id": "C99", "title": "What a detector keeps of a stream", "statement": "Observations answered ANOMALY or with an error leave no trace: without them the other answers and the final state are the same. An observation answered NORMAL only counts: any other that would be answered NORMAL in its place gives the same answers and the same final state.", "quantifier": "every arithmetic, every choice of mathematical functions, every state, every stream", "why_tests_cant": "an equality of final states over all streams", "anchors": ["src/spot.c:spot_step"]}
{"id": "C100", "title": "Discarding makes no difference before the first anomaly", "statement": "As long as no call has answered ANOMALY, two detectors initialised alike but for discard_anomalies (set in one, 0 in the other) give the same answers to the same calls (calibrations, observations, quantiles, probabilities) and hold the same content but for that field. With discard_anomalies = 0 spot_step never answers ANOMALY.", "quantifier": "every arithmetic, every choice of mathematical functions, every sequence of calls", "why_tests_cant": "an equality of states over all sessions", "anchors": ["src/spot.c:spot_init", "src/spot.c:spot_step", "src/spot.c:spot_fit"]}
{"id": "C101", "title": "The capacity makes no difference before the window is full", "statement": "As long as fewer than max_excess excesses are stored, a detector initialised alike but for max_excess, with any other capacity larger than the number of excesses stored, gives the same answers to the same calls (calibrations, observations, quantiles, probabilities) and holds the same thresholds, counters, tail parameters, running sums, extremes and excesses. Once an excess has been evicted the answers may differ.", "quantifier": "every arithmetic, every choice of mathematical functions, every sequence of calls, every two capacities below 2^64", "why_tests_cant": "an equality of states over all sessions and all pairs of capacities", "anchors": ["src/ubend.c:ubend_push", "src/peaks.c:peaks_push", "src/spot.c:spot_step", "src/spot.c:spot_fit"]}
{"id": "C102", "title": "Without discarding, q only moves the anomaly threshold", "statement": "Two detectors with discard_anomalies = 0 that differ by q only, given the same calls, have the same excess threshold, counters, tail parameters, window and window statistics, and give the same answers, except that a calibration may report a NaN anomaly threshold for one and success for the other. With discard_anomalies = 1 the answers and the windows may differ.", "quantifier": "every arithmetic, every choice of mathematical functions, every sequence of calls, every two accepted values of q", "why_tests_cant": "an equality of states over all sessions and all pairs of q", "anchors": ["src/spot.c:spot_init", "src/spot.c:spot_step", "src/spot.c:spot_fit"]}
{"id": "C103", "title": "A calibration without excess fails and blinds the detector", "statement": "If no value of the batch given to spot_fit lies beyond the excess threshold computed from it, spot_fit answers -1004 (NaN anomaly threshold), whatever the detector had learnt before; the anomaly threshold is NaN, Nt is 0 and the window is unchanged. So it is for every batch of five or more equal numbers (a stuck sensor): a detector calibrated again on it no longer reports anomalies until the next excess, and every probability it reports until then is 0 or NaN.", "quantifier": "every detector with the built-in functions, either tail, every batch", "why_tests_cant": "a property of every batch and every history; the NaN comes from xlog at infinity", "anchors": ["src/spot.c:spot_fit", "src/spot.c:spot_quantile", "src/tail.c:tail_quantile", "src/xmath.c:xlog"]}
