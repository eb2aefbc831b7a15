(** * The benchmark programs (C73, C74, C75, C76) *)
From Coq Require Import ZArith List Bool Reals Lra Lia Permutation.
From Flocq Require Import Core.Core IEEE754.BinarySingleNaN.
From Verif Require Import Num XMath Ubend Session Peaks Brent Estimator Tail P2 Spot B64 RNum Spec LogAcc Bench BenchBits BenchLemmas BenchLog BenchExp BenchP2 Demo.
Import ListNotations.
Open Scope R_scope.

(** ** C73. The figures reported by the accuracy benchmarks

    [accuracy_loop l] is the pair (mantissa error, relative error) printed after the pairs (value of the C library, value of
    the approximation) of [l]. *)

(** The relative error is the largest of 0 and of the SIGNED quotients (app - ref) / ref, computed in double. *)
Theorem C73_relative_error_is_signed (l : list (b64 * b64)) :
  let r := snd (accuracy_loop l) in
  let signed (ref app : b64) := b64_div (b64_minus app ref) ref in
  (forall ref app, In (ref, app) l -> b64_eqb ref (d 0) = false -> b64_ltb r (signed ref app) = false) /\
  (r = d 0 \/ exists ref app, In (ref, app) l /\ b64_eqb ref (d 0) = false /\ r = signed ref app /\ b64_ltb (d 0) r = true).
Proof. exact (relative_reported l). Qed.
Print Assumptions C73_relative_error_is_signed.

(** So an approximation which never exceeds the reference in magnitude, or is not a number, is reported exact. *)
Theorem C73_underestimates_report_no_error (l : list (b64 * b64)) :
  (forall ref app, In (ref, app) l -> is_finite ref = true /\
     ((is_NaN app = true /\ B2R (ref : b64) <> 0) \/ (0 < B2R (ref : b64) /\ b64_leb app ref = true) \/ (B2R (ref : b64) < 0 /\ b64_leb ref app = true))) ->
  snd (accuracy_loop l) = d 0.
Proof. exact (underestimates_reported l). Qed.
Print Assumptions C73_underestimates_report_no_error.

(** Within a binade, the mantissa error bounds the error in units of the last place ... *)
Theorem C73_mantissa_error_in_a_binade (l : list (b64 * b64)) (ref app : b64) (e : Z) : In (ref, app) l ->
  (-1074 <= e)%Z -> is_finite ref = true -> is_finite app = true -> 0 < B2R ref * B2R app ->
  bpow radix2 (e + 52) <= Rabs (B2R ref) < bpow radix2 (e + 53) -> bpow radix2 (e + 52) <= Rabs (B2R app) < bpow radix2 (e + 53) ->
  Rabs (B2R ref - B2R app) <= IZR (fst (accuracy_loop l)) * bpow radix2 e.
Proof. exact (mantissa_bound l ref app e). Qed.
Print Assumptions C73_mantissa_error_in_a_binade.

(** ... but the exponent is ignored: an approximation which returns half of the reference everywhere scores (0, 0). *)
Theorem C73_half_of_the_reference_scores_zero (l : list b64) :
  (forall x, In x l -> is_finite x = true /\ bpow radix2 (-1021) <= Rabs (B2R (x : b64))) ->
  accuracy_loop (map (fun x => (x, b64_div x (d 2))) l) = (0%Z, d 0).
Proof. exact (half_scores_zero l). Qed.
Print Assumptions C73_half_of_the_reference_scores_zero.

(** references 1, -3, 10^300; neighbours across a binade score 2^52 - 1; overestimates are seen *)
Example C73_example :
  let show (e : Z * b64) := (fst e, sf (snd e)) in
  let one_minus := b64_minus (d 1) (b64_div (d 1) (d (2 ^ 53))) in
  show (accuracy_loop [(d 1, b64_div (d 1) (d 2)); (d (-3), b64_div (d (-3)) (d 2)); (d (10 ^ 300), b64_div (d (10 ^ 300)) (d 2))])
    = (0%Z, sf (d 0)) /\
  show (accuracy_loop [(d 1, one_minus)]) = ((2 ^ 52 - 1)%Z, sf (d 0)) /\
  show (accuracy_loop [(d 4, d 6); (d 4, d 5); (d 4, d 3); (d (-4), d (-5))]) = ((2 ^ 51)%Z, sf (b64_div (d 1) (d 2))).
Proof. vm_compute. auto. Qed.

(** ** C74. The logarithm of the benchmarks *)

(** Its relative error is at most 1.5e-15 on every positive normal double. *)
Theorem C74_benchmark_log_accuracy (x : b64) : is_finite x = true -> bpow radix2 (-1022) <= B2R x ->
  let v := bench_log (log_cf_11 (N := B64)) x in
  is_finite v = true /\ Rabs (B2R v - ln (B2R x)) <= 15 / 10 ^ 16 * Rabs (ln (B2R x)).
Proof. exact (bench_log_accuracy x). Qed.
Print Assumptions C74_benchmark_log_accuracy.

(** The library's logarithm is not the function which was measured: no such bound holds for it. *)
Theorem C74_library_log_has_the_benchmarked_accuracy_refuted :
  ~ (forall x : b64, is_finite x = true -> bpow radix2 (-1022) <= B2R x ->
       Rabs (B2R (xlog (N := B64) musl_utils x : b64) - ln (B2R x)) <= 48 / 100 * Rabs (ln (B2R x))).
Proof. exact library_log_not_benchmarked. Qed.
Print Assumptions C74_library_log_has_the_benchmarked_accuracy_refuted.

(** The recursive fraction of log_cf_accuracy.c at depth 11, over the reals, is the unrolled one of the library. *)
Theorem C74_depth_11_is_the_unrolled_fraction (z : R) : 0 < z ->
  log_cf (N := RNum) 11 (Some z) = log_cf_11 (N := RNum) (Some z).
Proof. exact (log_cf_11_same z). Qed.
Print Assumptions C74_depth_11_is_the_unrolled_fraction.

(** ln 10 and ln (1 + 2^-52) are right to the last place; 0, +infinity and NaN, which the library handles (C29), give numbers *)
Example C74_example :
  let f x := sf (bench_log (log_cf_11 (N := B64)) x) in
  f (d 1) = sf (d 0) /\ f (b64_plus (d 1) (b64_div (d 1) (d (2 ^ 52)))) = SpecFloat.S754_finite false (2 ^ 52) (-104) /\
  f (d 0) = SpecFloat.S754_finite true 6237217781087073 (-43) /\
  f pinf = SpecFloat.S754_finite false 6243314768165359 (-43) /\
  (match bench_log (log_cf_11 (N := B64)) qnan with B754_finite _ _ _ _ => true | _ => false end) = true.
Proof. vm_compute. auto. Qed.

(** ** C75. The exponential of the benchmarks *)

(** On [-709, 709] it is the library's exponential, bit for bit. *)
Theorem C75_benchmark_exp_is_the_library_exp (x : b64) : is_finite x = true -> Rabs (B2R x) <= 709 ->
  bench_exp x = xexp (N := B64) musl_utils x.
Proof. exact (bench_exp_same x). Qed.
Print Assumptions C75_benchmark_exp_is_the_library_exp.

(** Outside, adding to the exponent field wraps around: exp(710) is not a number, exp(1000) is below 1, exp(-1000) above 1,
    and the conversion of an infinity is undefined. The library gives +infinity, +infinity and 0 (C30). *)
Theorem C75_same_beyond_the_range_refuted :
  exists x y z : b64, B2R x = 710 /\ B2R y = 1000 /\ B2R z = -1000 /\
    bench_exp x = Ret (B754_nan : b64) /\ xexp (N := B64) musl_utils x = Ret (B754_infinity false : b64) /\
    (exists v, bench_exp y = Ret v /\ b64_ltb v (d 1) = true) /\ xexp (N := B64) musl_utils y = Ret (B754_infinity false : b64) /\
    (exists v, bench_exp z = Ret v /\ b64_ltb (d 1) v = true) /\ xexp (N := B64) musl_utils z = Ret (B754_zero false : b64) /\
    bench_exp (B754_infinity false) = Undef CastRange.
Proof. exact bench_exp_beyond. Qed.
Print Assumptions C75_same_beyond_the_range_refuted.

(** The recursive fraction of exp_cf_accuracy.c at depth 6 and the rewritten one of exp_cf_speed.c are, over the reals, the
    fraction of the library. *)
Theorem C75_three_fractions_agree (z : R) :
  exp_cf (N := RNum) 6 (Some z) = exp_cf_6 (N := RNum) (Some z) /\
  exp_cf_6_speed (N := RNum) (Some z) = exp_cf_6 (N := RNum) (Some z).
Proof. exact (conj (exp_cf_6_same z) (exp_cf_speed_same z)). Qed.
Print Assumptions C75_three_fractions_agree.

Example C75_example :
  let f x := match bench_exp x with Ret v => sf v | Undef _ => sf qnan end in
  f (d 1) = SpecFloat.S754_finite false 6121026514868074 (-51) /\ f (d 0) = sf (d 1) /\
  f (b64_opp (d 700)) = (match xexp (N := B64) musl_utils (b64_opp (d 700)) with Ret v => sf v | Undef _ => sf qnan end).
Proof. vm_compute. auto. Qed.

(** ** C76. The P2 program of the benchmarks *)

(** It sorts its first five values in DECREASING order (the library, C24, in increasing order) ... *)
Theorem C76_benchmark_sorts_decreasing (a : list b64) : length a = 5%nat ->
  exists a', bench_sort5 (N := B64) a = Ret a' /\ Permutation a a' /\
    ((forall x, In x a -> is_NaN x = false) ->
     forall i j, (i < j < 5)%nat -> b64_leb (nth j a' (d 0)) (nth i a' (d 0)) = true).
Proof. exact (bench_sort_lemma a). Qed.
Print Assumptions C76_benchmark_sorts_decreasing.

(** ... and it answers NaN, the library 0, for fewer than five. *)
Theorem C76_fewer_than_five (p : b64) (xs : list b64) : (length xs < 5)%nat ->
  bench_quantile (N := B64) p xs = Ret (B754_nan : b64) /\ p2_quantile (N := B64) p xs = Ret (d 0).
Proof. exact (fewer_than_five p xs). Qed.
Print Assumptions C76_fewer_than_five.

(** So the medians differ. On 5 4 3 2 1 3 3 3 3 3 the benchmark answers 3, the library 2.6. *)
Theorem C76_same_estimate_refuted :
  exists (p : b64) (xs : list b64), (5 <= length xs)%nat /\ B2R p = 1 / 2 /\ (forall x, In x xs -> is_finite x = true) /\
    bench_quantile (N := B64) p xs = Ret (d 3) /\
    exists v, p2_quantile (N := B64) p xs = Ret v /\ b64_ltb v (d 3) = true.
Proof. exact p2_differ. Qed.
Print Assumptions C76_same_estimate_refuted.

Example C76_example :
  match bench_sort5 (N := B64) (map d [2; 5; 1; 4; 3]%Z) with Ret a => map sf a | Undef _ => [] end = map sf (map d [5; 4; 3; 2; 1]%Z).
Proof. vm_compute. auto. Qed.
