(** * Properties of xlog (C29) *)
From Coq Require Import ZArith List Bool Reals Lra.
From Flocq Require Import Core.Core IEEE754.BinarySingleNaN.
From Verif Require Import Num XMath B64 RNum B64Facts LogAcc Demo.
Open Scope R_scope.

(** C29 *)
Theorem C29_xlog_special_values (fu : FloatUtils B64) (x : b64) :
  (BinarySingleNaN.is_nan x = true -> xlog (N := B64) fu x = (B754_nan : b64)) /\
  (b64_ltb x (b64_ofZ 0) = true -> xlog (N := B64) fu x = (B754_nan : b64)) /\
  (forall s, x = B754_zero s -> xlog (N := B64) fu x = (B754_infinity true : b64)) /\
  (x = B754_infinity false -> xlog (N := B64) musl_utils x = (B754_nan : b64)).
Proof. exact (xlog_special fu x). Qed.
Print Assumptions C29_xlog_special_values.

(** every positive finite double, with the built-in frexp *)
Theorem C29_xlog_accuracy (x : b64) : is_finite x = true -> 0 < B2R x ->
  is_finite (xlog (N := B64) musl_utils x : b64) = true /\
  let err := Rabs (B2R (xlog (N := B64) musl_utils x : b64) - ln (B2R x)) in
  (1 / 2 <= B2R x < 1 -> err <= 8 / 10 ^ 16 * Rabs (ln (B2R x))) /\
  (1 / 4 <= B2R x < 1 / 2 -> err <= 1 / 10 ^ 10) /\
  (B2R x < 1 / 4 \/ 1 <= B2R x -> err <= 1 / 10 ^ 15 + 3 / 10 ^ 16 * Rabs (ln (B2R x))).
Proof. exact (xlog_accuracy x). Qed.
Print Assumptions C29_xlog_accuracy.
(** xlog 10 is 0x1.26bb1bbb55515p+1 (one unit below ln 10), xlog 1 is exactly 0, xlog 2^-1074 = -744.44... *)
Example C29_example :
  is_finite (b64_ofZ 10) = true /\ sf (xlog (N := B64) musl_utils (b64_ofZ 10)) = SpecFloat.S754_finite false 0x126bb1bbb55515 (-51) /\
  sf (xlog (N := B64) musl_utils (b64_ofZ 1)) = SpecFloat.S754_zero false /\
  sf (xlog (N := B64) musl_utils (musl_ldexp (b64_ofZ 1) (-1074))) = SpecFloat.S754_finite true 6548164122079683 (-43).
Proof. vm_compute. auto. Qed.

(** the continued fraction itself, over the reals: never below ln, sharp near one, not at 1/4 *)
Theorem C29_log_continued_fraction (z : R) :
  (1 / 2 <= z <= 1 -> exists v, log_cf_11 (N := RNum) (Some z) = Some v /\ 0 <= v - ln z <= 2 / 10 ^ 17 /\ v - ln z <= 26 / 10 ^ 18 * - ln z) /\
  (1 / 4 <= z <= 1 -> exists v, log_cf_11 (N := RNum) (Some z) = Some v /\ 0 <= v - ln z <= 9 / 10 ^ 11) /\
  (z = 1 / 4 -> exists v, log_cf_11 (N := RNum) (Some z) = Some v /\ 6 / 10 ^ 11 <= v - ln z).
Proof. exact (exact_cf z). Qed.
Print Assumptions C29_log_continued_fraction.

(** The documentation (docs/internals/50_math.md, depth 11) announces a relative error of 4.1e-16 at most.
    It is false just above one, where half of the value is lost, *)
Theorem C29_relative_accuracy_above_one_refuted :
  exists x : b64, is_finite x = true /\ B2R x = 1 + / 2 ^ 52 /\
    Rabs (B2R (xlog (N := B64) musl_utils x : b64) - ln (B2R x)) >= 49 / 100 * Rabs (ln (B2R x)).
Proof. exact just_above_one_refuted. Qed.
Print Assumptions C29_relative_accuracy_above_one_refuted.
(** and on [1/4, 1/2), where the exponent test (0 or -1 instead of 0 or 1) selects the continued fraction outside
    of the range it was designed for. *)
Theorem C29_accuracy_at_one_quarter_refuted :
  exists x : b64, is_finite x = true /\ B2R x = 1 / 4 /\
    Rabs (B2R (xlog (N := B64) musl_utils x : b64) - ln (B2R x)) >= 6 / 10 ^ 11.
Proof. exact at_one_quarter_refuted. Qed.
Print Assumptions C29_accuracy_at_one_quarter_refuted.
