(** * Properties of xexp (C30) *)
From Coq Require Import ZArith List Bool Reals Lra.
From Flocq Require Import Core.Core IEEE754.BinarySingleNaN.
From Verif Require Import Num XMath B64 RNum B64Facts ExpAcc Demo.
Open Scope R_scope.

(** C30 *)
Theorem C30_xexp_special_values (fu : FloatUtils B64) :
  (forall x : b64, BinarySingleNaN.is_nan x = true -> xexp (N := B64) fu x = Ret (B754_nan : b64)) /\
  (forall s, xexp (N := B64) fu (B754_zero s : b64) = Ret (b64_ofZ 1 : b64)).
Proof. exact (conj (fun x => xexp_nan fu x) (fun s => xexp_zero fu s)). Qed.
Print Assumptions C30_xexp_special_values.

(** the conversion of the quotient to unsigned int (any ldexp/frexp): 2^32 ln 2 = 2977044471.8... *)
Theorem C30_xexp_domain (fu : FloatUtils B64) (x : b64) :
  (BinarySingleNaN.is_nan x = true \/ (is_finite x = true /\ Rabs (B2R x) <= 2977044471) -> exists v, xexp (N := B64) fu x = Ret v) /\
  ((exists s, x = B754_infinity s) \/ (is_finite x = true /\ 2977044472 <= Rabs (B2R x)) -> xexp (N := B64) fu x = Undef CastRange).
Proof. exact (xexp_domain fu x). Qed.
Print Assumptions C30_xexp_domain.
(** the recursion of line 326 is at most one level deep *)
Theorem C30_xexp_terminates (fu : FloatUtils B64) (x : b64) : xexp (N := B64) fu x <> Undef Diverge.
Proof. exact (xexp_no_diverge fu x). Qed.
Print Assumptions C30_xexp_terminates.
Example C30_example_domain :
  (match xexp (N := B64) musl_utils (b64_ofZ 2977044472) with Undef CastRange => true | _ => false end) = true /\
  (match xexp (N := B64) musl_utils (b64_ofZ 2977044471) with Ret _ => true | _ => false end) = true.
Proof. vm_compute. auto. Qed.

(** accuracy with the built-in ldexp *)
Theorem C30_xexp_accuracy (x : b64) : is_finite x = true -> Rabs (B2R x) <= 708 ->
  exists v : b64, xexp (N := B64) musl_utils x = Ret v /\ is_finite v = true /\
    Rabs (B2R v - exp (B2R x)) <= (15 / 10 ^ 17 * Rabs (B2R x) + 3 / 10 ^ 15) * exp (B2R x).
Proof. exact (xexp_accuracy x). Qed.
Print Assumptions C30_xexp_accuracy.
(** xexp 1 = 0x1.5bf0a8b14576ap+1, one unit above the double nearest to e; xexp (-708) is still a normal number *)
Example C30_example_accuracy :
  is_finite (b64_ofZ 1) = true /\
  (match xexp (N := B64) musl_utils (b64_ofZ 1) with Ret v => Some (sf v) | _ => None end) = Some (SpecFloat.S754_finite false 0x15bf0a8b14576a (-51)) /\
  (match xexp (N := B64) musl_utils (b64_ofZ (-708)) with Ret v => Some (sf v) | _ => None end) = Some (SpecFloat.S754_finite false 6694561808697956 (-1074)).
Proof. vm_compute. auto. Qed.

(** overflow and underflow, up to 2^31 ln 2 = 1488522235.9... *)
Theorem C30_xexp_overflow (x : b64) : is_finite x = true ->
  (710 <= B2R x <= 1488522235 -> xexp (N := B64) musl_utils x = Ret (B754_infinity false : b64)) /\
  (-1488522235 <= B2R x <= -710 -> xexp (N := B64) musl_utils x = Ret (B754_zero false : b64)).
Proof. exact (xexp_large x). Qed.
Print Assumptions C30_xexp_overflow.
(** Beyond, the quotient does not fit in the int expected by ldexp (it wraps on the usual compilers): the exponential of
    a huge positive number is 0, that of a huge negative number is infinite. *)
Theorem C30_xexp_monotone_refuted (x : b64) : is_finite x = true ->
  (1488522236 <= B2R x <= 2977043000 -> xexp (N := B64) musl_utils x = Ret (B754_zero false : b64)) /\
  (-2977043000 <= B2R x <= -1488522236 -> xexp (N := B64) musl_utils x = Ret (B754_infinity false : b64)).
Proof. exact (xexp_wrapped x). Qed.
Print Assumptions C30_xexp_monotone_refuted.
Example C30_example_wrap :
  (match xexp (N := B64) musl_utils (b64_ofZ (15 * 10 ^ 8)) with Ret v => Some (sf v) | _ => None end) = Some (SpecFloat.S754_zero false) /\
  (match xexp (N := B64) musl_utils (b64_ofZ (- 15 * 10 ^ 8)) with Ret v => Some (sf v) | _ => None end) = Some (SpecFloat.S754_infinity false).
Proof. vm_compute. auto. Qed.

(** the continued fraction itself, over the reals: never above exp; the error reaches 1.4e-15 at ln 2 *)
Theorem C30_exp_continued_fraction (z : R) :
  (0 <= z <= ln 2 -> exists v, exp_cf_6 (N := RNum) (Some z) = Some v /\ 0 <= exp z - v <= 16 / 10 ^ 16 * exp z) /\
  (z = ln 2 -> exists v, exp_cf_6 (N := RNum) (Some z) = Some v /\ 14 / 10 ^ 16 * exp z <= exp z - v).
Proof. exact (exp_exact_cf z). Qed.
Print Assumptions C30_exp_continued_fraction.
