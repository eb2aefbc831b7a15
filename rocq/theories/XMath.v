(** * XMath: model of /repo/src/xmath.c (mathematical functions) *)
From Coq Require Import ZArith List Bool.
From Verif Require Import Num.
Open Scope Z_scope.
Open Scope num_scope.

Section XMath.
Context {N : NumOps} (fu : FloatUtils N).

(** xmath.c:12  LOG2 = 0x1.62e42fefa39efp-1 (exact dyadic constant) *)
Definition LOG2 : num N := #0x162e42fefa39ef / #(2 ^ 53).
(** xmath.c:13  _NAN = 0.0 / 0.0 *)
Definition c_nan : num N := #0 / #0.
(** xmath.c:14  _INFINITY = +1.0 / 0.0 *)
Definition c_inf : num N := #1 / #0.

(** xmath.c:267  is_nan *)
Definition is_nan (x : num N) : bool := negb (x ==? x).

(** xmath.c:269-306  _log_cf_11 *)
Definition log_cf_11 (z : num N) : num N :=
  let x := z - #1 in
  let xx := x + #2 in
  let x2 := x * x in
  let xx2 := xx + xx in
  let xx3 := xx + xx2 in
  let xx5 := xx3 + xx2 in
  let xx7 := xx5 + xx2 in
  let xx9 := xx7 + xx2 in
  let xx11 := xx9 + xx2 in
  let xx13 := xx11 + xx2 in
  let xx15 := xx13 + xx2 in
  let xx17 := xx15 + xx2 in
  let xx19 := xx17 + xx2 in
  let xx21 := xx19 + xx2 in
  #2 * x /
    ((- x2) / (#(-4) * x2 /
      (#(-9) * x2 /
        (#(-16) * x2 /
          (#(-25) * x2 /
            (#(-36) * x2 /
              (#(-49) * x2 /
                (#(-64) * x2 /
                  (#(-81) * x2 /
                    (#(-100) * x2 / xx21 + xx19)
                  + xx17)
                + xx15)
              + xx13)
            + xx11)
          + xx9)
        + xx7)
      + xx5)
    + xx3)
  + xx).

(** xmath.c:308-319  _exp_cf_6 *)
Definition exp_cf_6 (z : num N) : num N :=
  let z2 := z * z in
  #2 * z /
    (#2 * z2 /
      (#12 * z2 /
        (#60 * z2 / (#140 * z2 / (#7 * z2 / #11 + #252) + #140) + #60)
       + #12)
     - z + #2)
  + #1.

(** C conversion double -> unsigned int (xmath.c:329): the value is truncated; the behaviour is
    undefined if the result does not fit in 32 bits. *)
Definition to_uint32 (x : num N) : res Z :=
  match ntrunc x with
  | Some k => if (Z.leb 0 k && Z.ltb k (2 ^ 32))%bool then Ret k else Undef CastRange
  | None => Undef CastRange
  end.

(** xmath.c:321-338  xexp; [rec] is the recursive call of line 326. *)
Definition xexp_body (rec : num N -> res (num N)) (x : num N) : res (num N) :=
  if is_nan x then Ret c_nan
  else if x <? #0 then (y <- rec (- x) ;; Ret (#1 / y))
  else if x >? LOG2 then
    (k <- to_uint32 (x / LOG2) ;;
     let r := x - LOG2 * nofZ k in
     Ret (fu_ldexp fu (exp_cf_6 r) (to_int32 k)))
  else Ret (exp_cf_6 x).

(** The recursion is unrolled twice: the argument of the inner call is not negative.
    (Theorem [C30_xexp_terminates] shows the third level is never entered in binary64.) *)
Definition xexp (x : num N) : res (num N) :=
  xexp_body (xexp_body (fun _ => Undef Diverge)) x.

(** xmath.c:340-367  xlog *)
Definition xlog (x : num N) : num N :=
  if ((x <? #0) || is_nan x)%bool then c_nan
  else if x ==? #0 then - c_inf
  else
    let '(mantissa, exponent) := fu_frexp fu x 0%Z in
    if (Z.eqb exponent 0 || Z.eqb exponent (-1))%bool then log_cf_11 x
    else log_cf_11 mantissa + LOG2 * nofZ exponent.

(** xmath.c:369  xpow *)
Definition xpow (a x : num N) : res (num N) := xexp (x * xlog a).

(** xmath.c:371-379  xmin *)
Definition xmin (a b : num N) : num N :=
  if (is_nan a || is_nan b)%bool then c_nan
  else if a <? b then a else b.

End XMath.

(** The functions of xmath.h that peaks.c, estimator.c and tail.c are linked against
    (xmath.h:34,46,55). The model of those files takes them as a parameter; the C program is the
    instance [c_math]. The second instance ([RNum.exact_math]) is used to state what the algorithm
    computes when log and exp are the exact functions. *)
Record MathFns (N : NumOps) : Type := {
  m_log : num N -> num N;
  m_exp : num N -> res (num N);
  m_pow : num N -> num N -> res (num N)
}.
Arguments m_log {N} _ _.
Arguments m_exp {N} _ _.
Arguments m_pow {N} _ _ _.

Definition c_math {N : NumOps} (fu : FloatUtils N) : MathFns N :=
  Build_MathFns N (xlog fu) (xexp fu) (xpow fu).
