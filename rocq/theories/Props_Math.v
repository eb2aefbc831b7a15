(** * Properties of the built-in ldexp and frexp (C27, C28) *)
From Coq Require Import ZArith List Bool Reals Lra.
From Flocq Require Import Core.Core IEEE754.BinarySingleNaN.
From Verif Require Import Num XMath B64 FloatUtilsLemmas Demo.
Open Scope Z_scope.

(** the double nearest to a real, ties to even, as if the exponent had no upper bound *)
Definition nearest_double (r : R) : R := round radix2 (FLT_exp (-1074) 53) ZnearestE r.

(** C27 *)
Theorem C27_ldexp_correctly_rounded (x : b64) (n : Z) :
  (is_finite x = true ->
     let r := nearest_double (B2R x * bpow radix2 n) in
     ((Rabs r < bpow radix2 1024)%R ->
        is_finite (musl_ldexp x n) = true /\ B2R (musl_ldexp x n) = r /\ Bsign (musl_ldexp x n) = Bsign x) /\
     ((bpow radix2 1024 <= Rabs r)%R -> musl_ldexp x n = B754_infinity (Bsign x))) /\
  (is_finite x = false -> musl_ldexp x n = x).
Proof. exact (C27_lemma x n). Qed.
Print Assumptions C27_ldexp_correctly_rounded.
(** the same in one equation, against Flocq's own scaling function *)
Theorem C27_ldexp_is_ieee_scaling (x : b64) (n : Z) : musl_ldexp x n = Bldexp mode_NE x n.
Proof. exact (C27_flocq_lemma x n). Qed.
Print Assumptions C27_ldexp_is_ieee_scaling.
(** 3 * 2^-1075 = 1.5 * 2^-1074 is rounded once, to the even 2 * 2^-1074 *)
Example C27_example_subnormal : sf (musl_ldexp (b64_ofZ 3) (-1075)) = SpecFloat.S754_finite false 2 (-1074).
Proof. vm_compute. reflexivity. Qed.
(** x = 3/4 - 2^-53: the exact product is just below 1.5 * 2^-1074, so 2^-1074 is right; a first scaling by
    2^-1022 would round to 3/4 * 2^-1022 and the second one to 2 * 2^-1074 *)
Example C27_example_double_rounding :
  sf (musl_ldexp (musl_ldexp (b64_ofZ (3 * 2 ^ 51 - 1)) (-53)) (-1073)) = SpecFloat.S754_finite false 1 (-1074) /\
  sf (musl_ldexp (b64_ofZ 1) 1024) = SpecFloat.S754_infinity false /\
  sf (musl_ldexp (b64_ofZ (-1)) (-2000)) = SpecFloat.S754_zero true.
Proof. vm_compute. auto. Qed.

(** C28 *)
Theorem C28_frexp_exact (x : b64) (e0 : Z) :
  (is_finite x = true -> b64_eqb x (b64_ofZ 0) = false ->
     exists m e, musl_frexp x e0 = (m, e) /\ is_finite m = true /\ (1 / 2 <= Rabs (B2R m) < 1)%R /\
       B2R x = (B2R m * bpow radix2 e)%R /\ Bsign m = Bsign x) /\
  (b64_eqb x (b64_ofZ 0) = true -> musl_frexp x e0 = (x, 0)) /\
  (is_finite x = false -> musl_frexp x e0 = (x, e0)).
Proof. exact (C28_lemma x e0). Qed.
Print Assumptions C28_frexp_exact.
(** 3 * 2^-1074 = 0.75 * 2^-1072 *)
Example C28_example_subnormal :
  let x := musl_ldexp (b64_ofZ 3) (-1074) in
  is_finite x = true /\ b64_eqb x (b64_ofZ 0) = false /\
  sf (fst (musl_frexp x 7)) = SpecFloat.S754_finite false (3 * 2 ^ 51) (-53) /\ snd (musl_frexp x 7) = -1072.
Proof. vm_compute. auto. Qed.
