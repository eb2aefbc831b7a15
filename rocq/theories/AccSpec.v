(** * AccSpec: error bounds (specification vocabulary of C54-C57) *)
From Coq Require Import ZArith Reals.
From Flocq Require Import IEEE754.BinarySingleNaN.
From Verif Require Import Num Tail Spot B64.
Open Scope R_scope.

(** absolute error of the logarithm around the real [a]: [lo], [hi] delimit the bad range (see C29) *)
Definition log_error (lo hi a : R) : R :=
  if Rle_dec lo a then if Rlt_dec a hi then 1 / 10 ^ 10 else 1 / 10 ^ 15 + 1 / 10 ^ 15 * Rabs (ln a)
  else 1 / 10 ^ 15 + 1 / 10 ^ 15 * Rabs (ln a).

(** the value exceeded with probability rho (given an excess) by a generalised Pareto excess *)
Definition gpd_quantile (gamma sigma rho : R) : R :=
  if Req_EM_T gamma 0 then - sigma * ln rho else sigma / gamma * (Rpower rho (- gamma) - 1).

(** A detector with finite parameters: excess threshold, direction, scale and shape; the counters are exact as doubles. *)
Definition finite_detector (s : spot B64) (et dir sigma gamma : R) : Prop :=
  is_finite (s_et s : b64) = true /\ B2R (s_et s : b64) = et /\
  ((s_updown s = b64_ofZ 1 /\ dir = 1) \/ (s_updown s = b64_ofZ (-1) /\ dir = -1)) /\
  is_finite (t_sigma (s_tail s) : b64) = true /\ B2R (t_sigma (s_tail s) : b64) = sigma /\ 0 < sigma /\
  is_finite (t_gamma (s_tail s) : b64) = true /\ B2R (t_gamma (s_tail s) : b64) = gamma /\
  (0 < s_Nt s <= s_n s)%Z /\ (s_n s <= 2 ^ 53)%Z.

(** first order error of the quantile: the logarithm, the exponential (which is divided by the shape), and the last roundings *)
Definition quantile_error (gamma sigma rho : R) : R :=
  sigma * Rpower rho (- gamma) *
    (102 / 100 * log_error (1 / 5) (3 / 5) rho + 5 / 10 ^ 16 * (1 + Rabs (ln rho)) +
     if Req_EM_T gamma 0 then 0 else 32 / 10 ^ 16 / Rabs gamma)
  + 4 / 10 ^ 16 * Rabs (gpd_quantile gamma sigma rho).

(** q relative to the frequency of the excesses *)
Definition relative_risk (s : spot B64) (q : R) : R := q / (IZR (s_Nt s) / IZR (s_n s)).

(** parameters far from overflow and underflow *)
Definition usual_range (s : spot B64) (et sigma gamma q : R) : Prop :=
  Rabs et <= 10 ^ 200 /\ / 10 ^ 30 <= sigma <= 10 ^ 30 /\ (gamma = 0 \/ / 10 ^ 20 <= Rabs gamma <= 10 ^ 6) /\
  / 10 ^ 40 <= q <= 1 /\ Rabs (gamma * ln (relative_risk s q)) <= 300.

(** the probability that a generalised Pareto excess is larger than D *)
Definition gpd_survival (gamma sigma D : R) : R :=
  if Req_EM_T gamma 0 then exp (- D / sigma) else Rpower (1 + gamma * D / sigma) (-1 / gamma).

(** relative error of the tail probability: rounding of the argument [a] of the power and of its logarithm (both divided
    by the shape), exponent, last roundings *)
Definition probability_error (gamma sigma D : R) : R :=
  if Req_EM_T gamma 0 then 5 / 10 ^ 16 * Rabs (D / sigma) + 36 / 10 ^ 16
  else let a := 1 + gamma * D / sigma in
    (102 / 100 * log_error (1 / 5) (3 / 5) a + 6 / 10 ^ 16 + 5 / 10 ^ 16 / a) / Rabs gamma + 6 / 10 ^ 16 * Rabs (ln a / gamma) + 36 / 10 ^ 16.

(** parameters far from overflow and underflow, argument of the power not too close to zero *)
Definition probability_range (et z sigma gamma D : R) : Prop :=
  Rabs et <= 10 ^ 200 /\ Rabs z <= 10 ^ 200 /\ / 10 ^ 30 <= sigma <= 10 ^ 30 /\
  (gamma = 0 /\ Rabs (D / sigma) <= 600 \/
   / 10 ^ 5 <= Rabs gamma <= 10 ^ 6 /\ 1 / 1000 <= 1 + gamma * D / sigma <= 10 ^ 200 /\ Rabs (ln (1 + gamma * D / sigma) / gamma) <= 600).
