(** * Accuracy of the thresholds and of the probabilities in binary64 (C54-C57) *)
From Coq Require Import ZArith List Bool Reals Lra Lia.
From Flocq Require Import Core.Core IEEE754.BinarySingleNaN.
From Verif Require Import Num XMath Ubend Session Peaks Brent Estimator Tail P2 Spot B64 Spec AccSpec B64Facts PowAcc PowAcc2 PowAcc3 PowAcc4 PowAcc5 Demo AccDemo.
Import ListNotations.
Open Scope R_scope.

(** C54. xpow is x^y = exp (y ln x) up to the error of the logarithm times the exponent: 1e-10 |y| when the base is
    between 1/4 and 1/2, a few units in the last place otherwise. *)
Theorem C54_xpow_accuracy (a x : b64) : is_finite a = true -> 0 < B2R a -> is_finite x = true ->
  Rabs (B2R x) <= 10 ^ 6 -> Rabs (B2R x * ln (B2R a)) <= 700 ->
  exists v : b64, xpow (N := B64) musl_utils a x = Ret v /\ is_finite v = true /\
    Rabs (B2R v - Rpower (B2R a) (B2R x)) <=
      (101 / 100 * log_error (1 / 4) (1 / 2) (B2R a) * Rabs (B2R x) + 4 / 10 ^ 16 * Rabs (B2R x * ln (B2R a)) + 31 / 10 ^ 16) * Rpower (B2R a) (B2R x).
Proof. exact (xpow_accuracy a x). Qed.
Print Assumptions C54_xpow_accuracy.
(** 2^10 is exact, 3^5 is 243 minus 12 units in the last place, 4^(1/2) is 2 minus 14 (half) units. The base 3/8 is in the
    bad range of the logarithm: (3/8)^100, 6352518398987738 * 2^-194, is wrong from the twelfth digit on. *)
Definition spow (a x : b64) := match xpow (N := B64) musl_utils a x with Ret v => Some (sf v) | Undef _ => None end.
Example C54_example :
  is_finite (dy 3 3) = true /\ is_finite (d 100) = true /\
  spow (d 2) (d 10) = Some (SpecFloat.S754_finite false (2 ^ 52) (-42)) /\
  spow (d 3) (d 5) = Some (SpecFloat.S754_finite false (243 * 2 ^ 45 - 12) (-45)) /\
  spow (d 4) (dy 1 1) = Some (SpecFloat.S754_finite false (2 ^ 53 - 14) (-52)) /\
  spow (dy 3 3) (d 100) = Some (SpecFloat.S754_finite false 6352518399010180 (-194)).
Proof. vm_compute. repeat split. Qed.

(** C55. The quantile of a finite detector: the ideal generalised Pareto quantile of its parameters, up to an explicit
    error. The error of the exponential is divided by the shape. *)
Theorem C55_quantile_accuracy (s : spot B64) et dir sigma gamma (q : b64) :
  finite_detector s et dir sigma gamma -> is_finite q = true -> usual_range s et sigma gamma (B2R q) ->
  let rho := relative_risk s (B2R q) in let ideal := et + dir * gpd_quantile gamma sigma rho in
  exists v : b64, spot_quantile (c_math musl_utils) s q = Ret v /\ is_finite v = true /\
    Rabs (B2R v - ideal) <= quantile_error gamma sigma rho + 2 / 10 ^ 16 * Rabs ideal + 1 / 10 ^ 58.
Proof. exact (quantile_accuracy s et dir sigma gamma q). Qed.
Print Assumptions C55_quantile_accuracy.
(** threshold 10, scale 2, shape 1/2, ten excesses among 640, risk 1/1024: the ideal quantiles are 22 and -2 *)
Example C55_example :
  (forall up : bool, finite_detector (acc_demo up (dy 1 1)) 10 (if up then 1 else -1) 2 (1 / 2) /\ usual_range (acc_demo up (dy 1 1)) 10 2 (1 / 2) (B2R (dy 1 10)) /\
    relative_risk (acc_demo up (dy 1 1)) (B2R (dy 1 10)) = 1 / 16) /\
  gpd_quantile (1 / 2) 2 (1 / 16) = 12 /\
  forallb (fun up => match spot_quantile cm (acc_demo up (dy 1 1)) (dy 1 10) with
    | Ret v => let e := b64_minus v (if up then d 22 else d (-2)) in b64_ltb e (dy 1 45) && b64_ltb (dy (-1) 45) e
    | _ => false end) [true; false] = true.
Proof.
  split; [|split; [exact acc_demo_ideal|vm_compute; reflexivity]].
  intros up. split; [apply acc_demo_finite; apply half_value|]. split; [exact (acc_demo_usual up)|].
  destruct risk_value as (_ & E). replace (B2R (dy 1 10)) with (1 / 1024) by (symmetry; exact E). apply demo_risk.
Qed.

(** the threshold in use after an excess, and after a successful calibration *)
Theorem C55_threshold_accuracy (s s' : spot B64) et dir sigma gamma :
  (exists x, spot_step (c_math musl_utils) s x = Ret (s', EXCESS)) \/ (exists l, spot_fit (c_math musl_utils) s l = Ret (s', 0%Z)) ->
  finite_detector s' et dir sigma gamma -> is_finite (s_q s' : b64) = true -> usual_range s' et sigma gamma (B2R (s_q s' : b64)) ->
  let rho := relative_risk s' (B2R (s_q s' : b64)) in let ideal := et + dir * gpd_quantile gamma sigma rho in
  is_finite (s_at s' : b64) = true /\ Rabs (B2R (s_at s' : b64) - ideal) <= quantile_error gamma sigma rho + 2 / 10 ^ 16 * Rabs ideal + 1 / 10 ^ 58.
Proof. exact (threshold_accuracy s s' et dir sigma gamma). Qed.
Print Assumptions C55_threshold_accuracy.
(** the demonstration detector after its calibration (shape 0, threshold 11.9) and after the excess 30 (shape 1.21, threshold 116.7) *)
Example C55_example_threshold :
  (match spot_fit cm (demo_init 0 0 4) demo_batch with
   | Ret (s, 0%Z) => match spot_step cm s (d 30) with
       | Ret (s2, 1%Z) => forallb (fun u : spot B64 => (is_finite (s_at u : b64) && is_finite (s_et u : b64) && is_finite (t_sigma (s_tail u) : b64) && is_finite (t_gamma (s_tail u) : b64) &&
           (b64_eqb (t_gamma (s_tail u)) (d 0) || b64_ltb (d 1) (t_gamma (s_tail u))) && b64_ltb (d 0) (t_sigma (s_tail u)) && (0 <? s_Nt u)%Z && (s_Nt u <=? s_n u)%Z)%bool) [s; s2]
       | _ => false end
   | _ => false end) = true.
Proof. vm_compute. reflexivity. Qed.

(** The division by the shape is not harmless: when |shape| * |ln rho| is below 1e-16 the power is exactly 1 and the
    quantile IS the excess threshold, although the ideal one is farther by (nearly) the exponential quantile sigma |ln rho|. *)
Theorem C55_quantile_lost_near_zero_shape (s : spot B64) et dir sigma gamma (q : b64) :
  finite_detector s et dir sigma gamma -> is_finite q = true -> / 10 ^ 30 <= sigma <= 10 ^ 30 -> / 10 ^ 200 <= Rabs gamma ->
  / 10 ^ 40 <= B2R q <= 1 -> relative_risk s (B2R q) < 1 ->
  Rabs gamma * (Rabs (ln (relative_risk s (B2R q))) + 1 / 10 ^ 3) <= 98 / 10 ^ 18 ->
  99 / 100 * (sigma * - ln (relative_risk s (B2R q))) <= gpd_quantile gamma sigma (relative_risk s (B2R q)) /\
  exists v : b64, spot_quantile (c_math musl_utils) s q = Ret v /\ is_finite v = true /\ B2R v = et.
Proof. exact (threshold_collapse s et dir sigma gamma q). Qed.
Print Assumptions C55_quantile_lost_near_zero_shape.
(** shape 2^-60: the quantile is 10 instead of 15.5; with shape exactly zero it is right *)
Example C55_example_lost :
  finite_detector (acc_demo true (dy 1 60)) 10 1 2 (/ 1152921504606846976) /\
  Rabs (/ 1152921504606846976) * (Rabs (ln (relative_risk (acc_demo true (dy 1 60)) (1 / 1024))) + 1 / 10 ^ 3) <= 98 / 10 ^ 18 /\
  match spot_quantile cm (acc_demo true (dy 1 60)) (dy 1 10), spot_quantile cm (acc_demo true (d 0)) (dy 1 10) with
  | Ret v, Ret w => (b64_eqb v (d 10) && b64_ltb (dy 31 1) w)%bool = true | _, _ => False end.
Proof.
  split; [apply (acc_demo_finite true); apply tiny_value|]. split; [exact (acc_demo_tiny true)|]. vm_compute. reflexivity.
Qed.

(** C56. Whatever the rounding errors, the quantile of a risk not larger than the frequency of the excesses is never on the
    inner side of the excess threshold. *)
Theorem C56_quantile_beyond_excess_threshold (s : spot B64) et dir sigma gamma (q : b64) :
  finite_detector s et dir sigma gamma -> is_finite q = true -> 0 < B2R q <= IZR (s_Nt s) / IZR (s_n s) ->
  gamma = 0 \/ (Rabs gamma <= 10 ^ 6 /\ / 10 ^ 300 <= sigma / Rabs gamma <= 10 ^ 300) ->
  exists v : b64, spot_quantile (c_math musl_utils) s q = Ret v /\ BinarySingleNaN.is_nan v = false /\
    (dir = 1 -> b64_leb (s_et s) v = true) /\ (dir = -1 -> b64_leb v (s_et s) = true).
Proof. exact (quantile_outer s et dir sigma gamma q). Qed.
Print Assumptions C56_quantile_beyond_excess_threshold.
(** the bound on the risk is needed: with q = 1/16 above the frequency 1/64, the quantile (ideally 8) is inside *)
Example C56_example :
  finite_detector (acc_demo true (dy 1 1)) 10 1 2 (1 / 2) /\ 0 < B2R (dy 1 10) <= IZR (s_Nt (acc_demo true (dy 1 1))) / IZR (s_n (acc_demo true (dy 1 1))) /\
  match spot_quantile cm (acc_demo true (dy 1 1)) (dy 1 10), spot_quantile cm (acc_demo true (dy 1 1)) (dy 1 4), spot_quantile cm (acc_demo false (dy 1 1)) (dy 1 10) with
  | Ret v, Ret w, Ret x => (b64_ltb (d 21) v && b64_ltb w (d 9) && b64_ltb x (d (-1)))%bool = true | _, _, _ => False end.
Proof.
  split; [apply (acc_demo_finite true); apply half_value|]. split; [|vm_compute; reflexivity].
  destruct risk_value as (_ & E). replace (B2R (dy 1 10)) with (1 / 1024) by (symmetry; exact E). cbn [acc_demo s_Nt s_n]. lra.
Qed.

(** C57. The probability of a value: the ideal tail probability of the parameters, up to an explicit relative error. *)
Theorem C57_probability_accuracy (s : spot B64) et dir sigma gamma (z : b64) :
  finite_detector s et dir sigma gamma -> is_finite z = true ->
  let D := dir * (B2R z - et) in probability_range et (B2R z) sigma gamma D ->
  let ideal := IZR (s_Nt s) / IZR (s_n s) * gpd_survival gamma sigma D in
  exists v : b64, spot_probability (c_math musl_utils) s z = Ret v /\ is_finite v = true /\
    Rabs (B2R v - ideal) <= probability_error gamma sigma D * ideal.
Proof. exact (probability_accuracy s et dir sigma gamma z). Qed.
Print Assumptions C57_probability_accuracy.
(** the value 22 has probability 1/64 * 1/16 = 1/1024 *)
Example C57_example :
  finite_detector (acc_demo true (dy 1 1)) 10 1 2 (1 / 2) /\ probability_range 10 (B2R (d 22)) 2 (1 / 2) 12 /\ gpd_survival (1 / 2) 2 12 = 1 / 16 /\
  match spot_probability cm (acc_demo true (dy 1 1)) (d 22) with
  | Ret v => (b64_ltb (b64_minus v (dy 1 10)) (dy 1 55) && b64_ltb (dy (-1) 55) (b64_minus v (dy 1 10)))%bool = true | _ => False end.
Proof.
  split; [apply (acc_demo_finite true); apply half_value|]. split; [exact acc_demo_probability|]. split; [exact acc_demo_survival|]. vm_compute. reflexivity.
Qed.
