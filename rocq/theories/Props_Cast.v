(** * Undefined conversions reachable from the API (C45) *)
From Coq Require Import ZArith List Bool Reals Lra Lia.
From Flocq Require Import IEEE754.BinarySingleNaN.
From Verif Require Import Num XMath Ubend Session Peaks Brent Estimator Tail P2 Spot B64 Spec B64Facts CastLemmas CastApi CastDemo Demo.
Import ListNotations.
Open Scope Z_scope.

(** C45. A risk of zero: undefined for every non-zero finite shape, whatever the ldexp/frexp plugged in. *)
Theorem C45_quantile_at_zero_undefined (fu : FloatUtils B64) (s : spot B64) z :
  finite64 (t_gamma (s_tail s)) = true -> b64_eqb (t_gamma (s_tail s)) (d 0) = false -> 1 <= s_Nt s <= s_n s -> s_n s < 2 ^ 64 ->
  spot_quantile (c_math fu) s (B754_zero z : b64) = Undef CastRange.
Proof. exact (spot_quantile_zero fu s z). Qed.
Print Assumptions C45_quantile_at_zero_undefined.
Definition is_cast {A} (r : res A) : bool := match r with Undef CastRange => true | _ => false end.
Definition is_ret {A} (r : res A) : bool := match r with Ret _ => true | Undef _ => false end.
Example C45_example_zero :
  let s := run (demo_init 0 0 4) [CFit (N := B64) demo_batch; CStep (N := B64) (d 30)] in
  (finite64 (t_gamma (s_tail s)) && negb (b64_eqb (t_gamma (s_tail s)) (d 0)) && (s_Nt s =? 7) && (s_n s =? 21) &&
   is_cast (spot_quantile cm s (d 0)) = true)%bool.
Proof. vm_compute. reflexivity. Qed.

(** The end point of the support, likewise. *)
Theorem C45_probability_at_endpoint_undefined (fu : FloatUtils B64) (s : spot B64) (z : b64) :
  finite64 (t_gamma (s_tail s)) = true -> b64_eqb (t_gamma (s_tail s)) (d 0) = false ->
  (exists sg, b64_plus (d 1) (b64_mult (b64_mult (s_updown s) (b64_minus z (s_et s))) (b64_div (t_gamma (s_tail s)) (t_sigma (s_tail s)))) = B754_zero sg) ->
  spot_probability (c_math fu) s z = Undef CastRange.
Proof. exact (spot_probability_end fu s z). Qed.
Print Assumptions C45_probability_at_endpoint_undefined.
Example C45_example_endpoint : (* gamma = -1/2, sigma = 2, threshold 5: the end point is 9 *)
  is_cast (spot_probability cm (with_shape demo_up (dy (-1) 1) (d 2) (d 5)) (d 9)) = true /\
  is_ret (spot_probability cm (with_shape demo_up (dy (-1) 1) (d 2) (d 5)) (d 8)) = true.
Proof. vm_compute. split; reflexivity. Qed.

(** Any other risk and a shape that is not huge: defined. *)
Theorem C45_quantile_defined (s : spot B64) (q : b64) :
  b64_leb q (d 0) = false -> 0 <= s_Nt s <= s_n s -> s_n s < 2 ^ 64 ->
  is_NaN (t_gamma (s_tail s)) = true \/ (finite64 (t_gamma (s_tail s)) = true /\ (Rabs (B2R64 (t_gamma (s_tail s))) <= 39 * 10 ^ 5)%R) ->
  exists v, spot_quantile (c_math musl_utils) s q = Ret v.
Proof. exact (spot_quantile_defined_lemma s q). Qed.
Print Assumptions C45_quantile_defined.
Example C45_example_quantile_defined : (* a shape of -100 and of a million *)
  forallb (fun g => is_ret (spot_quantile cm (with_shape demo_up g (d 2) (d 5)) (dy 1 10)))
    [d (-100); d 1000000; qnan] = true /\
  is_cast (spot_quantile cm (with_shape demo_up (d (2 ^ 31)) (d 2) (d 5)) (dy 1 10)) = true.
Proof. vm_compute. split; reflexivity. Qed.

(** Off the end point and with a shape that is not tiny, the probability is defined for every value, infinities and NaN included. *)
Theorem C45_probability_defined (s : spot B64) (z : b64) :
  finite64 (t_gamma (s_tail s)) = true -> (3 / 10 ^ 7 <= Rabs (B2R64 (t_gamma (s_tail s))))%R ->
  (forall sg, b64_plus (d 1) (b64_mult (b64_mult (s_updown s) (b64_minus z (s_et s))) (b64_div (t_gamma (s_tail s)) (t_sigma (s_tail s)))) <> B754_zero sg) ->
  exists v, spot_probability (c_math musl_utils) s z = Ret v.
Proof. exact (spot_probability_defined_lemma s z). Qed.
Print Assumptions C45_probability_defined.
Example C45_example_probability_defined :
  forallb (fun z => is_ret (spot_probability cm (with_shape demo_up (dy (-1) 1) (d 2) (d 5)) z))
    [d 8; d 10; d (-7); pinf; ninf; qnan] = true.
Proof. vm_compute. reflexivity. Qed.

(** With an exponential tail (shape zero) the probability is defined exactly for scaled excesses below 2^32 ln 2
    (2977044471.99...): an outlier beyond reaches the conversion. *)
Theorem C45_probability_exponential_tail (fu : FloatUtils B64) (s : spot B64) (z : b64) :
  b64_eqb (t_gamma (s_tail s)) (d 0) = true ->
  let e := b64_div (b64_opp (b64_mult (s_updown s) (b64_minus z (s_et s)))) (t_sigma (s_tail s)) in
  (is_NaN e = true \/ (finite64 e = true /\ (Rabs (B2R64 e) <= 2977044471)%R) -> exists v, spot_probability (c_math fu) s z = Ret v) /\
  ((exists sg, e = B754_infinity sg) \/ (finite64 e = true /\ (2977044472 <= Rabs (B2R64 e))%R) -> spot_probability (c_math fu) s z = Undef CastRange).
Proof. exact (spot_probability_exponential_lemma fu s z). Qed.
Print Assumptions C45_probability_exponential_tail.
Example C45_example_exponential :
  is_ret (spot_probability cm (with_shape demo_up (d 0) (d 1) (d 0)) (d 2977044471)) = true /\
  is_cast (spot_probability cm (with_shape demo_up (d 0) (d 1) (d 0)) (d 2977044472)) = true.
Proof. vm_compute. split; reflexivity. Qed.

(** The two calls that refit can only be undefined through a shape beyond 3.9 million found by the fit. *)
Theorem C45_step_undefined_only_for_huge_shape q low discard level cap (s : spot B64) (x : b64) w :
  detector (c_math musl_utils) q low discard level cap s -> 0 <= s_Nt s <= s_n s -> s_n s + 1 < 2 ^ 64 ->
  spot_step (c_math musl_utils) s x = Undef w ->
  exists t1 t2 ll, tail_push (s_tail s) (b64_mult (s_updown s) (b64_minus x (s_et s))) = Ret t1 /\
    tail_fit (c_math musl_utils) t1 = Ret (t2, ll) /\
    ((exists z, t_gamma t2 = (B754_infinity z : b64)) \/ (finite64 (t_gamma t2) = true /\ (39 * 10 ^ 5 < Rabs (B2R64 (t_gamma t2)))%R)).
Proof. exact (step_undefined_lemma q low discard level cap s x w). Qed.
Print Assumptions C45_step_undefined_only_for_huge_shape.
Theorem C45_fit_undefined_only_for_huge_shape q low discard level cap (s : spot B64) (data : list b64) w :
  detector (c_math musl_utils) q low discard level cap s -> Z.of_nat (length data) < 2 ^ 64 ->
  spot_fit (c_math musl_utils) s data = Undef w ->
  exists (et : b64) filled t2 ll, p2_quantile (N := B64) (if low =? 0 then level else b64_minus (d 1) level) data = Ret (et : num B64) /\
    peaks_pushes (t_peaks (s_tail s)) (excesses low et data) = Ret filled /\
    tail_fit (c_math musl_utils) (MkTail (t_gamma (s_tail s)) (t_sigma (s_tail s)) filled) = Ret (t2, ll) /\
    ((exists z, t_gamma t2 = (B754_infinity z : b64)) \/ (finite64 (t_gamma t2) = true /\ (39 * 10 ^ 5 < Rabs (B2R64 (t_gamma t2)))%R)).
Proof. exact (fit_undefined_lemma q low discard level cap s data w). Qed.
Print Assumptions C45_fit_undefined_only_for_huge_shape.

(** ... and this happens on ordinary data. Three equal peaks of 0.3 over a batch of zeros: the variance of the peaks is a
    rounding error, the method of moments returns a shape near -3*10^15, and both spot_fit and spot_step are undefined. *)
Theorem C45_fit_is_defined_refuted :
  exists (s : spot B64) (data : list b64),
    detector (c_math musl_utils) (dy 1 7) 0 1 (dy 3 2) 4 s /\
    (forall x, In x data -> x = d 0 \/ x = b64_div (d 3) (d 10)) /\ length data = 20%nat /\
    spot_fit (c_math musl_utils) s data = Undef CastRange.
Proof. exact fit_undefined_witness. Qed.
Print Assumptions C45_fit_is_defined_refuted.
Theorem C45_step_is_defined_refuted :
  exists (s : spot B64) (data : list b64) s1,
    detector (c_math musl_utils) (dy 1 7) 0 1 (dy 3 2) 4 s /\
    (forall x, In x data -> x = d 0 \/ x = b64_div (d 3) (d 10)) /\ length data = 18%nat /\
    spot_fit (c_math musl_utils) s data = Ret (s1, 0) /\
    spot_step (c_math musl_utils) s1 (b64_div (d 3) (d 10)) = Undef CastRange.
Proof. exact step_undefined_witness. Qed.
Print Assumptions C45_step_is_defined_refuted.
