(** * Monotonicity in binary64: logarithm, exponential, quantile and tail probability (C83-C87) *)
From Coq Require Import ZArith List Bool Reals Lra.
From Flocq Require Import Core.Zaux Core.Raux IEEE754.BinarySingleNaN.
From Verif Require Import Num XMath Ubend Session Peaks Brent Estimator Tail P2 Spot B64 RNum Spec AccSpec LogMono ProbBounds ExpMono MonoSpec TailMono Demo AccDemo MonoDemo TailDemo.
Import ListNotations.
Open Scope R_scope.

(** C83. The logarithm of the library preserves the order of two numbers of the same binade, of two numbers between 2^-48 and 32,
    and (strictly) of two numbers a relative 1e-9 apart. *)
Theorem C83_log_monotone (x y : b64) : is_finite x = true -> is_finite y = true -> 0 < B2R x -> B2R x <= B2R y ->
  ((exists k, bpow radix2 k <= B2R x /\ B2R y < bpow radix2 (k + 1)) \/ (bpow radix2 (-48) <= B2R x /\ B2R y < 32) ->
     b64_leb (xlog (N := B64) musl_utils x) (xlog (N := B64) musl_utils y) = true) /\
  ((1 + 1 / 10 ^ 9) * B2R x <= B2R y -> b64_ltb (xlog (N := B64) musl_utils x) (xlog (N := B64) musl_utils y) = true).
Proof. exact (xlog_monotone x y). Qed.
Print Assumptions C83_log_monotone.
(** 2 and the next double, 31 and 31.5, 1 and 3 *)
Example C83_example :
  forallb (fun p => b64_leb (xlog (N := B64) musl_utils (fst p)) (xlog (N := B64) musl_utils (snd p)))
    [(d 2, dy 4503599627370497 51); (d 31, dy 63 1); (d 1, d 3)] = true /\
  b64_ltb (d 2) (dy 4503599627370497 51) = true.
Proof. split; vm_compute; reflexivity. Qed.

(** C83. It is not monotone: the logarithm of 32 is below the logarithm of the double before 32. *)
Theorem C83_log_monotone_refuted :
  ~ (forall x y : b64, is_finite x = true -> is_finite y = true -> b64_ltb (d 0) x = true -> b64_leb x y = true ->
      b64_leb (xlog (N := B64) musl_utils x) (xlog (N := B64) musl_utils y) = true).
Proof. exact log_drops. Qed.
Print Assumptions C83_log_monotone_refuted.

(** C83. The sign of the logarithm is right everywhere. *)
Theorem C83_log_sign (x : b64) : is_finite x = true -> 0 < B2R x -> let l := xlog (N := B64) musl_utils x : b64 in
  is_finite l = true /\ (1 <= B2R x -> 0 <= B2R l) /\ (B2R x <= 1 -> B2R l <= 0).
Proof. exact (log_sign x). Qed.
Print Assumptions C83_log_sign.

(** C84. The tail probability of a value beyond the excess threshold is between 0 and the frequency of the excesses, and that of a
    value inside is at least this frequency; at the excess threshold it is exactly the frequency. *)
Theorem C84_probability_side (s : spot B64) et dir sigma gamma (z : b64) :
  finite_detector s et dir sigma gamma -> is_finite z = true ->
  let D := dir * (B2R z - et) in
  Rabs et <= 10 ^ 200 -> Rabs (B2R z) <= 10 ^ 200 -> / 10 ^ 30 <= sigma <= 10 ^ 30 ->
  gamma = 0 /\ Rabs (D / sigma) <= 10 ^ 9 \/ / 10 ^ 6 <= Rabs gamma <= 10 ^ 6 /\ 1 / 10 ^ 14 <= 1 + gamma * D / sigma <= 10 ^ 200 ->
  let frequency := b64_div (b64_ofZ (s_Nt s)) (b64_ofZ (s_n s)) in
  exists v : b64, spot_probability (c_math musl_utils) s z = Ret v /\
    (0 <= D -> b64_leb (b64_ofZ 0) v = true /\ b64_leb v frequency = true) /\ (D <= 0 -> b64_leb frequency v = true).
Proof. exact (probability_bounds s et dir sigma gamma z). Qed.
Print Assumptions C84_probability_side.
(** excess threshold 10, frequency 1/64: the values 11, 10 and 9 *)
Example C84_example :
  finite_detector (acc_demo true (dy 1 1)) 10 1 2 (1 / 2) /\ 1 / 10 ^ 14 <= 1 + 1 / 2 * (1 * (9 - 10)) / 2 <= 10 ^ 200 /\
  match spot_probability cm (acc_demo true (dy 1 1)) (d 11), spot_probability cm (acc_demo true (dy 1 1)) (d 10), spot_probability cm (acc_demo true (dy 1 1)) (d 9) with
  | Ret u, Ret v, Ret w => (b64_ltb u (dy 1 6) && b64_eqb v (dy 1 6) && b64_ltb (dy 1 6) w)%bool = true | _, _, _ => False end.
Proof. split; [apply (acc_demo_finite true); apply half_value|]. split; [split; [lra|apply Rle_trans with (10 ^ 1); [lra|apply Rle_pow; [lra|auto with arith]]]|vm_compute; reflexivity]. Qed.

(** C84. Beyond the end of the support of a light tail (where the probability is zero) the answer is not a number. *)
Theorem C84_beyond_support (s : spot B64) et dir sigma gamma (z : b64) :
  finite_detector s et dir sigma gamma -> is_finite z = true ->
  let D := dir * (B2R z - et) in
  Rabs et <= 10 ^ 200 -> Rabs (B2R z) <= 10 ^ 200 -> / 10 ^ 30 <= sigma <= 10 ^ 30 -> / 10 ^ 6 <= Rabs gamma <= 10 ^ 6 ->
  - 10 ^ 200 <= 1 + gamma * D / sigma <= - (1 / 10 ^ 14) ->
  exists v : b64, spot_probability (c_math musl_utils) s z = Ret v /\ BinarySingleNaN.is_nan v = true.
Proof. exact (probability_nan s et dir sigma gamma z). Qed.
Print Assumptions C84_beyond_support.
(** shape -1/2 and scale 2: the support ends at 14; the value 20 *)
Example C84_beyond_example :
  finite_detector (acc_demo true (dy (-1) 1)) 10 1 2 (- (1 / 2)) /\ 1 + - (1 / 2) * (1 * (20 - 10)) / 2 = - (3 / 2) /\
  match spot_probability cm (acc_demo true (dy (-1) 1)) (d 20) with Ret v => BinarySingleNaN.is_nan v = true | _ => False end.
Proof. split; [apply (acc_demo_finite true); apply mhalf_value|]. split; [lra|vm_compute; reflexivity]. Qed.

(** C84. The expectation of the test of the JavaScript binding (wasm/libspot.test.ts:47-52): an observation flagged EXCESS need
    not have a tail probability of at most 1 - level. Here the level is 3/4. *)
Theorem C84_excess_probability_refuted :
  ~ (forall (s0 s s' : spot B64) batch x p, s0 = demo_init 0 1 4 -> spot_fit cm s0 batch = Ret (s, 0%Z) -> spot_step cm s x = Ret (s', EXCESS) ->
      spot_probability cm s' x = Ret p -> b64_leb p (b64_minus (b64_ofZ 1) (s_level s')) = true).
Proof. exact excess_is_likely. Qed.
Print Assumptions C84_excess_probability_refuted.

(** C85. The exponential of the library preserves the order of two numbers between -33 and 33, and (strictly) of two numbers 1e-12
    apart between -708 and 708. *)
Theorem C85_exp_monotone (x y : b64) : is_finite x = true -> is_finite y = true -> B2R x <= B2R y ->
  (-33 <= B2R x -> B2R y <= 33 -> exists u v : b64, xexp (N := B64) musl_utils x = Ret u /\ xexp (N := B64) musl_utils y = Ret v /\ b64_leb u v = true) /\
  (-708 <= B2R x -> B2R y <= 708 -> B2R x + 1 / 10 ^ 12 <= B2R y ->
   exists u v : b64, xexp (N := B64) musl_utils x = Ret u /\ xexp (N := B64) musl_utils y = Ret v /\ b64_ltb u v = true).
Proof. exact (exp_order x y). Qed.
Print Assumptions C85_exp_monotone.
(** 1 and the next double; 20 and 33; -700 and -699 *)
Example C85_example :
  forallb (fun p => match xexp (N := B64) musl_utils (fst p), xexp (N := B64) musl_utils (snd p) with Ret u, Ret v => b64_leb u v | _, _ => false end)
    [(d 1, dy 4503599627370497 52); (d 20, d 33); (d (-700), d (-699))] = true /\ b64_ltb (d 1) (dy 4503599627370497 52) = true.
Proof. split; vm_compute; reflexivity. Qed.

(** C86. A larger risk never gives a threshold further out, when the relative risk is between 1e-14 and 31. *)
Theorem C86_quantile_order (s : spot B64) et dir sigma gamma (q q' : b64) :
  finite_detector s et dir sigma gamma -> is_finite q = true -> is_finite q' = true -> B2R q <= B2R q' ->
  quantile_order_range s et sigma gamma (B2R q) -> quantile_order_range s et sigma gamma (B2R q') ->
  exists v v' : b64, spot_quantile (c_math musl_utils) s q = Ret v /\ spot_quantile (c_math musl_utils) s q' = Ret v' /\
    is_finite v = true /\ is_finite v' = true /\ dir * B2R v' <= dir * B2R v.
Proof. exact (quantile_order s et dir sigma gamma q q'). Qed.
Print Assumptions C86_quantile_order.
(** shape 1/2, scale 2, excess threshold 10: the risks 1/128 and 1/64 *)
Example C86_example :
  finite_detector (acc_demo true (dy 1 1)) 10 1 2 (1 / 2) /\ B2R (dy 1 7) = 1 / 128 /\ B2R (dy 1 6) = 1 / 64 /\
  quantile_order_range (acc_demo true (dy 1 1)) 10 2 (1 / 2) (1 / 128) /\ quantile_order_range (acc_demo true (dy 1 1)) 10 2 (1 / 2) (1 / 64) /\
  match spot_quantile cm (acc_demo true (dy 1 1)) (dy 1 7), spot_quantile cm (acc_demo true (dy 1 1)) (dy 1 6) with Ret v, Ret v' => b64_ltb v' v = true | _, _ => False end.
Proof.
  split; [apply (acc_demo_finite true); apply half_value|]. split; [apply v128|]. split; [apply v64|]. split; [apply demo_range; lra|]. split; [apply demo_range; lra|]. vm_compute; reflexivity.
Qed.

(** C86. Beyond this range it can happen: the threshold of risk 1/2 is above the threshold of the double before 1/2. *)
Theorem C86_quantile_order_refuted : ~ (forall (s : spot B64) et sigma gamma (q q' v v' : b64),
  finite_detector s et 1 sigma gamma -> is_finite q = true -> is_finite q' = true -> B2R q <= B2R q' -> usual_range s et sigma gamma (B2R q) -> usual_range s et sigma gamma (B2R q') ->
  spot_quantile (c_math musl_utils) s q = Ret v -> spot_quantile (c_math musl_utils) s q' = Ret v' -> b64_leb v' v = true).
Proof. exact quantile_rises. Qed.
Print Assumptions C86_quantile_order_refuted.

(** C87. A value further out is never reported as more likely. *)
Theorem C87_probability_order (s : spot B64) et dir sigma gamma (z z' : b64) :
  finite_detector s et dir sigma gamma -> is_finite z = true -> is_finite z' = true -> dir * B2R z <= dir * B2R z' ->
  probability_order_range et (B2R z) sigma gamma (dir * (B2R z - et)) -> probability_order_range et (B2R z') sigma gamma (dir * (B2R z' - et)) ->
  exists v v' : b64, spot_probability (c_math musl_utils) s z = Ret v /\ spot_probability (c_math musl_utils) s z' = Ret v' /\ b64_leb v' v = true.
Proof. exact (probability_order s et dir sigma gamma z z'). Qed.
Print Assumptions C87_probability_order.
(** the values 11 and 12 *)
Example C87_example :
  finite_detector (acc_demo true (dy 1 1)) 10 1 2 (1 / 2) /\
  probability_order_range 10 11 2 (1 / 2) (1 * (11 - 10)) /\ probability_order_range 10 12 2 (1 / 2) (1 * (12 - 10)) /\
  match spot_probability cm (acc_demo true (dy 1 1)) (d 11), spot_probability cm (acc_demo true (dy 1 1)) (d 12) with Ret v, Ret v' => b64_ltb v' v = true | _, _ => False end.
Proof. split; [apply (acc_demo_finite true); apply half_value|]. split; [apply demo_prange; lra|]. split; [apply demo_prange; lra|]. vm_compute; reflexivity. Qed.
