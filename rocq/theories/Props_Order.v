(** * The order of the observations; the threshold between two excesses (C67, C68) *)
From Coq Require Import ZArith List Bool Reals Permutation.
From Flocq Require Import IEEE754.BinarySingleNaN.
From Verif Require Import Num XMath Ubend Session Peaks Brent Estimator Tail P2 Spot B64 RNum Spec TailSpec OrderApi StaleLemmas Demo OrderDemo StaleDemo.
Import ListNotations.
Open Scope Z_scope.

(** C67. Exact arithmetic, any log, exp and pow, anomalies not discarded, no excess leaves the window: two streams made of
    the same observations in different orders get the same answer for each observation and leave the same thresholds,
    counters, parameters and excesses, the anomaly threshold apart. *)
Theorem C67_order_irrelevant (mf : MathFns RNum) q low level cap (s s1 s2 : spot RNum) xs ys r1 r2 :
  detector mf q low 0 level cap s -> Permutation xs ys ->
  spot_steps mf s xs = Ret (s1, r1) -> spot_steps mf s ys = Ret (s2, r2) ->
  Z.of_nat (length (oldest_first (window s))) + Z.of_nat (count_occ Z.eq_dec r1 EXCESS) <= cap ->
  (exists answer, r1 = map answer xs /\ r2 = map answer ys) /\
  s_et s1 = s_et s2 /\ s_Nt s1 = s_Nt s2 /\ s_n s1 = s_n s2 /\ t_gamma (s_tail s1) = t_gamma (s_tail s2) /\ t_sigma (s_tail s1) = t_sigma (s_tail s2) /\
  Permutation (oldest_first (window s1)) (oldest_first (window s2)).
Proof. exact (C67_lemma mf q low level cap s s1 s2 xs ys r1 r2). Qed.
Print Assumptions C67_order_irrelevant.

(** C67. If the two streams end with the same excess, the anomaly threshold is the same too. *)
Theorem C67_order_irrelevant_for_the_threshold (mf : MathFns RNum) q low level cap (s s1 s2 : spot RNum) xs ys x r1 r2 :
  detector mf q low 0 level cap s -> Permutation xs ys ->
  spot_steps mf s (xs ++ [x]) = Ret (s1, r1 ++ [EXCESS]) -> spot_steps mf s (ys ++ [x]) = Ret (s2, r2) ->
  Z.of_nat (length (oldest_first (window s))) + Z.of_nat (count_occ Z.eq_dec r1 EXCESS) + 1 <= cap ->
  s_at s1 = s_at s2.
Proof. exact (C67_threshold_lemma mf q low level cap s s1 s2 xs ys x r1 r2). Qed.
Print Assumptions C67_order_irrelevant_for_the_threshold.
(** calibrated on 5, 1, 4, 2, 3, 3/2 (excess threshold 19/9, three excesses, room for eight), then 7, 1, 6 in three orders *)
Example C67_example : exists s s1 s2 s3 : spot RNum,
  detector exact_math (Some (1 / 100)%R : num RNum) 0 0 (Some (1 / 4)%R : num RNum) 8 s /\ length (oldest_first (window s)) = 3%nat /\
  spot_steps exact_math s (map Some [7; 1; 6]%R) = Ret (s1, [EXCESS; NORMAL; EXCESS]) /\ spot_steps exact_math s (map Some [6; 7; 1]%R) = Ret (s2, [EXCESS; EXCESS; NORMAL]) /\
  spot_steps exact_math s (map Some [1; 7]%R ++ [Some 6%R]) = Ret (s3, [NORMAL; EXCESS] ++ [EXCESS]).
Proof. exact order_run. Qed.

(** The condition on the last excess is needed: the anomaly threshold is computed with the counters at the last excess and
    is not refreshed by normal observations, although the ratio Nt/n it depends on changes. Here 10 then -1, or -1 then 10,
    leave anomaly thresholds more than 1/16 apart. *)
Theorem C67_without_common_last_excess_refuted : exists s s1 s2 : spot B64, detector (c_math musl_utils) (dy 1 7) 0 0 (dy 3 2) 8 s /\ length (oldest_first (window s)) = 1%nat /\
  spot_steps (c_math musl_utils) s [d 10; d (-1)] = Ret (s1, [EXCESS; NORMAL]) /\ spot_steps (c_math musl_utils) s [d (-1); d 10] = Ret (s2, [NORMAL; EXCESS]) /\
  b64_ltb (b64_plus (s_at s2) (dy 1 4)) (s_at s1) = true.
Proof. exact last_excess_witness. Qed.
Print Assumptions C67_without_common_last_excess_refuted.

(** Exact arithmetic is needed, and not only for the last digits: in binary64 the sums depend on the order, the root search
    then ends elsewhere, and with the same four excesses in a window of eight the anomaly threshold goes from 8.1 to 18.6. *)
Theorem C67_binary64_refuted : exists s s1 s2 : spot B64, detector (c_math musl_utils) (dy 1 7) 0 0 (dy 3 2) 8 s /\ length (oldest_first (window s)) = 1%nat /\
  spot_steps (c_math musl_utils) s [tenth 3; tenth 41; tenth 1] = Ret (s1, [EXCESS; EXCESS; EXCESS]) /\
  spot_steps (c_math musl_utils) s [tenth 41; tenth 3; tenth 1] = Ret (s2, [EXCESS; EXCESS; EXCESS]) /\
  b64_ltb (b64_plus (s_at s1) (d 10)) (s_at s2) = true.
Proof. exact rounding_witness. Qed.
Print Assumptions C67_binary64_refuted.

(** C68. Exact arithmetic. s1: the detector just after an excess or a successful calibration; then observations none of which
    is an excess, at least one being normal. The anomaly threshold in use is still the one of s1, while the quantile of q
    with the present counters is strictly inside it; an observation between the two is not flagged although the detector
    itself gives its tail a probability smaller than q. *)
Theorem C68_threshold_goes_stale (s0 s1 s2 : spot RNum) et dir sigma gamma q xs rs :
  (exists y, spot_step exact_math s0 y = Ret (s1, EXCESS)) \/ (exists data, spot_fit exact_math s0 data = Ret (s1, 0)) ->
  real_detector s1 et dir sigma gamma -> s_q s1 = Some q -> (0 < q)%R ->
  spot_steps exact_math s1 xs = Ret (s2, rs) -> ~ In EXCESS rs -> In NORMAL rs -> s_n s1 + Z.of_nat (length xs) < 2 ^ 64 ->
  exists a z : R, s_at s1 = Some a /\ s_at s2 = Some a /\ spot_quantile exact_math s2 (Some q : num RNum) = Ret (Some z) /\ (dir * z < dir * a)%R /\
    forall x : R, (dir * z < dir * x <= dir * a)%R ->
      (exists p : R, spot_probability exact_math s2 (Some x : num RNum) = Ret (Some p) /\ (p < q)%R) /\
      (forall s3 r, spot_step exact_math s2 (Some x : num RNum) = Ret (s3, r) -> r <> ANOMALY).
Proof. exact (C68_lemma s0 s1 s2 et dir sigma gamma q xs rs). Qed.
Print Assumptions C68_threshold_goes_stale.
(** calibrated on 5, 1, 4, 2, 3, 3/2 with risk 1/100, then 1 and 2 *)
Example C68_example : exists (s0 s1 s2 : spot RNum) sg g, spot_fit exact_math s0 (map Some [5; 1; 4; 2; 3; 3 / 2]%R) = Ret (s1, 0) /\
  real_detector s1 (19 / 9) 1 sg g /\ s_q s1 = Some (1 / 100)%R /\ spot_steps exact_math s1 (map Some [1; 2]%R) = Ret (s2, [NORMAL; NORMAL]) /\ s_n s1 = 6.
Proof. exact stale_example. Qed.

(** C68 in binary64: risk 1/128, twenty observations of 1 after the calibration, then 23/2, whose probability as computed by
    the detector is below 1/128, is recorded as an ordinary excess. *)
Theorem C68_stale_threshold_refuted : exists (s1 s2 s3 : spot B64) p, detector (c_math musl_utils) (dy 1 7) 0 1 (dy 3 2) 4 s1 /\
  spot_steps (c_math musl_utils) s1 (repeat (d 1) 20) = Ret (s2, repeat NORMAL 20) /\
  spot_probability (c_math musl_utils) s2 (dy 23 1 : num B64) = Ret p /\ b64_ltb p (dy 1 7) = true /\
  spot_step (c_math musl_utils) s2 (dy 23 1 : num B64) = Ret (s3, EXCESS).
Proof. exact stale_witness. Qed.
Print Assumptions C68_stale_threshold_refuted.
