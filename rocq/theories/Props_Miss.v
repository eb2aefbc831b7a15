(** * The fit and the maximum of the likelihood (C69) *)
From Coq Require Import ZArith List Bool Reals Permutation.
From Flocq Require Import IEEE754.BinarySingleNaN.
From Verif Require Import Num XMath Ubend Session Peaks Brent Estimator Tail P2 Spot B64 RNum Spec TailSpec MissLemmas Demo MissDemo.
Import ListNotations.
Open Scope R_scope.

(** C69. Exact arithmetic. Samples made of two values a and b >= 1024 a, each k times in any order: the fitted shape is never
    positive, and some generalised Pareto distribution with positive shape is more likely than the fit by a factor
    (b/a)^(n/8) or more, n = 2k being the size of the sample. *)
Theorem C69_fit_misses_the_maximum (a b : R) k cap blk (xs : list R) t : 0 < a -> 1024 * a <= b -> b <= 1000000 -> b * b <= 100000000 * a -> (1 <= k)%nat ->
  Permutation xs (repeat a k ++ repeat b k) -> (Z.of_nat (length xs) <= cap < 2 ^ 61)%Z -> Z.of_nat (length blk) = cap ->
  peaks_pushes (N := RNum) (fst (peaks_init (Some blk) cap)) (map Some xs) = Ret (t_peaks t) ->
  exists g s g' s', tail_fit exact_math t = Ret (MkTail (N := RNum) (Some g) (Some s) (t_peaks t), Some (gpd_log_likelihood g s xs)) /\ g <= 0 /\
    0 < g' /\ 0 < s' /\ gpd_log_likelihood g s xs + INR (length xs) / 8 * ln (b / a) <= gpd_log_likelihood g' s' xs.
Proof. exact (C69_lemma a b k cap blk xs t). Qed.
Print Assumptions C69_fit_misses_the_maximum.
Example C69_example : exists t : tail RNum,
  peaks_pushes (N := RNum) (fst (peaks_init (N := RNum) (Some (repeat None 8)) 8)) (map Some [1 / 64; 256; 1 / 64; 256]%R) = Ret (t_peaks t) /\
  Permutation [1 / 64; 256; 1 / 64; 256]%R (repeat (1 / 64)%R 2 ++ repeat 256%R 2) /\
  (1024 * (1 / 64) <= 256 <= 1000000 /\ 256 * 256 <= 100000000 * (1 / 64))%R.
Proof. exact miss_example. Qed.

(** C69 in binary64: a detector calibrated on twelve 1s, 65/64, 257, 65/64 and 257 keeps the excesses 1/64, 256, 1/64, 256; by
    the program's own computation the distribution of shape 6 and scale 5/128 is more likely than its fit by a factor exp(8). *)
Theorem C69_most_likely_fit_refuted : exists (s : spot B64) ll ll', detector (c_math musl_utils) (dy 1 7) 0 1 (dy 3 2) 8 s /\
  oldest_first (window s) = map Some ([dy 1 6; d 256; dy 1 6; d 256] : list (num B64)) /\
  let t := s_tail s in log_likelihood (c_math musl_utils) (t_peaks t) (t_gamma t) (t_sigma t) = Ret ll /\
  log_likelihood (c_math musl_utils) (t_peaks t) (d 6 : num B64) (dy 5 7 : num B64) = Ret ll' /\
  b64_ltb (b64_plus ll (d 8)) ll' = true.
Proof. exact miss_witness. Qed.
Print Assumptions C69_most_likely_fit_refuted.
