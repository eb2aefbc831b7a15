(** * Statements of the documentation (C77, C78, C79) *)
From Coq Require Import ZArith List Bool Reals Lra Lia Sorting.Sorted.
From Flocq Require Import Core.Core IEEE754.BinarySingleNaN.
From Verif Require Import Num XMath Ubend Session Peaks Brent Estimator Tail P2 Spot B64 RNum Spec TailSpec Bench BenchDepth DocsLemmas RiskSpec RiskLemmas RiskExact
  RiskDemo OrderDemo Demo.
Import ListNotations.
Open Scope R_scope.

(** ** C77. The table of depths of the exponential (docs/internals/50_math.md:139-149)

    [exp_cf n (Some z)] is the continued fraction truncated at depth [n], over the reals. *)

(** Depth 4 underestimates, by at least 3.93e-8 z^9 in relative value. *)
Theorem C77_depth_4_underestimates (z : R) : 0 <= z <= 7 / 10 ->
  exists v, exp_cf (N := RNum) 4 (Some z) = Some v /\ v <= (1 - 393 / 10 ^ 10 * z ^ 9) * exp z.
Proof. exact (depth_4_error z). Qed.
Print Assumptions C77_depth_4_underestimates.

(** The table gives the maximal relative error 1.014192E-14; a hundred thousand times that is not a bound. *)
Theorem C77_table_refuted :
  ~ (forall z, 0 <= z <= 7 / 10 -> exists v, exp_cf (N := RNum) 4 (Some z) = Some v /\ Rabs (v - exp z) <= 15 / 10 ^ 10 * exp z).
Proof. exact depth_4_table. Qed.
Print Assumptions C77_table_refuted.

(** Depth 6, the one of the library, underestimates as well: its truncation error is invisible to the signed figure. *)
Theorem C77_depth_6_underestimates (z : R) : 0 <= z <= ln 2 ->
  exists v, exp_cf (N := RNum) 6 (Some z) = Some v /\ v <= exp z.
Proof. exact (depth_6_error z). Qed.
Print Assumptions C77_depth_6_underestimates.

(** at z = 1/2 the fraction is 34361/20841 at depth 4 *)
Example C77_example : 0 <= 1 / 2 <= 7 / 10 /\ 1 / 2 <= ln 2 /\ exp_cf (N := RNum) 4 (Some (1 / 2)) = Some (34361 / 20841).
Proof. exact depth_4_example. Qed.

(** ** C78. What a calibration keeps (docs/30_parameters.md:25)

    "The algorithm will drop the 990 lowest data and will keep the 10 highest". On a batch in increasing or decreasing order
    the number kept does not depend on the level: it is all but three, or two. *)
Open Scope Z_scope.
Theorem C78_monotone_batches mf q low discard level cap (s s' : spot B64) (xs : list b64) r :
  detector mf q low discard level cap s -> (5 <= length xs)%nat -> Z.of_nat (length xs) < 2 ^ 64 -> spot_fit mf s xs = Ret (s', r) ->
  (StronglySorted (fun x y => b64_ltb x y = true) xs -> s_Nt s' = if low =? 0 then Z.of_nat (length xs) - 3 else 2) /\
  (StronglySorted (fun x y => b64_ltb y x = true) xs -> s_Nt s' = if low =? 0 then 2 else Z.of_nat (length xs) - 3).
Proof. exact (monotone_calibration mf q low discard level cap s s' xs r). Qed.
Print Assumptions C78_monotone_batches.

(** the batch 1, ..., 12 at level 3/4: nine values are kept instead of three *)
Example C78_example : exists (s s' : spot B64),
  let xs := map d (map Z.of_nat (seq 1 12)) in
  detector cm (dy 1 7) 0 1 (dy 3 2) 4 s /\ spot_fit cm s xs = Ret (s', 0) /\ StronglySorted (fun x y : b64 => b64_ltb x y = true) xs /\ s_Nt s' = 9.
Proof. exact docs_batch. Qed.

(** ** C79. The risk q (docs/30_parameters.md:9-18)

    "When q is low, SPOT will flag only very extreme events so the false positive rate will be low, and so the detection
    rate". [same_but_q]: two detectors with the same configuration and state, except the risk and the anomaly threshold. *)

(** The two detectors, calibrated on the same batch and fed the same stream: at the first observation on which they answer
    differently, the one with the larger risk answers ANOMALY (exact arithmetic). *)
Theorem C79_first_disagreement (a0 b0 a1 b1 a2 b2 a3 b3 : spot RNum) qa qb data xs rs x ra rb et dir sigma gamma :
  same_but_q a0 b0 -> s_q a0 = Some qa -> s_q b0 = Some qb -> (0 < qa < qb)%R -> data <> [] ->
  Z.of_nat (length data) + Z.of_nat (length xs) < 2 ^ 64 ->
  spot_fit exact_math a0 data = Ret (a1, 0) -> spot_fit exact_math b0 data = Ret (b1, 0) ->
  spot_steps exact_math a1 xs = Ret (a2, rs) -> spot_steps exact_math b1 xs = Ret (b2, rs) ->
  real_detector a2 et dir sigma gamma ->
  spot_step exact_math a2 x = Ret (a3, ra) -> spot_step exact_math b2 x = Ret (b3, rb) -> ra <> rb ->
  rb = ANOMALY.
Proof. exact (first_disagreement a0 b0 a1 b1 a2 b2 a3 b3 qa qb data xs rs x ra rb et dir sigma gamma). Qed.
Print Assumptions C79_first_disagreement.

Example C79_example : exists (a1 b1 a3 b3 : spot RNum) sg g x,
  same_but_q (risk_start (1 / 100)) (risk_start (1 / 10)) /\ s_q (risk_start (1 / 100)) = Some (1 / 100)%R /\ s_q (risk_start (1 / 10)) = Some (1 / 10)%R /\
  spot_fit exact_math (risk_start (1 / 100)) order_batch = Ret (a1, 0) /\ spot_fit exact_math (risk_start (1 / 10)) order_batch = Ret (b1, 0) /\
  real_detector a1 (19 / 9) 1 sg g /\
  spot_step exact_math a1 (Some x : num RNum) = Ret (a3, EXCESS) /\ spot_step exact_math b1 (Some x : num RNum) = Ret (b3, ANOMALY).
Proof. exact risk_example. Qed.

(** After that observation the order is lost, because the value flagged by one is learnt by the other: with the risks 3/32
    and 1/8, the same batch and the same four observations (binary64), the smaller risk flags two and the larger one. *)
Theorem C79_lower_risk_flags_less_refuted : exists (a0 b0 a1 b1 a2 b2 : spot B64) data xs ra rb,
  spot_init (N := B64) junk (dy 3 5) 0 1 (dy 3 2) 3 (fun _ => Some (block 3)) = (a0, 0) /\
  spot_init (N := B64) junk (dy 1 3) 0 1 (dy 3 2) 3 (fun _ => Some (block 3)) = (b0, 0) /\
  spot_fit (c_math musl_utils) a0 data = Ret (a1, 0) /\ spot_fit (c_math musl_utils) b0 data = Ret (b1, 0) /\
  spot_steps (c_math musl_utils) a1 xs = Ret (a2, ra) /\ spot_steps (c_math musl_utils) b1 xs = Ret (b2, rb) /\
  ra = [EXCESS; EXCESS; ANOMALY; ANOMALY] /\ rb = [ANOMALY; EXCESS; EXCESS; EXCESS].
Proof. exact risk_flags. Qed.
Print Assumptions C79_lower_risk_flags_less_refuted.
