(** * The running mean of the window in binary64 (C59) *)
From Coq Require Import ZArith List Bool Reals Lra.
From Flocq Require Import IEEE754.BinarySingleNaN.
From Verif Require Import Num XMath Ubend Session Peaks Brent Estimator Tail P2 Spot B64 RNum Spec ExactWindow DriftB64 HistoryLemmas Demo.
Import ListNotations.
Open Scope R_scope.

(** after any number K <= 2^50 of excesses, the incremental sum is within 4 K 2^-53 (n+1) max of the sum of the n values
    of the window, where max is the largest value of the window now: an extreme that left has left no error behind *)
Theorem C59_running_sum_and_mean cap blk (xs : list b64) : (1 <= cap < 2 ^ 61)%Z -> Z.of_nat (length blk) = cap ->
  (forall x, In x xs -> is_finite x = true /\ 0 <= B2R x <= 10 ^ 280) -> xs <> [] -> (Z.of_nat (length xs) <= 2 ^ 50)%Z ->
  exists p : peaks B64, peaks_pushes (N := B64) (fst (peaks_init (Some blk) cap)) xs = Ret p /\
    let w := last_k cap xs in
    In (p_max p) w /\ is_finite (p_e p) = true /\
    Rabs (B2R (p_e p : b64) - rsum (map B2R w)) <= 4 * INR (length xs) * / 2 ^ 53 * (INR (length w + 1) * B2R (p_max p : b64)) /\
    is_finite (peaks_mean p) = true /\
    Rabs (B2R (peaks_mean p : b64) - rsum (map B2R w) / INR (length w)) <= 10 * INR (length xs) * / 2 ^ 53 * B2R (p_max p : b64) + / 2 ^ 1074.
Proof. exact (C59_lemma cap blk xs). Qed.
Print Assumptions C59_running_sum_and_mean.

(** the same for a detector: its window statistics are those of a list of excesses *)
Theorem C59_detector_mean mf q low discard level cap (s : spot B64) : detector mf q low discard level cap s ->
  exists hist : list b64,
    oldest_first (window s) = map Some (last_k cap hist) /\ (forall v, In v hist -> is_NaN v = false /\ b64_leb (d 0) v = true) /\
    (hist <> [] -> (Z.of_nat (length hist) <= 2 ^ 50)%Z -> (forall v, In v hist -> is_finite v = true /\ B2R v <= 10 ^ 280) ->
     let p := t_peaks (s_tail s) in let w := last_k cap hist in
     In (p_max p) w /\ is_finite (peaks_mean p) = true /\
     Rabs (B2R (peaks_mean p : b64) - rsum (map B2R w) / INR (length w)) <= 10 * INR (length hist) * / 2 ^ 53 * B2R (p_max p : b64) + / 2 ^ 1074).
Proof. exact (detector_mean_lemma mf q low discard level cap s). Qed.
Print Assumptions C59_detector_mean.

(* the drift is real: after 2^53, 1, 2^54, 2 in a window of three the sum is 2^54 + 3 and the accumulator holds 2^54;
   when 1 leaves, a minimum, everything is recomputed; the accumulator never stays at 10^17 when small values follow *)
Definition sum_after (xs : list b64) : option SpecFloat.spec_float :=
  match peaks_pushes (N := B64) (fst (peaks_init (N := B64) (Some (block 3)) 3)) xs with Ret p => Some (sf (p_e p)) | Undef _ => None end.
Example C59_example :
  sum_after (map d [2 ^ 53; 1; 2 ^ 54; 2])%Z = Some (sf (d (2 ^ 54))) /\
  sum_after (map d [10 ^ 17; 5; 6; 7; 8])%Z = Some (sf (d 21)).
Proof. split; vm_compute; reflexivity. Qed.
