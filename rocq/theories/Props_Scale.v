(** * Detectors of very small quantities (C60) *)
From Coq Require Import ZArith List Bool Reals Lra Lia.
From Flocq Require Import IEEE754.BinarySingleNaN.
From Verif Require Import Num XMath Ubend Session Peaks Brent Estimator Tail P2 Spot B64 Spec FitLemmas TinyFit TinyApi ScaleDemo Demo.
Import ListNotations.
Open Scope R_scope.

(** C60. Just after an excess or a successful calibration: if the largest excess of the window is at most 2.7e-9 the fitted
    shape is 0 and the fitted scale is -0 (its likelihood is +infinity; the only escape is a moment estimate which is
    infinitely likely too). The anomaly threshold is the excess threshold, and a detector that discards anomalies
    answers ANOMALY to every value beyond the excess threshold. *)
Theorem C60_tiny_excesses_collapse q low discard level cap (s s' : spot B64) :
  detector (c_math musl_utils) q low discard level cap s -> (cap <= 2 ^ 53)%Z ->
  (exists x, spot_step (c_math musl_utils) s x = Ret (s', EXCESS)) \/ (exists data, spot_fit (c_math musl_utils) s data = Ret (s', 0%Z)) ->
  let p := t_peaks (s_tail s') in
  is_finite (p_max p) = true -> 0 < B2R (p_max p : b64) <= 27 / 10 ^ 10 ->
  is_finite (peaks_mean p) = true -> 0 < B2R (peaks_mean p : b64) <= 1 ->
  log_likelihood (c_math musl_utils) p (mom_gamma p) (mom_sigma p) <> Ret (B754_infinity false : b64) ->
  t_gamma (s_tail s') = (B754_zero false : b64) /\ t_sigma (s_tail s') = (B754_zero true : b64) /\
  (is_finite (s_et s') = true -> is_finite q = true -> 0 < B2R (q : b64) <= 1 -> (0 < s_Nt s' <= s_n s')%Z -> (s_n s' <= 2 ^ 53)%Z ->
   is_finite (s_at s') = true /\ B2R (s_at s' : b64) = B2R (s_et s' : b64) /\
   (forall x, discard <> 0%Z -> beyond low (s_et s') x = true -> spot_step (c_math musl_utils) s' x = Ret (s', ANOMALY))).
Proof. exact (tiny_lemma q low discard level cap s s'). Qed.
Print Assumptions C60_tiny_excesses_collapse.
(** The demonstration batch divided by 2^33: the largest excess is below 2.4e-10 and the mean is positive *)
Example C60_example :
  match spot_fit cm (demo_init 0 1 4) (map shrink demo_batch) with
  | Ret (s, 0%Z) => let p := t_peaks (s_tail s) in
      (b64_ltb (d 0) (p_max p) && b64_leb (p_max p) (b64_div (d 27) (d (10 ^ 10))) && b64_ltb (d 0) (peaks_mean p) && b64_leb (peaks_mean p) (d 1) &&
       match log_likelihood cm p (mom_gamma p) (mom_sigma p) with Ret l => negb (b64_eqb l pinf) | _ => true end &&
       is_finite (s_et s : b64) && (0 <? s_Nt s)%Z && (s_Nt s <=? s_n s)%Z)%bool
  | _ => false end = true.
Proof. vm_compute. reflexivity. Qed.

(** A change of unit changes the verdicts. The same 20 observations, and the same 20 divided by 2^33: the excess threshold is
    divided by 2^33, the anomaly threshold is not (it becomes the excess threshold), and the observation 9, an ordinary
    excess in the first unit, is an anomaly in the second. *)
Theorem C60_change_of_unit_refuted :
  exists (s s1 s2 : spot B64) (data : list b64) (x : b64),
    detector (c_math musl_utils) (dy 1 7) 0 1 (dy 3 2) 4 s /\
    spot_fit (c_math musl_utils) s data = Ret (s1, 0%Z) /\
    spot_fit (c_math musl_utils) s (map (fun y => b64_div y (b64_ofZ (2 ^ 33))) data) = Ret (s2, 0%Z) /\
    s_et s2 = b64_div (s_et s1) (b64_ofZ (2 ^ 33)) /\
    b64_ltb (s_et s1) (s_at s1) = true /\ s_at s2 = s_et s2 /\
    (exists s1', spot_step (c_math musl_utils) s1 x = Ret (s1', EXCESS)) /\
    spot_step (c_math musl_utils) s2 (b64_div x (b64_ofZ (2 ^ 33))) = Ret (s2, ANOMALY).
Proof. exact change_of_unit_witness. Qed.
Print Assumptions C60_change_of_unit_refuted.
