(** * The probability reported for a threshold, and for a flagged value, in binary64 (C91, C92) *)
From Coq Require Import ZArith List Bool Reals Lra Lia.
From Flocq Require Import IEEE754.BinarySingleNaN.
From Verif Require Import Num XMath Ubend Session Peaks Brent Estimator Tail P2 Spot B64 Spec AccSpec RoundTripSpec RoundTripLemmas Demo AccDemo.
Import ListNotations.
Open Scope R_scope.

(** C91. Asked for the probability of the quantile of q, the library answers q with seven correct digits. *)
Theorem C91_round_trip (s : spot B64) et dir sigma gamma (q : b64) :
  finite_detector s et dir sigma gamma -> is_finite q = true -> everyday s et sigma gamma (B2R q) ->
  exists z p : b64, spot_quantile (c_math musl_utils) s q = Ret z /\ is_finite z = true /\
    spot_probability (c_math musl_utils) s z = Ret p /\ is_finite p = true /\ Rabs (B2R p - B2R q) <= 2 / 10 ^ 8 * B2R q.
Proof. exact (round_trip s et dir sigma gamma q). Qed.
Print Assumptions C91_round_trip.

(** threshold 10, scale 2, shape 1/2, ten excesses among 640 values: the risk 1/1024 gives a value within 1e-12 of 22, whose
    probability is within 2^-55 of 1/1024, for both tails *)
Example C91_example :
  (forall up : bool, finite_detector (acc_demo up (dy 1 1)) 10 (if up then 1 else -1) 2 (1 / 2) /\ everyday (acc_demo up (dy 1 1)) 10 2 (1 / 2) (B2R (dy 1 10))) /\
  forallb (fun up => match spot_quantile cm (acc_demo up (dy 1 1)) (dy 1 10) with
    | Ret z => match spot_probability cm (acc_demo up (dy 1 1)) z with
        | Ret p => let e := b64_minus p (dy 1 10) in b64_ltb e (dy 1 55) && b64_ltb (dy (-1) 55) e | _ => false end
    | _ => false end) [true; false] = true.
Proof.
  split; [|vm_compute; reflexivity]. intros up. split; [apply acc_demo_finite; apply half_value|].
  destruct risk_value as (_ & E). replace (B2R (dy 1 10)) with (1 / 1024) by (symmetry; exact E). unfold everyday. rewrite demo_risk, ln_16th. pose proof ln_16.
  cbn [s_Nt s_n acc_demo]. rewrite (Rabs_pos_eq 10), (Rabs_pos_eq (1 / 2)) by lra. repeat split; lra.
Qed.

(** the threshold in use after an excess and after a successful calibration *)
Theorem C91_threshold_probability (s s' : spot B64) et dir sigma gamma :
  (exists x, spot_step (c_math musl_utils) s x = Ret (s', EXCESS)) \/ (exists l, spot_fit (c_math musl_utils) s l = Ret (s', 0%Z)) ->
  finite_detector s' et dir sigma gamma -> is_finite (s_q s' : b64) = true -> everyday s' et sigma gamma (B2R (s_q s' : b64)) ->
  exists p : b64, spot_probability (c_math musl_utils) s' (s_at s') = Ret p /\ is_finite p = true /\
    Rabs (B2R p - B2R (s_q s' : b64)) <= 2 / 10 ^ 8 * B2R (s_q s' : b64).
Proof. exact (threshold_probability s s' et dir sigma gamma). Qed.
Print Assumptions C91_threshold_probability.

(** C92. The verdict and the probability the library reports agree: a flagged value has a reported probability of at most q,
    a value that is not flagged has one of at least q, up to the error of the probability and 1e-8. *)
Theorem C92_verdict_and_probability q low discard level cap (s0 s1 s2 : spot B64) et dir sigma gamma (x : b64) r :
  detector (c_math musl_utils) q low discard level cap s0 -> discard <> 0%Z ->
  (exists y, spot_step (c_math musl_utils) s0 y = Ret (s1, EXCESS)) \/ (exists l, spot_fit (c_math musl_utils) s0 l = Ret (s1, 0%Z)) ->
  finite_detector s1 et dir sigma gamma -> is_finite q = true -> everyday s1 et sigma gamma (B2R (q : b64)) ->
  spot_step (c_math musl_utils) s1 x = Ret (s2, r) -> is_finite x = true ->
  let D := dir * (B2R x - et) in probability_range et (B2R x) sigma gamma D ->
  exists p : b64, spot_probability (c_math musl_utils) s1 x = Ret p /\ is_finite p = true /\
    (r = ANOMALY -> B2R p <= (1 + probability_error gamma sigma D) * (1 + 1 / 10 ^ 8) * B2R (q : b64)) /\
    (r <> ANOMALY -> probability_error gamma sigma D <= 1 -> (1 - probability_error gamma sigma D) * (1 - 1 / 10 ^ 8) * B2R (q : b64) <= B2R p).
Proof. exact (verdict_probability q low discard level cap s0 s1 s2 et dir sigma gamma x r). Qed.
Print Assumptions C92_verdict_and_probability.

(** the demonstration detector after its calibration: excess threshold between 4 and 8, scale between 1 and 2, shape zero, six
    excesses among 20 values, risk 1/128; 12 is flagged and less likely than 1/128, 11 is not and more likely *)
Example C92_example :
  match spot_fit cm (demo_init 0 1 4) demo_batch with
  | Ret (s1, 0%Z) =>
      (is_finite (s_et s1 : b64) && b64_ltb (d 4) (s_et s1) && b64_ltb (s_et s1) (d 8) && is_finite (t_sigma (s_tail s1) : b64) && b64_ltb (d 1) (t_sigma (s_tail s1)) &&
       b64_ltb (t_sigma (s_tail s1)) (d 2) && b64_eqb (t_gamma (s_tail s1)) (d 0) && (s_Nt s1 =? 6)%Z && (s_n s1 =? 20)%Z && b64_eqb (s_q s1) (dy 1 7))%bool = true /\
      match spot_step cm s1 (d 12), spot_step cm s1 (d 11), spot_probability cm s1 (d 12), spot_probability cm s1 (d 11) with
      | Ret (_, r), Ret (_, r'), Ret p, Ret p' => r = ANOMALY /\ r' = EXCESS /\ b64_ltb p (dy 1 7) = true /\ b64_ltb (dy 1 7) p' = true
      | _, _, _, _ => False end
  | _ => False end.
Proof. vm_compute. repeat split. Qed.
