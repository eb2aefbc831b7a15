(** * An infinite excess (C97) *)
From Coq Require Import ZArith List Bool.
From Flocq Require Import IEEE754.BinarySingleNaN.
From Verif Require Import Num XMath Ubend Session Peaks Brent Estimator Tail P2 Spot B64 Spec InfLemmas Demo.
Import ListNotations.
Open Scope Z_scope.

(** [s'] is a detector whose tail has just been fitted, by an excess or by a calibration, with an infinite excess among those in
    the window: whatever the other excesses and whatever the frexp and ldexp, the fit gives a zero shape, a scale which is infinite
    or not a number, and an anomaly threshold which is infinite or not a number. *)
Theorem C97_infinite_excess fu q low discard level cap (s s' : spot B64) :
  detector (c_math fu) q low discard level cap s ->
  (exists x, spot_step (c_math fu) s x = Ret (s', EXCESS)) \/ (exists data r, spot_fit (c_math fu) s data = Ret (s', r) /\ r <> -1003) ->
  In (Some (B754_infinity false : b64)) (oldest_first (window s')) ->
  t_gamma (s_tail s') = d 0 /\ (t_sigma (s_tail s') = (B754_infinity false : b64) \/ t_sigma (s_tail s') = (B754_nan : b64)) /\
  is_finite (s_at s' : b64) = false.
Proof. exact (not_finite fu q low discard level cap s s'). Qed.
Print Assumptions C97_infinite_excess.

(** If moreover the quantile asked for is not more probable than an excess, as it must be, then as long as the infinite excess is in
    the window (and the same holds of the quantile) no value whatsoever, not even an infinite one, is an anomaly. *)
Theorem C97_blind q low discard level cap (s s' s2 : spot B64) ys answers :
  let blinding (s : spot B64) := In (Some (B754_infinity false : b64)) (oldest_first (window s)) /\
    b64_leb (b64_div (s_q s) (b64_div (d (s_Nt s)) (d (s_n s)))) (d 1) = true in
  detector cm q low discard level cap s ->
  (exists x, spot_step cm s x = Ret (s', EXCESS)) \/ (exists data r, spot_fit cm s data = Ret (s', r) /\ r <> -1003) ->
  blinding s' ->
  (forall ys1 ys2 s1 l1, ys = ys1 ++ ys2 -> spot_steps cm s' ys1 = Ret (s1, l1 ++ [EXCESS]) -> blinding s1) ->
  spot_steps cm s' ys = Ret (s2, answers) -> ~ In ANOMALY answers.
Proof. exact (fun D RF B => blind_stream q low discard level cap ys s s' s2 answers D RF (proj1 B) (proj2 B)). Qed.
Print Assumptions C97_blind.

(** Finite excesses do the same when their sum overflows. *)
Theorem C97_overflowing_sum q low discard level cap (s s' : spot B64) :
  detector cm q low discard level cap s ->
  (exists x, spot_step cm s x = Ret (s', EXCESS)) \/ (exists data r, spot_fit cm s data = Ret (s', r) /\ r <> -1003) ->
  p_e (t_peaks (s_tail s')) = (B754_infinity false : b64) ->
  t_gamma (s_tail s') = d 0 /\ t_sigma (s_tail s') = (B754_infinity false : b64) /\ is_finite (s_at s' : b64) = false /\
  (b64_leb (b64_div (s_q s') (b64_div (d (s_Nt s')) (d (s_n s')))) (d 1) = true ->
   forall y s'' a, spot_step cm s' y = Ret (s'', a) -> a <> ANOMALY).
Proof. exact (overflow q low discard level cap s s'). Qed.
Print Assumptions C97_overflowing_sum.

(** Calibrated with an infinite value in the batch: the calibration succeeds, the scale and the threshold are infinite, and 10^300
    is not beyond it. With 4 in place of the infinite value it is. *)
Definition inf_calls : list (call B64) := [CFit (N := B64) (map d [1; 2; 3; 4; 2; 3; 1] ++ [pinf])].
Definition fin_calls : list (call B64) := [CFit (N := B64) (map d [1; 2; 3; 4; 2; 3; 1; 4])].
Definition huge_value : b64 := d (10 ^ 300).
Definition facts (s : spot B64) : list (option SpecFloat.spec_float) * SpecFloat.spec_float * SpecFloat.spec_float * bool * bool :=
  (map (option_map sf) (oldest_first (window s)), sf (t_sigma (s_tail s)), sf (s_at s),
   b64_leb (b64_div (s_q s) (b64_div (d (s_Nt s)) (d (s_n s)))) (d 1), beyond 0 (s_at s) huge_value).
Example C97_example :
  let S754 m e := Some (SpecFloat.S754_finite false m e) in
  facts (run (demo_init 0 1 4) inf_calls) =
    ([S754 6004799503160660%positive (-53); S754 7505999378950826%positive (-52); S754 6004799503160660%positive (-53); Some (SpecFloat.S754_infinity false)],
     SpecFloat.S754_infinity false, SpecFloat.S754_infinity false, true, false) /\
  facts (run (demo_init 0 1 4) fin_calls) =
    ([S754 6004799503160660%positive (-53); S754 7505999378950826%positive (-52); S754 6004799503160660%positive (-53); S754 7505999378950826%positive (-52)],
     SpecFloat.S754_finite false 8465099299594540 (-51), SpecFloat.S754_finite false 4531562588957884 (-50), true, true) /\
  codes (demo_init 0 1 4) inf_calls = Some [0].
Proof. split; [|split]; vm_compute; reflexivity. Qed.

(** Two values of 2^1023 in the batch, all values finite: the calibration succeeds and nothing is an anomaly any more. *)
Definition large : b64 := d (2 ^ 1023).
Definition large_calls : list (call B64) := [CFit (N := B64) (map d [1; 2; 3; 4; 2; 3; 1; 3] ++ [large; large])].
Definition large_facts (s : spot B64) : bool * SpecFloat.spec_float * SpecFloat.spec_float * SpecFloat.spec_float * bool :=
  (forallb (fun c : option b64 => match c with Some v => is_finite v | None => false end) (oldest_first (window s)),
   sf (p_e (t_peaks (s_tail s))), sf (t_sigma (s_tail s)), sf (s_at s),
   b64_leb (b64_div (s_q s) (b64_div (d (s_Nt s)) (d (s_n s)))) (d 1)).
Example C97_overflow_example : large_facts (run (demo_init 0 1 4) large_calls) = (true, sf pinf, sf pinf, sf pinf, true).
Proof. vm_compute. reflexivity. Qed.
