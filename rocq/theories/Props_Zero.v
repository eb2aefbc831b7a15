(** * An observation equal to the excess threshold (C72) *)
From Coq Require Import ZArith List Bool Reals Lra Lia.
From Flocq Require Import IEEE754.BinarySingleNaN.
From Verif Require Import Num XMath Ubend Session Peaks Brent Estimator Tail P2 Spot B64 Spec ZeroLemmas Demo.
Import ListNotations.
Open Scope R_scope.

(** C72. spot_fit keeps the values strictly beyond the excess threshold and spot_step those at or beyond it. So a calibration
    of a fresh detector never stores a zero excess ... *)
Theorem C72_calibration_stores_no_zero mf q low discard level cap (s s' : spot B64) data r (v : b64) :
  detector mf q low discard level cap s -> oldest_first (window s) = [] -> spot_fit mf s data = Ret (s', r) ->
  In (Some (v : num B64)) (oldest_first (window s')) -> is_finite v = true -> B2R v <> 0.
Proof. exact (C72_fit mf q low discard level cap s s' data r v). Qed.
Print Assumptions C72_calibration_stores_no_zero.

(** ... but an observation equal to the excess threshold, unless it is flagged, is an excess and stores a zero. *)
Theorem C72_value_at_threshold_stores_zero mf q low discard level cap (s s' : spot B64) (x : b64) r :
  detector mf q low discard level cap s -> is_finite (s_et s : b64) = true -> b64_eqb x (s_et s) = true ->
  spot_step mf s (x : num B64) = Ret (s', r) -> r <> ANOMALY ->
  r = EXCESS /\ exists v : b64, In (Some (v : num B64)) (oldest_first (window s')) /\ is_finite v = true /\ B2R v = 0.
Proof. exact (C72_step mf q low discard level cap s s' x r). Qed.
Print Assumptions C72_value_at_threshold_stores_zero.

(** C72. As long as a zero is in the window, the fitted shape is at most 1/2, whatever the other excesses are: the search for
    the positive root, the only one which can give more, is started on an infinite interval and fails. (Largest excess at
    least 2e-8 times their number and at most 1e30; computed mean and variance finite and positive.) *)
Theorem C72_zero_excess_caps_shape q low discard level cap (s s' : spot B64) (v : b64) :
  detector (c_math musl_utils) q low discard level cap s -> (cap <= 2 ^ 50)%Z ->
  (exists x, spot_step (c_math musl_utils) s x = Ret (s', EXCESS)) \/ (exists data, spot_fit (c_math musl_utils) s data = Ret (s', 0%Z)) ->
  In (Some (v : num B64)) (oldest_first (window s')) -> is_finite v = true -> B2R v = 0 ->
  let t := s_tail s' in let p := t_peaks t in
  is_finite (p_max p) = true -> 2 / 10 ^ 8 * IZR (peaks_size p) <= B2R (p_max p : b64) <= 10 ^ 30 ->
  is_finite (peaks_mean p) = true -> 0 < B2R (peaks_mean p : b64) ->
  is_finite (peaks_var p) = true -> 0 < B2R (peaks_var p : b64) ->
  is_finite (t_gamma t) = true /\ B2R (t_gamma t : b64) <= 1 / 2.
Proof. exact (C72_shape q low discard level cap s s' v). Qed.
Print Assumptions C72_zero_excess_caps_shape.

(** A heavy-tailed batch (shape above 2, anomaly threshold above 10000). One observation equal to the excess threshold, the
    least surprising excess there is, divides the anomaly threshold by more than ten: 5000, far below the threshold before, is
    flagged after. The window meets the hypotheses: no zero before, one after. *)
Definition heavy_batch : list b64 := map d [14; 68; 67; 18; 313; 14; 14; 452; 16; 23; 17; 11; 10; 29; 12; 13]%Z.
Definition heavy : spot B64 := run (demo_init 0 1 16) [CFit (N := B64) heavy_batch].
Definition zeros (s : spot B64) : nat := length (filter (fun o => match o with Some v => b64_eqb v (d 0) | None => true end) (oldest_first (window s))).
Example C72_one_value_hides_the_heavy_tail :
  let f t := (b64_leb (p_max (N := B64) t) (d 1000) && b64_leb (d 1) (p_max (N := B64) t) && b64_ltb (d 0) (peaks_mean t) && b64_ltb (peaks_mean t) (d 1000) &&
              b64_ltb (d 0) (peaks_var t) && b64_ltb (peaks_var t) (d 1000000))%bool in
  match spot_step cm heavy (s_et heavy) with
  | Ret (s', r) =>
      (b64_ltb (d 2) (t_gamma (s_tail heavy)) && b64_ltb (d 10000) (s_at heavy) && (r =? EXCESS)%Z && (zeros heavy =? 0)%nat && (zeros s' =? 1)%nat &&
       b64_ltb (t_gamma (s_tail s')) (dy 1 1) && b64_ltb (s_at s') (d 1000) && f (t_peaks (s_tail s')) && (peaks_size (t_peaks (s_tail s')) =? 5)%Z &&
       match spot_step cm s' (d 5000) with Ret (_, r'') => (r'' =? ANOMALY)%Z | _ => false end)%bool
  | _ => false end = true.
Proof. vm_compute. reflexivity. Qed.
