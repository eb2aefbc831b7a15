(** * The root finder stays in its bracket and the fitted parameters are usable (C61, C62) *)
From Coq Require Import ZArith List Bool Reals Lra Lia.
From Flocq Require Import IEEE754.BinarySingleNaN.
From Verif Require Import Num XMath Ubend Session Peaks Brent Estimator Tail P2 Spot B64 Spec BrentBracket AdmissibleProps Demo.
Import ListNotations.
Open Scope R_scope.

(** C61. The C root finder, in binary64, on any function at all (continuous or not, returning NaN or not): the root it
    reports is a finite number between the two bounds, and the function is never evaluated outside them: two functions
    which agree between the bounds give the same answer. The bounds may be given in either order. *)
Theorem C61_brent_stays_in_bracket (func : num B64 -> res (num B64)) (x1 x2 tol : b64) :
  is_finite x1 = true -> is_finite x2 = true -> is_finite tol = true ->
  Rabs (B2R x1) <= 10 ^ 199 -> Rabs (B2R x2) <= 10 ^ 199 -> / 10 ^ 40 <= B2R tol <= 10 ^ 199 ->
  (forall b : b64, brent func (x1 : num B64) x2 tol = Ret (true, b : num B64) ->
     is_finite b = true /\ Rmin (B2R x1) (B2R x2) <= B2R b <= Rmax (B2R x1) (B2R x2)) /\
  (forall func' : num B64 -> res (num B64),
     (forall x : b64, is_finite x = true -> Rmin (B2R x1) (B2R x2) <= B2R x <= Rmax (B2R x1) (B2R x2) -> func' x = func x) ->
     brent func' (x1 : num B64) x2 tol = brent func (x1 : num B64) x2 tol).
Proof. exact (C61_lemma func x1 x2 tol). Qed.
Print Assumptions C61_brent_stays_in_bracket.
(** x^3 - 2 between 0 and 3, to within 2^-40: the root found is in ]1.25, 1.27[ and it is not a bound; the same function
    made undefined outside [0,3] gives the same result *)
Definition cube_minus_two (x : b64) : b64 := b64_minus (b64_mult x (b64_mult x x)) (b64_ofZ 2).
Example C61_example :
  match brent (N := B64) (fun x => Ret (cube_minus_two x)) (b64_ofZ 0) (b64_ofZ 3) (dy 1 40),
        brent (N := B64) (fun x => if (b64_leb (d 0) x && b64_leb x (d 3))%bool then Ret (cube_minus_two x) else Undef Uninit) (b64_ofZ 0) (b64_ofZ 3) (dy 1 40) with
  | Ret (true, b), Ret (true, b') => (b64_ltb (dy 5 2) b && b64_ltb b (b64_div (d 127) (d 100)) && b64_eqb b b')%bool
  | _, _ => false end = true.
Proof. vm_compute. reflexivity. Qed.

(** C62. Just after an excess or a successful calibration, when the mean of the excesses is positive and finite: the
    fitted shape and scale are finite, the scale is positive, and when the shape is not zero every excess of the window is
    inside the support of the fitted law as the code computes it; or the fit has collapsed to the zero shape and the scale
    -0 (C60 says when this happens). *)
Theorem C62_usable_or_collapsed q low discard level cap (s s' : spot B64) :
  detector (c_math musl_utils) q low discard level cap s -> (cap <= 2 ^ 53)%Z ->
  (exists x, spot_step (c_math musl_utils) s x = Ret (s', EXCESS)) \/ (exists data, spot_fit (c_math musl_utils) s data = Ret (s', 0%Z)) ->
  let t := s_tail s' in
  is_finite (peaks_mean (t_peaks t)) = true -> 0 < B2R (peaks_mean (t_peaks t) : b64) ->
  (is_finite (t_gamma t) = true /\ is_finite (t_sigma t) = true /\ 0 < B2R (t_sigma t : b64) /\
   (B2R (t_gamma t : b64) <> 0 -> forall v : b64, In (Some (v : num B64)) (oldest_first (window s')) ->
      b64_leb (b64_ofZ 0) (b64_plus (b64_ofZ 1) (b64_mult (b64_div (t_gamma t) (t_sigma t)) v)) = true)) \/
  (B2R (t_gamma t : b64) = 0 /\ is_finite (t_gamma t) = true /\ t_sigma t = (B754_zero true : b64)).
Proof. exact (C62_or q low discard level cap s s'). Qed.
Print Assumptions C62_usable_or_collapsed.

(** C62. On excesses of ordinary magnitude (the largest is at least 2e-8 times their number and at most 1e30, the smallest
    is at least 1e-80, the computed mean is not below the smallest) there is no collapse; and, for a risk below the
    proportion of excesses and a shape within the range of C56, the anomaly threshold is not NaN and is never on the inner
    side of the excess threshold. *)
Theorem C62_usable q low discard level cap (s s' : spot B64) :
  detector (c_math musl_utils) q low discard level cap s -> (cap <= 2 ^ 50)%Z ->
  (exists x, spot_step (c_math musl_utils) s x = Ret (s', EXCESS)) \/ (exists data, spot_fit (c_math musl_utils) s data = Ret (s', 0%Z)) ->
  let t := s_tail s' in let p := t_peaks t in
  is_finite (p_max p) = true -> 2 / 10 ^ 8 * IZR (peaks_size p) <= B2R (p_max p : b64) <= 10 ^ 30 ->
  is_finite (p_min p) = true -> / 10 ^ 80 <= B2R (p_min p : b64) ->
  is_finite (peaks_mean p) = true -> B2R (p_min p : b64) <= B2R (peaks_mean p : b64) <= 10 ^ 31 ->
  (is_finite (t_gamma t) = true /\ is_finite (t_sigma t) = true /\ 0 < B2R (t_sigma t : b64) /\
   (B2R (t_gamma t : b64) <> 0 -> forall v : b64, In (Some (v : num B64)) (oldest_first (window s')) ->
      b64_leb (b64_ofZ 0) (b64_plus (b64_ofZ 1) (b64_mult (b64_div (t_gamma t) (t_sigma t)) v)) = true)) /\
  (is_finite (s_et s') = true -> (0 < s_Nt s' <= s_n s')%Z -> (s_n s' <= 2 ^ 53)%Z ->
   is_finite q = true -> 0 < B2R (q : b64) <= IZR (s_Nt s') / IZR (s_n s') ->
   B2R (t_gamma t : b64) = 0 \/
     (Rabs (B2R (t_gamma t : b64)) <= 10 ^ 6 /\ / 10 ^ 300 <= B2R (t_sigma t : b64) / Rabs (B2R (t_gamma t : b64)) <= 10 ^ 300) ->
   BinarySingleNaN.is_nan (s_at s' : b64) = false /\ beyond low (s_at s') (s_et s') = false).
Proof. exact (C62_good q low discard level cap s s'). Qed.
Print Assumptions C62_usable.

(** C62. The same conclusion from the window alone: on excesses of ordinary magnitude whose computed standard deviation is
    at least a thousandth of their computed mean, the anomaly threshold is not NaN and is never on the inner side of the
    excess threshold. Nothing is assumed about the fitted shape and scale. *)
Theorem C62_threshold_exists q low discard level cap (s s' : spot B64) :
  detector (c_math musl_utils) q low discard level cap s -> (cap <= 2 ^ 50)%Z ->
  (exists x, spot_step (c_math musl_utils) s x = Ret (s', EXCESS)) \/ (exists data r, spot_fit (c_math musl_utils) s data = Ret (s', r) /\ r <> (-1003)%Z) ->
  let t := s_tail s' in let p := t_peaks t in
  is_finite (p_max p) = true -> 2 / 10 ^ 8 * IZR (peaks_size p) <= B2R (p_max p : b64) <= 10 ^ 30 ->
  is_finite (p_min p) = true -> / 10 ^ 80 <= B2R (p_min p : b64) ->
  is_finite (peaks_mean p) = true -> B2R (p_min p : b64) <= B2R (peaks_mean p : b64) <= 10 ^ 31 ->
  is_finite (peaks_var p) = true -> B2R (peaks_mean p : b64) * B2R (peaks_mean p : b64) <= 10 ^ 6 * B2R (peaks_var p : b64) ->
  is_finite (s_et s') = true -> (0 < s_Nt s' <= s_n s')%Z -> (s_n s' <= 2 ^ 53)%Z ->
  is_finite q = true -> 0 < B2R (q : b64) <= IZR (s_Nt s') / IZR (s_n s') ->
  BinarySingleNaN.is_nan (s_at s' : b64) = false /\ beyond low (s_at s') (s_et s') = false.
Proof. exact (C62_threshold q low discard level cap s s'). Qed.
Print Assumptions C62_threshold_exists.

(** C62. On such a window a calibration which found an excess threshold succeeds: it never returns the code -1004 (anomaly
    threshold is NaN). *)
Theorem C62_calibration_succeeds q low discard level cap (s s' : spot B64) data r :
  detector (c_math musl_utils) q low discard level cap s -> (cap <= 2 ^ 50)%Z -> spot_fit (c_math musl_utils) s data = Ret (s', r) -> r <> (-1003)%Z ->
  let t := s_tail s' in let p := t_peaks t in
  is_finite (p_max p) = true -> 2 / 10 ^ 8 * IZR (peaks_size p) <= B2R (p_max p : b64) <= 10 ^ 30 ->
  is_finite (p_min p) = true -> / 10 ^ 80 <= B2R (p_min p : b64) ->
  is_finite (peaks_mean p) = true -> B2R (p_min p : b64) <= B2R (peaks_mean p : b64) <= 10 ^ 31 ->
  is_finite (peaks_var p) = true -> B2R (peaks_mean p : b64) * B2R (peaks_mean p : b64) <= 10 ^ 6 * B2R (peaks_var p : b64) ->
  is_finite (s_et s') = true -> (0 < s_Nt s' <= s_n s')%Z -> (s_n s' <= 2 ^ 53)%Z ->
  is_finite q = true -> 0 < B2R (q : b64) <= IZR (s_Nt s') / IZR (s_n s') ->
  r = 0%Z.
Proof. exact (C62_calibration q low discard level cap s s' data r). Qed.
Print Assumptions C62_calibration_succeeds.

(** The demonstration batch followed by 60: seven excesses, largest excess at least 1, smallest at least 1/16, mean not below the smallest, shape not zero
    and at most 2 in absolute value, scale between 1/16 and 16,
    variance finite and at least the square of the mean divided by 8, risk 1/128 at most Nt/n *)
Example C62_example :
  match spot_fit cm (demo_init 0 1 4) [d 1; d 2; d 20] with
  | Ret (s, 0%Z) => let t := s_tail s in let p := t_peaks t in
      (b64_leb (d 1) (p_max p) && b64_leb (p_max p) (d 100) && b64_leb (dy 1 4) (p_min p) && b64_leb (p_min p) (peaks_mean p) && b64_leb (peaks_mean p) (d 100) &&
       negb (b64_eqb (t_gamma t) (d 0)) && b64_leb (d (-2)) (t_gamma t) && b64_leb (t_gamma t) (d 2) && b64_leb (dy 1 4) (t_sigma t) && b64_leb (t_sigma t) (d 16) &&
       is_finite (peaks_var p : b64) && b64_leb (b64_mult (peaks_mean p) (peaks_mean p)) (b64_mult (d 8) (peaks_var p)) &&
       is_finite (s_et s : b64) && (0 <? s_Nt s)%Z && (s_Nt s <=? s_n s)%Z && (s_n s <=? 128 * s_Nt s)%Z && (peaks_size p =? 3)%Z)%bool
  | _ => false end = true.
Proof. vm_compute. reflexivity. Qed.
