(** * Windows on which the calls that refit are defined (C90) *)
From Coq Require Import ZArith List Bool Reals.
From Flocq Require Import IEEE754.BinarySingleNaN.
From Verif Require Import Num XMath Ubend Session Peaks Brent Estimator Tail P2 Spot B64 Spec FitEffect OrdinarySpec OrdinaryLemmas Demo.
Import ListNotations.

(** An observation is answered, without undefined behaviour, if the window it would complete is ordinary. *)
Theorem C90_step_defined q low discard level cap (s : spot B64) (x : b64) :
  detector (c_math musl_utils) q low discard level cap s -> (cap <= 2 ^ 50)%Z -> (0 <= s_Nt s <= s_n s)%Z -> (s_n s + 1 < 2 ^ 64)%Z ->
  (forall p, b64_leb (d 0) (b64_mult (s_updown s) (b64_minus x (s_et s))) = true ->
     peaks_push (t_peaks (s_tail s)) (b64_mult (s_updown s) (b64_minus x (s_et s))) = Ret p -> ordinary p) ->
  exists s' r, spot_step (c_math musl_utils) s x = Ret (s', r).
Proof. exact (step_defined q low discard level cap s x). Qed.
Print Assumptions C90_step_defined.

(** So is a calibration, if the window filled by the excesses of the batch is ordinary. *)
Theorem C90_fit_defined q low discard level cap (s : spot B64) (data : list b64) :
  detector (c_math musl_utils) q low discard level cap s -> (cap <= 2 ^ 50)%Z -> (Z.of_nat (length data) < 2 ^ 64)%Z ->
  (forall (et : b64) p, p2_quantile (N := B64) (if (low =? 0)%Z then level else b64_minus (d 1) level) data = Ret (et : num B64) ->
     peaks_pushes (t_peaks (s_tail s)) (excesses low et data) = Ret p -> ordinary p) ->
  exists s' r, spot_fit (c_math musl_utils) s data = Ret (s', r).
Proof. exact (fit_defined q low discard level cap s data). Qed.
Print Assumptions C90_fit_defined.

(** A batch of 1, 2, 20 (excess threshold 0), then the observation 5: the largest excess is 20, the smallest at least 1, the mean
    between 1 and 20 and the variance at least an eighth of its square, in both windows. *)
Definition ordinary_b (p : res (peaks B64)) : bool :=
  match p with
  | Ret p => b64_leb (d 1) (p_min p) && b64_eqb (p_max p) (d 20) && b64_leb (d 1) (peaks_mean p) && b64_leb (peaks_mean p) (d 20) &&
             is_finite (peaks_var p : b64) && b64_leb (b64_mult (peaks_mean p) (peaks_mean p)) (b64_mult (d 8) (peaks_var p)) && (peaks_size p <=? 4)%Z
  | Undef _ => false
  end.
Definition ordinary_next (r : res (spot B64 * Z)) : bool :=
  match r with
  | Ret (s, r) => (r =? 0)%Z && b64_eqb (s_et s) (d 0) && (s_Nt s =? 3)%Z && (s_n s =? 3)%Z &&
      ordinary_b (peaks_push (t_peaks (s_tail s)) (b64_mult (s_updown s) (b64_minus (d 5) (s_et s))))
  | Undef _ => false end.
Example C90_example :
  ordinary_b (peaks_pushes (t_peaks (s_tail (demo_init 0 0 4))) (excesses 0 (d 0) [d 1; d 2; d 20])) &&
  ordinary_next (spot_fit cm (demo_init 0 0 4) [d 1; d 2; d 20]) = true.
Proof. vm_compute. reflexivity. Qed.
