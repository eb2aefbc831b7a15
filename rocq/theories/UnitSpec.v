(** * UnitSpec: a change of unit of the observations (specification vocabulary of C94) *)
From Coq Require Import ZArith List Reals.
From Verif Require Import Num XMath Ubend Peaks Brent Estimator Tail P2 Spot Session RNum.
Import ListNotations.
Open Scope R_scope.

(** c x; NaN stays NaN *)
Definition scale (c : R) (x : num RNum) : num RNum := match (x : xr) with Some a => Some (c * a) | None => None end.

(** the same window in the new unit: the sum of squares is multiplied by c^2 *)
Definition scale_window (c : R) (p : peaks RNum) : peaks RNum :=
  MkPeaks (scale c (p_e p)) (scale (c * c) (p_e2 p)) (scale c (p_min p)) (scale c (p_max p))
    (MkUbend (u_cursor (p_cont p)) (u_capacity (p_cont p)) (scale c (u_last (p_cont p))) (u_filled (p_cont p))
       (map (option_map (scale c)) (u_data (p_cont p)))).

(** the same detector in the new unit: thresholds, scale and window are multiplied, the shape is not *)
Definition scale_detector (c : R) (s : spot RNum) : spot RNum :=
  MkSpot (s_q s) (s_level s) (s_discard s) (s_low s) (s_updown s) (scale c (s_at s)) (scale c (s_et s)) (s_Nt s) (s_n s)
    (MkTail (t_gamma (s_tail s)) (scale c (t_sigma (s_tail s))) (scale_window c (t_peaks (s_tail s)))).

(** the same estimate in the new unit; the log-likelihood of n values moves by -n ln c *)
Definition scale_estimate (c : R) (n : Z) (x : res (num RNum * num RNum * num RNum)) : res (num RNum * num RNum * num RNum) :=
  match x with
  | Ret (ll, g, s) => Ret (match (ll : xr) with Some a => Some (a - IZR n * ln c) : num RNum | None => None end, g, scale c s)
  | Undef w => Undef w
  end.
(** Grimshaw's estimate on this window does not depend on the unit *)
Definition unit_free (c : R) (p : peaks RNum) : Prop :=
  grimshaw_estimator exact_math (scale_window c p) = scale_estimate c (peaks_size p) (grimshaw_estimator exact_math p).

(** the same call in the new unit, and the expected answer: codes and probabilities are the same, quantiles are multiplied *)
Definition scale_call (c : R) (k : call RNum) : call RNum :=
  match k with
  | CFit data => CFit (map (scale c) data)
  | CStep x => CStep (scale c x)
  | CQuantile q => CQuantile q
  | CProbability z => CProbability (scale c z)
  end.
Definition scale_answer (c : R) (k : call RNum) (a : answer RNum) : answer RNum :=
  match k, a with CQuantile _, ANum v => ANum (scale c v) | _, _ => a end.
Fixpoint scale_answers (c : R) (cs : list (call RNum)) (l : list (answer RNum)) : list (answer RNum) :=
  match cs, l with k :: cs', a :: l' => scale_answer c k a :: scale_answers c cs' l' | _, _ => [] end.

(** every window on which the session refits is [unit_free] *)
Fixpoint windows_unit_free (c : R) (s : spot RNum) (cs : list (call RNum)) : Prop :=
  match cs with
  | [] => True
  | CFit data :: rest => match spot_fit exact_math s data with Ret (s', _) => unit_free c (t_peaks (s_tail s')) /\ windows_unit_free c s' rest | Undef _ => True end
  | CStep x :: rest => match spot_step exact_math s x with Ret (s', r) => (r = EXCESS -> unit_free c (t_peaks (s_tail s'))) /\ windows_unit_free c s' rest | Undef _ => True end
  | _ :: rest => windows_unit_free c s rest
  end.
(** no NaN in a batch *)
Definition numbers_only (k : call RNum) : Prop := match k with CFit data => ~ In (None : num RNum) data | _ => True end.
