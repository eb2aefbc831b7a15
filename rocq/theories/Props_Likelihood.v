(** * Accuracy of the log-likelihood and quality of the fit in binary64 (C65, C66) *)
From Coq Require Import ZArith List Bool Reals Lra Lia.
From Flocq Require Import IEEE754.BinarySingleNaN.
From Verif Require Import Num XMath Ubend Session Peaks Brent Estimator Tail P2 Spot B64 Spec TailSpec LikSpec LikApi Demo.
Import ListNotations.
Open Scope R_scope.

(** C65. w: the excesses in memory. For finite parameters of ordinary magnitude whose support contains the window with a
    margin of 1e-5, the computed log-likelihood is a finite number and its distance to the log-likelihood of the
    generalised Pareto law over the reals is at most likelihood_error. *)
Theorem C65_likelihood_accuracy mf q low discard level cap (s : spot B64) (w : list b64) (g sg : b64) :
  detector mf q low discard level cap s -> oldest_first (window s) = map Some (w : list (num B64)) ->
  (1 <= Z.of_nat (length w) <= 2 ^ 40)%Z -> (forall v, In v w -> BinarySingleNaN.is_finite v = true /\ B2R v <= 10 ^ 100) ->
  BinarySingleNaN.is_finite g = true -> BinarySingleNaN.is_finite sg = true -> / 10 ^ 100 <= B2R sg <= 10 ^ 100 -> / 10 ^ 17 <= Rabs (B2R g) <= 10 ^ 6 ->
  (forall v, In v w -> / 10 ^ 5 <= 1 + B2R g * B2R v / B2R sg) ->
  exists L : b64, log_likelihood (c_math musl_utils) (t_peaks (s_tail s)) (g : num B64) (sg : num B64) = Ret (L : num B64) /\ BinarySingleNaN.is_finite L = true /\
    Rabs (B2R L - gpd_log_likelihood (B2R g) (B2R sg) (map B2R w)) <= likelihood_error (IZR (Z.of_nat (length w))) (B2R g).
Proof. exact (C65_shape mf q low discard level cap s w g sg). Qed.
Print Assumptions C65_likelihood_accuracy.

(** C65. Shape zero: the code uses its running sum p_e instead of the excesses, and the error of that sum (C59) is divided
    by the scale. *)
Theorem C65_exponential_likelihood_accuracy mf q low discard level cap (s : spot B64) (w : list b64) (g sg : b64) :
  detector mf q low discard level cap s -> oldest_first (window s) = map Some (w : list (num B64)) ->
  (1 <= Z.of_nat (length w) <= 2 ^ 40)%Z -> (forall v, In v w -> BinarySingleNaN.is_finite v = true /\ B2R v <= 10 ^ 100) ->
  BinarySingleNaN.is_finite g = true -> B2R g = 0 -> BinarySingleNaN.is_finite sg = true -> / 10 ^ 100 <= B2R sg <= 10 ^ 100 ->
  let p := t_peaks (s_tail s) in BinarySingleNaN.is_finite (p_e p : b64) = true -> 0 <= B2R (p_e p : b64) <= 10 ^ 150 ->
  exists L : b64, log_likelihood (c_math musl_utils) p (g : num B64) (sg : num B64) = Ret (L : num B64) /\ BinarySingleNaN.is_finite L = true /\
    Rabs (B2R L - gpd_log_likelihood 0 (B2R sg) (map B2R w)) <=
      IZR (Z.of_nat (length w)) / 10 ^ 9 + (4 / 10 ^ 16 * B2R (p_e p : b64) + Rabs (B2R (p_e p : b64) - fold_right Rplus 0 (map B2R w))) / B2R sg.
Proof. exact (C65_exponential mf q low discard level cap s w g sg). Qed.
Print Assumptions C65_exponential_likelihood_accuracy.
(** the demonstration detector (four excesses between 1/8 and 8), shape 1/2 or 0, scale 2 *)
Example C65_example :
  forallb (fun v => match v with Some v => (is_finite v && b64_leb (dy 1 3) v && b64_leb v (d 8))%bool | None => false end) (oldest_first (window demo_up)) = true /\
  length (oldest_first (window demo_up)) = 4%nat /\
  match log_likelihood cm (t_peaks (s_tail demo_up)) (dy 1 1 : num B64) (d 2 : num B64), log_likelihood cm (t_peaks (s_tail demo_up)) (d 0 : num B64) (d 2 : num B64) with
  | Ret l1, Ret l2 => (b64_ltb (d (-10)) l1 && b64_ltb l1 (d (-4)) && b64_ltb (d (-10)) l2 && b64_ltb l2 (d (-4)) && negb (b64_eqb l1 l2))%bool
  | _, _ => false end = true.
Proof. vm_compute. repeat split. Qed.

(** C66. Just after an excess or a calibration, the fitted law makes the window at least as likely as the exponential law
    of the same computed mean does, over the reals, up to the errors of the two computed likelihoods. *)
Theorem C66_fit_no_worse_than_exponential q low discard level cap (s s' : spot B64) (w : list b64) :
  detector (c_math musl_utils) q low discard level cap s ->
  (exists x, spot_step (c_math musl_utils) s x = Ret (s', EXCESS)) \/ (exists data r, spot_fit (c_math musl_utils) s data = Ret (s', r) /\ r <> (-1003)%Z) ->
  oldest_first (window s') = map Some (w : list (num B64)) ->
  (1 <= Z.of_nat (length w) <= 2 ^ 40)%Z -> (forall v, In v w -> BinarySingleNaN.is_finite v = true /\ B2R v <= 10 ^ 100) ->
  let t := s_tail s' in let p := t_peaks t in
  let E := B2R (peaks_mean p : b64) in let g := B2R (t_gamma t : b64) in let sg := B2R (t_sigma t : b64) in let n := IZR (Z.of_nat (length w)) in
  BinarySingleNaN.is_finite (peaks_mean p : b64) = true -> / 10 ^ 100 <= E <= 10 ^ 100 ->
  BinarySingleNaN.is_finite (t_gamma t : b64) = true -> BinarySingleNaN.is_finite (t_sigma t : b64) = true -> / 10 ^ 100 <= sg <= 10 ^ 100 -> / 10 ^ 17 <= Rabs g <= 10 ^ 6 ->
  (forall v, In v w -> / 10 ^ 5 <= 1 + g * B2R v / sg) ->
  gpd_log_likelihood 0 E (map B2R w) - likelihood_error n g - 2 * n / 10 ^ 9 - Rabs (B2R (p_e p : b64) - fold_right Rplus 0 (map B2R w)) / E
    <= gpd_log_likelihood g sg (map B2R w).
Proof. exact (C66_lemma q low discard level cap s s' w). Qed.
Print Assumptions C66_fit_no_worse_than_exponential.
(** the demonstration batch followed by 60: seven excesses, shape not zero and at least 1/100 in absolute value, scale and
    mean between 1/16 and 16, 1 + gamma*y/sigma at least 1/16 on the window (as computed) *)
Example C66_example :
  match spot_fit cm (demo_init 0 1 4) [d 1; d 2; d 20] with
  | Ret (s, 0%Z) => let t := s_tail s in let p := t_peaks t in
      (forallb (fun v => match v with Some v => (is_finite v && b64_leb v (d 100) && b64_leb (dy 1 4) (b64_plus (d 1) (b64_mult (b64_div (t_gamma t) (t_sigma t)) v)))%bool | None => false end)
         (oldest_first (window s)) && (length (oldest_first (window s)) =? 3)%nat &&
       b64_leb (dy 1 4) (peaks_mean p) && b64_leb (peaks_mean p) (d 16) && b64_leb (dy 1 4) (t_sigma t) && b64_leb (t_sigma t) (d 16) &&
       (b64_leb (b64_div (d 1) (d 100)) (t_gamma t) || b64_leb (t_gamma t) (b64_div (d (-1)) (d 100))) && b64_leb (d (-2)) (t_gamma t) && b64_leb (t_gamma t) (d 2))%bool
  | _ => false end = true.
Proof. vm_compute. reflexivity. Qed.
