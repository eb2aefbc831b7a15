(** * What a verdict means; change of origin (C63, C64) *)
From Coq Require Import ZArith List Bool Reals Lra Lia.
From Flocq Require Import IEEE754.BinarySingleNaN.
From Verif Require Import Num XMath Ubend Session Peaks Brent Estimator Tail P2 Spot B64 RNum Spec AccSpec VerdictSpec Verdict TranslateSpec Translate P2Exact Demo
  Props_P2Exact TranslateDemo.
Import ListNotations.
Open Scope R_scope.

(** C63. s1: the detector just after an excess or a successful calibration, with finite parameters of usual size. After any
    further observations none of which was an excess, the verdict on x is a statement on the probability that the fitted
    law (frequency of the excesses times generalised Pareto) gives to values beyond x, up to an explicit shift of x: if x
    is flagged, then values farther than x + err have probability at most q; if x is not flagged, values farther than
    x - err have probability at least q. *)
Theorem C63_meaning_of_a_verdict q low discard level cap (s0 s1 s2 s3 : spot B64) et dir sigma gamma xs rs (x : b64) r :
  detector (c_math musl_utils) q low discard level cap s0 -> discard <> 0%Z ->
  (exists y, spot_step (c_math musl_utils) s0 y = Ret (s1, EXCESS)) \/ (exists l, spot_fit (c_math musl_utils) s0 l = Ret (s1, 0%Z)) ->
  finite_detector s1 et dir sigma gamma -> is_finite q = true -> usual_range s1 et sigma gamma (B2R (q : b64)) ->
  B2R (q : b64) <= IZR (s_Nt s1) / IZR (s_n s1) ->
  spot_steps (c_math musl_utils) s1 xs = Ret (s2, rs) -> ~ In EXCESS rs ->
  spot_step (c_math musl_utils) s2 x = Ret (s3, r) -> is_finite x = true ->
  let rho := relative_risk s1 (B2R (q : b64)) in
  let err := quantile_error gamma sigma rho + 2 / 10 ^ 16 * Rabs (et + dir * gpd_quantile gamma sigma rho) + 1 / 10 ^ 58 in
  let D := dir * (B2R x - et) in
  (r = ANOMALY -> IZR (s_Nt s1) / IZR (s_n s1) * gpd_tail gamma sigma (D + err) <= B2R (q : b64)) /\
  (r <> ANOMALY -> B2R (q : b64) <= IZR (s_Nt s1) / IZR (s_n s1) * gpd_tail gamma sigma (D - err)).
Proof. exact (verdict_meaning q low discard level cap s0 s1 s2 s3 et dir sigma gamma xs rs x r). Qed.
Print Assumptions C63_meaning_of_a_verdict.
(** gpd_tail is a survival function: it decreases from 1, and rho is the probability of exceeding the quantile of rho *)
Theorem C63_tail_is_a_survival_function gamma sigma : 0 < sigma ->
  (forall D1 D2, D1 <= D2 -> gpd_tail gamma sigma D2 <= gpd_tail gamma sigma D1) /\
  (forall D, D <= 0 -> gpd_tail gamma sigma D = 1) /\
  (forall rho, 0 < rho <= 1 -> gpd_tail gamma sigma (gpd_quantile gamma sigma rho) = rho).
Proof. exact (tail_survival gamma sigma). Qed.
Print Assumptions C63_tail_is_a_survival_function.
(** the demonstration detector: shape 0, scale near 1.4, threshold between 4 and 8, six excesses among 20, risk 1/128; the
    observations 3, 50, 2 are not excesses, then 12 is flagged and 11 is not *)
Example C63_example :
  match spot_fit cm (demo_init 0 1 4) demo_batch with
  | Ret (s1, 0%Z) =>
      (is_finite (s_et s1 : b64) && b64_ltb (d 4) (s_et s1) && b64_ltb (s_et s1) (d 8) && is_finite (t_sigma (s_tail s1) : b64) && b64_ltb (d 1) (t_sigma (s_tail s1)) &&
       b64_ltb (t_sigma (s_tail s1)) (d 2) && b64_eqb (t_gamma (s_tail s1)) (d 0) && (s_Nt s1 =? 6)%Z && (s_n s1 =? 20)%Z)%bool = true /\
      match spot_steps cm s1 [d 3; d 50; d 2] with
      | Ret (s2, rs) => rs = [NORMAL; ANOMALY; NORMAL] /\
          match spot_step cm s2 (d 12), spot_step cm s2 (d 11) with Ret (_, r), Ret (_, r') => r = ANOMALY /\ r' = EXCESS | _, _ => False end
      | _ => False end
  | _ => False end.
Proof. vm_compute. repeat split. Qed.

(** C64. Exact arithmetic. Two detectors initialised alike, one receiving the observations x and the other x + b: same
    codes, same probabilities, quantiles and thresholds moved by b, same undefined behaviour, same tail; for every sequence
    of calls whose batches hold at least five numbers. *)
Theorem C64_change_of_origin (mf : MathFns RNum) (b : R) old (q : num RNum) low discard (level : R) cap blk (s0 : spot RNum) (cs : list (call RNum)) :
  spot_init (N := RNum) old q low discard (Some level : num RNum) cap (fun _ => Some blk) = (s0, 0%Z) -> Forall proper_call cs ->
  session mf s0 (map (shift_call b) cs) =
    match session mf s0 cs with Ret (s', l) => Ret (shift_detector b s', shift_answers b cs l) | Undef w => Undef w end.
Proof. exact (C64_lemma mf b old q low discard level cap blk s0 cs). Qed.
Print Assumptions C64_change_of_origin.
Example C64_example :
  Forall proper_call [CFit (N := RNum) (map Some [5; 1; 4; 2; 3; 3 / 2]); CStep (N := RNum) (Some 7 : num RNum); CQuantile (N := RNum) (Some (1 / 100) : num RNum)] /\
  (exists s0, spot_init (N := RNum) low_old (Some (1 / 100) : num RNum) 0 1 (Some (1 / 4) : num RNum) 2 (fun _ => Some [None; None]) = (s0, 0%Z)) /\
  p2_quantile (N := RNum) (Some (1 / 4)) (map (shift 100) (map Some [5; 1; 4; 2; 3; 3 / 2])) = Ret (Some (19 / 9 + 100)).
Proof.
  split; [|split].
  - repeat constructor. cbn. intros H. repeat (destruct H as [H|H]; [discriminate|]). exact H.
  - exact low_old_init.
  - destruct (shift_p2 100 (1 / 4) (map Some [5; 1; 4; 2; 3; 3 / 2])) as (v & E & E').
    + cbn. lia.
    + cbn. intros H. repeat (destruct H as [H|H]; [discriminate|]). exact H.
    + rewrite C53_example in E. injection E as <-. exact E'.
Qed.

(** Shorter batches break it, in binary64 as well: the excess threshold is 0 whatever the data (C25). Calibrated on 1, 2, 3
    the observation -1 is normal; calibrated on 101, 102, 103 the observation 99 is an excess. *)
Theorem C64_short_batch_refuted : exists (s s1 s2 s1' s2' : spot B64),
  detector (c_math musl_utils) (dy 1 7) 0 0 (dy 3 2) 4 s /\
  spot_fit (c_math musl_utils) s (map d [1; 2; 3]%Z) = Ret (s1, 0%Z) /\ spot_step (c_math musl_utils) s1 (d (-1)) = Ret (s1', NORMAL) /\
  spot_fit (c_math musl_utils) s (map d [101; 102; 103]%Z) = Ret (s2, 0%Z) /\ spot_step (c_math musl_utils) s2 (d 99) = Ret (s2', EXCESS).
Proof. exact short_batch_witness. Qed.
Print Assumptions C64_short_batch_refuted.
