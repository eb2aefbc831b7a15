(** * Properties of quantiles and estimators in exact arithmetic (C31, C32, C47-C49)

    In this file the program runs on real numbers with the mathematical logarithm, exponential and power. *)
From Coq Require Import ZArith List Bool Lia Reals Lra.
From Coquelicot Require Import Coquelicot.
From Verif Require Import Num XMath Ubend Session Peaks Brent Estimator Tail P2 Spot Spec RNum ExactWindow TailSpec ExactTail.
Import ListNotations.
Open Scope R_scope.

(** C31 *)
Theorem C31_probability_of_quantile (s : spot RNum) et dir sigma gamma q : real_detector s et dir sigma gamma -> 0 < q ->
  exists z, spot_quantile exact_math s (Some q : num RNum) = Ret (Some z) /\ gpd_support gamma sigma (dir * (z - et)) /\
    spot_probability exact_math s (Some z : num RNum) = Ret (Some q).
Proof. exact (fun D => C31_forward s et dir sigma gamma D q). Qed.
Print Assumptions C31_probability_of_quantile.
Theorem C31_quantile_of_probability (s : spot RNum) et dir sigma gamma z : real_detector s et dir sigma gamma ->
  gpd_support gamma sigma (dir * (z - et)) ->
  exists q, spot_probability exact_math s (Some z : num RNum) = Ret (Some q) /\ 0 < q /\
    spot_quantile exact_math s (Some q : num RNum) = Ret (Some z).
Proof. exact (fun D => C31_backward s et dir sigma gamma D z). Qed.
Print Assumptions C31_quantile_of_probability.
Theorem C31_probability_is_pareto_tail (s : spot RNum) et dir sigma gamma z : real_detector s et dir sigma gamma ->
  gpd_support gamma sigma (dir * (z - et)) ->
  spot_probability exact_math s (Some z : num RNum) = Ret (Some (excess_rate s * gpd_survival gamma sigma (dir * (z - et)))).
Proof. exact (fun D => probability_eq s et dir sigma gamma D z). Qed.
Print Assumptions C31_probability_is_pareto_tail.

(** a lower-tail detector with negative shape: excess threshold 10, 20 excesses in 100 values *)
Definition low_detector : spot RNum :=
  MkSpot (N := RNum) (Some (1 / 1000)) (Some (98 / 100)) 1 1 (Some (-1)) None (Some 10) 20 100
    (MkTail (N := RNum) (Some (- (1 / 2))) (Some 3) (fst (peaks_init (N := RNum) (Some [None; None]) 2))).
Lemma low_detector_real : real_detector low_detector 10 (-1) 3 (- (1 / 2)).
Proof. repeat split; try lra; try lia. Qed.
Example C31_example : gpd_support (- (1 / 2)) 3 (-1 * (7 - 10)) /\
  exists q, spot_probability exact_math low_detector (Some 7 : num RNum) = Ret (Some q) /\ q = 1 / 20.
Proof.
  assert (H : gpd_support (- (1 / 2)) 3 (-1 * (7 - 10))) by (unfold gpd_support; lra). split; [exact H|].
  eexists. split; [apply (C31_probability_is_pareto_tail _ _ _ _ _ _ low_detector_real H)|].
  unfold excess_rate, gpd_survival. destruct (Req_EM_T _ _); [lra|]. cbn [s_Nt s_n low_detector].
  replace (- / - (1 / 2)) with (INR 2) by (cbn; field). rewrite Rpower_pow by lra. lra.
Qed.
Example C31_example_zero_shape : exists s : spot RNum, real_detector s 2 1 (1 / 3) 0.
Proof.
  exists (MkSpot (N := RNum) (Some (1 / 1000)) (Some (98 / 100)) 1 0 (Some 1) None (Some 2) 5 50
    (MkTail (N := RNum) (Some 0) (Some (1 / 3)) (fst (peaks_init (N := RNum) (Some [None; None]) 2)))).
  repeat split; try lra; try lia.
Qed.

(** C32 *)
Theorem C32_quantile_strictly_decreasing (s : spot RNum) et dir sigma gamma q1 q2 z1 z2 : real_detector s et dir sigma gamma ->
  0 < q1 -> q1 < q2 ->
  spot_quantile exact_math s (Some q1 : num RNum) = Ret (Some z1) ->
  spot_quantile exact_math s (Some q2 : num RNum) = Ret (Some z2) -> dir * z2 < dir * z1.
Proof. exact (fun D => C32_decreasing_lemma s et dir sigma gamma D q1 q2 z1 z2). Qed.
Print Assumptions C32_quantile_strictly_decreasing.
Theorem C32_quantile_beyond_threshold_iff (s : spot RNum) et dir sigma gamma q z : real_detector s et dir sigma gamma -> 0 < q ->
  spot_quantile exact_math s (Some q : num RNum) = Ret (Some z) ->
  (0 <= dir * (z - et) <-> q <= excess_rate s) /\ (0 < dir * (z - et) <-> q < excess_rate s).
Proof. exact (fun D => C32_position_lemma s et dir sigma gamma D q z). Qed.
Print Assumptions C32_quantile_beyond_threshold_iff.
(** s0: the state in which the anomaly threshold was computed; s: a later state with the same thresholds *)
Theorem C32_anomaly_is_beyond_excess_threshold (s0 s : spot RNum) et dir sigma gamma q a x s' :
  real_detector s0 et dir sigma gamma -> 0 < q <= excess_rate s0 ->
  spot_quantile exact_math s0 (Some q : num RNum) = Ret (Some a) ->
  s_et s = Some et -> s_updown s = Some dir -> s_at s = Some a ->
  spot_step exact_math s (Some x : num RNum) = Ret (s', ANOMALY) -> 0 < dir * (x - et).
Proof. exact (C32_anomaly_lemma s0 s et dir sigma gamma q a x s'). Qed.
Print Assumptions C32_anomaly_is_beyond_excess_threshold.
Example C32_example : exists z, spot_quantile exact_math low_detector (Some (1 / 20) : num RNum) = Ret (Some z) /\ z = 7 /\ 0 < -1 * (z - 10).
Proof.
  exists 7. split; [|lra].
  assert (H : gpd_support (- (1 / 2)) 3 (-1 * (7 - 10))) by (unfold gpd_support; lra).
  destruct (C31_quantile_of_probability _ _ _ _ _ _ low_detector_real H) as (q & E & _ & Q).
  destruct C31_example as (_ & q' & E' & V). assert (q = 1 / 20) as <- by congruence. exact Q.
Qed.

(** C47 *)
Theorem C47_method_of_moments cap blk (xs : list R) p : (1 <= cap < 2 ^ 61)%Z -> Z.of_nat (length blk) = cap ->
  peaks_pushes (N := RNum) (fst (peaks_init (Some blk) cap)) (map Some xs) = Ret p ->
  let w := last_k cap xs in
  p_e2 p = Some (fold_right Rplus 0 (map (fun y => y * y) w)) -> 0 < mean w -> 0 < variance w ->
  exists ll g sg, mom_estimator exact_math p = Ret (ll, Some g : num RNum, Some sg : num RNum) /\
    g < 1 / 2 /\ 0 < sg /\ sg / (1 - g) = mean w /\ sg ^ 2 / ((1 - g) ^ 2 * (1 - 2 * g)) = variance w /\
    forall g' sg', g' < 1 / 2 -> sg' / (1 - g') = mean w -> sg' ^ 2 / ((1 - g') ^ 2 * (1 - 2 * g')) = variance w -> g' = g /\ sg' = sg.
Proof. exact (C47_lemma cap blk xs p). Qed.
Print Assumptions C47_method_of_moments.
Example C47_example : exists p ll, peaks_pushes (N := RNum) (fst (peaks_init (N := RNum) (Some [None; None]) 2)) (map Some [1; 3]) = Ret p /\
  mom_estimator exact_math p = Ret (ll, Some (- (3 / 2)) : num RNum, Some 5 : num RNum).
Proof.
  destruct (C18_moment_lemma 2 [None; None] [1; 3]) as (p & E & E2 & _); [lia|reflexivity| |discriminate|].
  { intros pre x post old Ex No Hc. destruct pre as [|p0 [|p1 [|p2 pre]]]; cbn in Hc; try lia; cbn in Ex; discriminate. }
  change (last_k 2 [1; 3]) with [1; 3] in E2.
  assert (M : mean [1; 3] = 2) by (unfold mean; cbn [fold_right length INR]; field).
  assert (V : variance [1; 3] = 1) by (unfold variance; rewrite M; cbn [map]; unfold mean; cbn [fold_right length INR]; field).
  destruct (C47_method_of_moments 2 [None; None] [1; 3] p) as (ll & g & sg & EE & _ & _ & _ & _ & U).
  { lia. } { reflexivity. } { exact E. } { exact E2. } { change (last_k 2 [1; 3]) with [1; 3]. lra. }
  { change (last_k 2 [1; 3]) with [1; 3]. lra. }
  change (last_k 2 [1; 3]) with [1; 3] in U. rewrite M, V in U.
  destruct (U (- (3 / 2)) 5) as (-> & ->); [lra|field|field|]. exists p, ll. split; [exact E|exact EE].
Qed.

(** C48 *)
Theorem C48_log_likelihood cap blk (xs : list R) p g sg : (1 <= cap < 2 ^ 61)%Z -> Z.of_nat (length blk) = cap ->
  peaks_pushes (N := RNum) (fst (peaks_init (Some blk) cap)) (map Some xs) = Ret p ->
  0 < sg -> (forall y, In y (last_k cap xs) -> gpd_support g sg y) ->
  log_likelihood exact_math p (Some g : num RNum) (Some sg : num RNum) = Ret (Some (gpd_log_likelihood g sg (last_k cap xs))).
Proof. exact (C48_lemma cap blk xs p g sg). Qed.
Print Assumptions C48_log_likelihood.
Example C48_example : exists p, peaks_pushes (N := RNum) (fst (peaks_init (N := RNum) (Some [None; None]) 2)) (map Some [5; 4; 3]) = Ret p /\
  log_likelihood exact_math p (Some (- (1 / 10)) : num RNum) (Some 1 : num RNum) = Ret (Some (gpd_log_likelihood (- (1 / 10)) 1 [4; 3])) /\
  log_likelihood exact_math p (Some 0 : num RNum) (Some 1 : num RNum) = Ret (Some (-7)).
Proof.
  destruct (C17_lemma 2 [None; None] [5; 4; 3]) as (p & E & _); [lia|reflexivity|]. exists p. split; [exact E|]. split.
  - apply (C48_log_likelihood 2 [None; None] [5; 4; 3] p); [lia|reflexivity|exact E|lra|].
    change (last_k 2 [5; 4; 3]) with [4; 3]. unfold gpd_support. intros y [<-|[<-|[]]]; lra.
  - rewrite (C48_log_likelihood 2 [None; None] [5; 4; 3] p 0 1); [|lia|reflexivity|exact E|lra|].
    2:{ change (last_k 2 [5; 4; 3]) with [4; 3]. unfold gpd_support. intros y [<-|[<-|[]]]; lra. }
    change (last_k 2 [5; 4; 3]) with [4; 3]. unfold gpd_log_likelihood, gpd_density. cbn [map fold_right].
    destruct (Req_EM_T 0 0); [|lra]. do 2 f_equal. rewrite !Rdiv_1, !ln_exp. lra.
Qed.
(** the density used by the specification is the derivative of 1 - survival *)
Theorem C48_density_is_derivative gamma sigma y : 0 < sigma -> gpd_support gamma sigma y ->
  is_derive (fun t => 1 - gpd_survival gamma sigma t) y (gpd_density gamma sigma y).
Proof. exact (density_derivative gamma sigma y). Qed.
Print Assumptions C48_density_is_derivative.

(** C49 *)
Theorem C49_grimshaw_root_is_stationary cap blk (xs : list R) p x : (1 <= cap < 2 ^ 61)%Z -> Z.of_nat (length blk) = cap ->
  peaks_pushes (N := RNum) (fst (peaks_init (Some blk) cap)) (map Some xs) = Ret p ->
  let w := last_k cap xs in
  x <> 0 -> (forall y, In y w -> 0 <= y /\ 0 < 1 + x * y) -> 0 < mean w ->
  grimshaw_w exact_math p (Some x : num RNum) = Ret (Some 0) ->
  exists g sg, g = mean (map (fun y => ln (1 + x * y)) w) /\ sg = g / x /\ 0 < sg /\
    grimshaw_simplified_log_likelihood exact_math (Some x : num RNum) p
      = Ret (Some (gpd_log_likelihood g sg w), Some g : num RNum, Some sg : num RNum) /\
    is_derive (fun t => gpd_log_likelihood t sg w) g 0 /\ is_derive (fun t => gpd_log_likelihood g t w) sg 0.
Proof. exact (C49_lemma cap blk xs p x). Qed.
Print Assumptions C49_grimshaw_root_is_stationary.
(** the window 0, 1, 1 has a positive root *)
Example C49_example : exists p x, peaks_pushes (N := RNum) (fst (peaks_init (N := RNum) (Some [None; None; None]) 3)) (map Some [0; 1; 1]) = Ret p /\
  0 < x /\ grimshaw_w exact_math p (Some x : num RNum) = Ret (Some 0).
Proof.
  destruct (C17_lemma 3 [None; None; None] [0; 1; 1]) as (p & E & _); [lia|reflexivity|].
  destruct grimshaw_root_example as (x & Hx & R). exists p, x. split; [exact E|]. split; [exact Hx|].
  rewrite (w_exact 3 p [0; 1; 1] x); [| |discriminate|].
  - rewrite R. do 2 f_equal. ring.
  - apply (rwindow 3 [None; None; None] [0; 1; 1] p); [lia|reflexivity|exact E].
  - intros y [<-|[<-|[<-|[]]]]; lra.
Qed.
