(** * Change of unit of the observations, exact arithmetic (C94) *)
From Coq Require Import ZArith List Bool Reals Lra Lia.
From Verif Require Import Num XMath Ubend Session Peaks Brent Estimator Tail P2 Spot RNum Spec UnitSpec UnitLemmas TranslateDemo.
Import ListNotations.
Open Scope R_scope.

(** C94. Two detectors initialised alike, one receiving x and the other c x in every call. If Grimshaw's estimate does not depend
    on the unit on any of the windows of the session, the codes and the probabilities are the same, quantiles, thresholds,
    window and scale are multiplied by c, and the shape is the same. *)
Theorem C94_change_of_unit (c : R) old (q : num RNum) low discard (level : R) cap (s0 s' : spot RNum) cs l : 0 < c ->
  spot_init (N := RNum) old q low discard (Some level : num RNum) cap (fun _ => Some (repeat None (Z.to_nat cap))) = (s0, 0%Z) ->
  windows_unit_free c s0 cs -> Forall numbers_only cs ->
  session exact_math s0 cs = Ret (s', l) -> session exact_math s0 (map (scale_call c) cs) = Ret (scale_detector c s', scale_answers c cs l).
Proof. exact (unit_session c old q low discard level cap s0 s' cs l). Qed.
Print Assumptions C94_change_of_unit.

(** a calibration on one value, which is then the only excess, and a quantile; any c *)
Example C94_example (c : R) : 0 < c -> exists s0 s' l,
  spot_init (N := RNum) low_old (Some (1 / 100) : num RNum) 0 1 (Some (1 / 4) : num RNum) 2 (fun _ => Some (repeat None (Z.to_nat 2))) = (s0, 0%Z) /\
  let cs := [CFit (N := RNum) [Some 3]; CQuantile (N := RNum) (Some (1 / 100))] in
  windows_unit_free c s0 cs /\ Forall numbers_only cs /\ session exact_math s0 cs = Ret (s', l).
Proof.
  intros Pc. destruct low_old_init as (s0 & I). change (fun _ : Z => Some [None; None]) with (fun _ : Z => Some (repeat (None : option (num RNum)) (Z.to_nat 2))) in I.
  destruct (demo_session_defined _ _ I) as (s' & l & S). exists s0, s', l. split; [exact I|]. split; [exact (demo_session_free c _ s0 Pc I)|].
  split; [|exact S]. repeat constructor. intros [X|[]]. discriminate X.
Qed.

(** without the condition on the windows, the answer of one call of spot_step, the excess threshold, the counters and the window: *)
Theorem C94_answer_and_window (c : R) (s s' s'' : spot RNum) x r r'' : 0 < c -> spot_step exact_math s x = Ret (s', r) ->
  spot_step exact_math (scale_detector c s) (scale c x) = Ret (s'', r'') ->
  r'' = r /\ s_et s'' = scale c (s_et s') /\ s_Nt s'' = s_Nt s' /\ s_n s'' = s_n s' /\ t_peaks (s_tail s'') = scale_window c (t_peaks (s_tail s')).
Proof. intros Pc. exact (sd_step_code c Pc s x s' r s'' r''). Qed.
Print Assumptions C94_answer_and_window.
Example C94_answer_example (c : R) : 0 < c -> exists (s s' : spot RNum) x s'' r'', spot_step exact_math s x = Ret (s', NORMAL) /\ spot_step exact_math (scale_detector c s) (scale c x) = Ret (s'', r'').
Proof.
  intros Pc. exists low_old. eexists. exists (Some 3 : num RNum). unfold spot_step, is_nan. cbn. rewrite !Raux.Req_bool_true by reflexivity. cbn.
  do 2 eexists. split; reflexivity.
Qed.

(** the method of moments does not depend on the unit, nor does the equation solved by Grimshaw's search (its roots are divided by
    c), nor the candidate made from a root: what does is where and how precisely the roots are looked for *)
Theorem C94_candidates (c : R) (p : peaks RNum) (x : num RNum) : 0 < c ->
  mom_estimator exact_math (scale_window c p) = scale_estimate c (peaks_size p) (mom_estimator exact_math p) /\
  grimshaw_w exact_math (scale_window c p) (scale (/ c) x) = grimshaw_w exact_math p x /\
  grimshaw_simplified_log_likelihood exact_math (scale (/ c) x) (scale_window c p) = scale_estimate c (peaks_size p) (grimshaw_simplified_log_likelihood exact_math x p).
Proof. exact (fun Pc => conj (sw_moments c Pc p) (conj (sw_w c Pc p x) (sw_candidate c Pc p x))). Qed.
Print Assumptions C94_candidates.

(** a window of one excess is unit-free *)
Theorem C94_one_excess (c : R) (p : peaks RNum) (y : R) : 0 < c -> peaks_size p = 1%Z -> rdcell (u_data (p_cont p)) 0 = Ret (Some y : num RNum) -> 0 < y ->
  p_e p = Some y -> p_min p = Some y -> p_max p = Some y -> unit_free c p.
Proof. exact (single_unit_free c p y). Qed.
Print Assumptions C94_one_excess.
Example C94_one_excess_example : exists p, peaks_push empty_window (Some 3 : num RNum) = Ret p /\ peaks_size p = 1%Z /\ rdcell (u_data (p_cont p)) 0 = Ret (Some 3 : num RNum) /\
  p_e p = Some 3 /\ p_min p = Some 3 /\ p_max p = Some 3.
Proof. exact push_single. Qed.
