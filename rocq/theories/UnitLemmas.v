(** * UnitLemmas: a change of unit of the observations (C94) *)
From Coq Require Import ZArith List Bool Reals Lra Lia.
From Flocq Require Import Core.Core.
From Verif Require Import Num XMath Ubend Peaks Brent Estimator Tail P2 Spot Session SpotFacts SpotB64 RNum P2ExactSpec P2Exact Spec TranslateSpec Translate WindowLemmas PeaksFacts UnitSpec.
Import ListNotations.
Open Scope R_scope.

Section Unit.
Variable c : R.
Hypothesis Pc : 0 < c.
Notation sc := (scale c).
Notation sw := (scale_window c).
Notation sd := (scale_detector c).

Lemma sc_sub (x y : num RNum) : nsub (sc x) (sc y) = sc (nsub x y).
Proof. destruct x as [x|], y as [y|]; cbn; try reflexivity. f_equal. ring. Qed.
Lemma sc_add (x y : num RNum) : nadd (sc x) (sc y) = sc (nadd x y).
Proof. destruct x as [x|], y as [y|]; cbn; try reflexivity. f_equal. ring. Qed.
Lemma sc_mul_r (x y : num RNum) : nmul x (sc y) = sc (nmul x y).
Proof. destruct x as [x|], y as [y|]; cbn; try reflexivity. f_equal. ring. Qed.
Lemma sc_mul_l (x y : num RNum) : nmul (sc x) y = sc (nmul x y).
Proof. destruct x as [x|], y as [y|]; cbn; try reflexivity. f_equal. ring. Qed.
Lemma sc2_sub (x y : num RNum) : nsub (scale (c * c) x) (scale (c * c) y) = scale (c * c) (nsub x y).
Proof. destruct x as [x|], y as [y|]; cbn; try reflexivity. f_equal. ring. Qed.
Lemma sc2_add (x y : num RNum) : nadd (scale (c * c) x) (scale (c * c) y) = scale (c * c) (nadd x y).
Proof. destruct x as [x|], y as [y|]; cbn; try reflexivity. f_equal. ring. Qed.
Lemma sc2_mul (x y : num RNum) : nmul (sc x) (sc y) = scale (c * c) (nmul x y).
Proof. destruct x as [x|], y as [y|]; cbn; try reflexivity. f_equal. ring. Qed.
Lemma sc_opp (x : num RNum) : nopp (sc x) = sc (nopp x).
Proof. destruct x as [x|]; cbn; try reflexivity. f_equal. ring. Qed.
Lemma scale_div k (x y : num RNum) : ndiv (scale k x) y = scale k (ndiv x y).
Proof. destruct x as [x|], y as [y|]; cbn; try reflexivity. destruct (Req_bool y 0) eqn:E; [reflexivity|]. cbn. f_equal. unfold Rdiv. ring. Qed.
Lemma sc_nz (y : R) : Req_bool (c * y) 0 = Req_bool y 0.
Proof.
  destruct (Req_bool_spec y 0) as [E|E]; [apply Req_bool_true; subst; ring|apply Req_bool_false].
  intros H. apply Rmult_integral in H as [H|H]; lra.
Qed.
Lemma sc_div_both (x y : num RNum) : ndiv (sc x) (sc y) = ndiv x y.
Proof.
  destruct x as [x|], y as [y|]; cbn; try reflexivity. rewrite sc_nz. destruct (Req_bool_spec y 0) as [E|E]; [reflexivity|]. f_equal. field. split; [exact E|lra].
Qed.
Lemma sc2_div_both (x y : num RNum) : ndiv (scale (c * c) x) (scale (c * c) y) = ndiv x y.
Proof.
  destruct x as [x|], y as [y|]; cbn; try reflexivity. rewrite !Rmult_assoc, !sc_nz. destruct (Req_bool_spec y 0) as [E|E]; [reflexivity|]. f_equal. field. split; [exact E|lra].
Qed.
Lemma sc_nan (x : num RNum) : is_nan (sc x) = is_nan x.
Proof. unfold is_nan. destruct x as [x|]; [|reflexivity]. cbn. rewrite !Req_bool_true by reflexivity. reflexivity. Qed.
Lemma sc_lt (x y : num RNum) : nlt (sc x) (sc y) = nlt x y.
Proof.
  destruct x as [x|], y as [y|]; cbn; try reflexivity. destruct (Rlt_bool_spec x y) as [H|H]; [apply Rlt_bool_true; apply Rmult_lt_compat_l; lra|apply Rlt_bool_false; apply Rmult_le_compat_l; lra].
Qed.
Lemma sc_le (x y : num RNum) : nle (sc x) (sc y) = nle x y.
Proof.
  destruct x as [x|], y as [y|]; cbn; try reflexivity. destruct (Rle_bool_spec x y) as [H|H]; [apply Rle_bool_true; apply Rmult_le_compat_l; lra|apply Rle_bool_false; apply Rmult_lt_compat_l; lra].
Qed.
Lemma sc_zero : sc (nofZ 0 : num RNum) = nofZ 0.
Proof. cbn. f_equal. ring. Qed.
Lemma sc2_zero : scale (c * c) (nofZ 0 : num RNum) = nofZ 0.
Proof. cbn. f_equal. ring. Qed.
Lemma sc_c_nan : sc (c_nan : num RNum) = c_nan.
Proof. unfold c_nan. cbn. rewrite Req_bool_true by reflexivity. reflexivity. Qed.
Lemma sc_if (b : bool) (x y : num RNum) : (if b then sc x else sc y) = sc (if b then x else y).
Proof. destruct b; reflexivity. Qed.

Lemma sc_rdcell l i : rdcell (map (option_map sc) l) i = match rdcell l i with Ret v => Ret (sc v) | Undef w => Undef w end.
Proof.
  unfold rdcell, rd. rewrite map_length. destruct (_ && _)%bool; [|reflexivity]. rewrite nth_error_map.
  destruct (nth_error l (Z.to_nat i)) as [[v|]|]; reflexivity.
Qed.
Lemma sc_upd (l : list (option (num RNum))) : forall n x, upd (map (option_map sc) l) n (Some (sc x)) = map (option_map sc) (upd l n (Some x)).
Proof. induction l as [|a l IH]; intros [|n] x; cbn; try reflexivity. rewrite <- IH. reflexivity. Qed.
Lemma sc_wr l i x : wr (map (option_map sc) l) i (Some (sc x)) = match wr l i (Some x) with Ret v => Ret (map (option_map sc) v) | Undef w => Undef w end.
Proof. unfold wr. rewrite map_length. destruct (_ && _)%bool; [|reflexivity]. rewrite sc_upd. reflexivity. Qed.

(** loops with related bodies *)
Lemma loop_map {S T} (f : S -> T) (b : Z -> S -> res S) (b' : Z -> T -> res T) n :
  (forall i s, b' i (f s) = match b i s with Ret v => Ret (f v) | Undef w => Undef w end) ->
  forall i s, for_from n i b' (f s) = match for_from n i b s with Ret v => Ret (f v) | Undef w => Undef w end.
Proof.
  intros H. induction n as [|n IH]; intros i s; cbn [for_from]; [reflexivity|]. rewrite H.
  destruct (b i s) as [s'|]; cbn [bind]; [|reflexivity]. apply IH.
Qed.

Definition sst (s : num RNum * num RNum * num RNum * num RNum) : num RNum * num RNum * num RNum * num RNum :=
  let '(e, e2, mn, mx) := s in (sc e, scale (c * c) e2, sc mn, sc mx).

Lemma sw_size p : peaks_size (sw p) = peaks_size p.
Proof. reflexivity. Qed.

Lemma sw_push p x : peaks_push (sw p) (sc x) = match peaks_push p x with Ret v => Ret (sw v) | Undef w => Undef w end.
Proof.
  unfold peaks_push, ubend_push. cbn [scale_window p_cont p_e p_e2 p_min p_max u_cursor u_capacity u_last u_filled u_data].
  assert (L : (if (u_filled (p_cont p) =? 0)%Z then Ret (sc (u_last (p_cont p))) else rdcell (map (option_map sc) (u_data (p_cont p))) (u_cursor (p_cont p)))
    = match (if (u_filled (p_cont p) =? 0)%Z then Ret (u_last (p_cont p)) else rdcell (u_data (p_cont p)) (u_cursor (p_cont p))) with Ret v => Ret (sc v) | Undef w => Undef w end).
  { destruct (u_filled (p_cont p) =? 0)%Z; [reflexivity|]. apply sc_rdcell. }
  rewrite L. clear L. destruct (if (u_filled (p_cont p) =? 0)%Z then _ else _) as [last|]; cbn [bind]; [|reflexivity].
  rewrite sc_wr. destruct (wr _ _ _) as [d|]; cbn [bind]; [|reflexivity].
  set (u := if (u_cursor (p_cont p) =? u64 (u_capacity (p_cont p) - 1))%Z then MkUbend 0 (u_capacity (p_cont p)) last 1 d
    else MkUbend (u64 (u_cursor (p_cont p) + 1)) (u_capacity (p_cont p)) last (u_filled (p_cont p)) d).
  assert (U : (if (u_cursor (p_cont p) =? u64 (u_capacity (p_cont p) - 1))%Z then MkUbend 0 (u_capacity (p_cont p)) (sc last) 1 (map (option_map sc) d)
    else MkUbend (u64 (u_cursor (p_cont p) + 1)) (u_capacity (p_cont p)) (sc last) (u_filled (p_cont p)) (map (option_map sc) d))
    = MkUbend (u_cursor u) (u_capacity u) (sc (u_last u)) (u_filled u) (map (option_map sc) (u_data u))).
  { unfold u. destruct (_ =? _)%Z; reflexivity. }
  rewrite U. clear U. cbv zeta. change (ubend_size (MkUbend (u_cursor u) (u_capacity u) (sc (u_last u)) (u_filled u) (map (option_map sc) (u_data u)))) with (ubend_size u).
  rewrite sc_nan, !sc_lt, !sc_if, !sc_le, !sc_add, !sc_sub, !sc2_mul, !sc2_add, !sc2_sub.
  destruct (is_nan last); cbn [negb]; [reflexivity|]. destruct (_ || _)%bool; [|reflexivity].
  unfold peaks_update_stats. cbn [p_cont u_data]. change (ubend_size (MkUbend (u_cursor u) (u_capacity u) (sc (u_last u)) (u_filled u) (map (option_map sc) (u_data u)))) with (ubend_size u).
  unfold for_lt.
  replace ((nofZ 0, nofZ 0, c_nan, c_nan) : num RNum * num RNum * num RNum * num RNum) with (sst (nofZ 0, nofZ 0, c_nan, c_nan)) at 1
    by (unfold sst; rewrite sc_zero, sc2_zero, sc_c_nan; reflexivity).
  rewrite (loop_map sst (update_stats_body (u_data u))).
  - destruct (for_from _ _ _ _) as [[[[e e2] mn] mx]|]; cbn [bind sst]; reflexivity.
  - intros i [[[e e2] mn] mx]. unfold update_stats_body, sst. rewrite sc_rdcell. destruct (rdcell _ _) as [v|]; cbn [bind]; [|reflexivity].
    rewrite !sc_nan, !sc_lt, !sc_if, sc_add, sc2_mul. reflexivity.
Qed.

(** the law with shape g and scale s, and the same in the new unit *)
Lemma sc_quantile (g s : num RNum) w w' r q : tail_quantile exact_math (MkTail g (sc s) w') r q = match tail_quantile exact_math (MkTail g s w) r q with Ret v => Ret (sc v) | Undef x => Undef x end.
Proof.
  unfold tail_quantile. cbn [t_gamma t_sigma]. destruct (neq g _).
  - rewrite sc_opp, sc_mul_l. reflexivity.
  - destruct (m_pow exact_math _ _) as [y|]; cbn [bind]; [|reflexivity]. rewrite scale_div, sc_mul_l. reflexivity.
Qed.
Lemma sc_cross (x g s : num RNum) : nmul (sc x) (ndiv g (sc s)) = nmul x (ndiv g s).
Proof.
  destruct x as [x|], g as [g|], s as [s|]; cbn; try reflexivity. rewrite sc_nz. destruct (Req_bool_spec s 0) as [E|E]; [reflexivity|]. cbn. f_equal. field. split; [exact E|lra].
Qed.
Lemma sc_cross' (x g s : num RNum) : nmul (ndiv g (sc s)) (sc x) = nmul (ndiv g s) x.
Proof.
  destruct x as [x|], g as [g|], s as [s|]; cbn; try reflexivity; rewrite ?sc_nz; destruct (Req_bool_spec s 0) as [E|E]; try reflexivity. cbn. f_equal. field. split; [exact E|lra].
Qed.
Lemma sc_probability (g s : num RNum) w w' r x : tail_probability exact_math (MkTail g (sc s) w') r (sc x) = tail_probability exact_math (MkTail g s w) r x.
Proof.
  unfold tail_probability. cbn [t_gamma t_sigma]. destruct (neq g _).
  - rewrite sc_opp, sc_div_both. reflexivity.
  - rewrite sc_cross. reflexivity.
Qed.
Lemma sd_quantile s q : spot_quantile exact_math (sd s) q = match spot_quantile exact_math s q with Ret v => Ret (sc v) | Undef w => Undef w end.
Proof.
  unfold spot_quantile. cbn [scale_detector s_tail s_Nt s_n s_et s_updown]. destruct (s_tail s) as [g sg w] eqn:T. cbn [t_gamma t_sigma t_peaks].
  rewrite (sc_quantile g sg w). destruct (tail_quantile _ _ _ _) as [v|]; cbn [bind]; [|reflexivity]. rewrite sc_mul_r, sc_add. reflexivity.
Qed.
Lemma sd_probability s z : spot_probability exact_math (sd s) (sc z) = spot_probability exact_math s z.
Proof.
  unfold spot_probability. cbn [scale_detector s_tail s_Nt s_n s_et s_updown]. destruct (s_tail s) as [g sg w]. cbn [t_gamma t_sigma t_peaks].
  rewrite sc_sub, sc_mul_r. apply sc_probability.
Qed.

(** ** Likelihoods and candidates *)
Definition lower (k : R) (x : num RNum) : num RNum := match (x : xr) with Some a => Some (a - k) | None => None end.
Lemma lower_add k (x y : num RNum) : nadd (lower k x) y = lower k (nadd x y).
Proof. destruct x as [x|], y as [y|]; cbn; try reflexivity. f_equal. ring. Qed.
Lemma lower_lt k (x y : num RNum) : nlt (lower k x) (lower k y) = nlt x y.
Proof.
  destruct x as [x|], y as [y|]; cbn; try reflexivity. destruct (Rlt_bool_spec x y); [apply Rlt_bool_true; lra|apply Rlt_bool_false; lra].
Qed.
Lemma lower_nan k (x : num RNum) : is_nan (lower k x) = is_nan x.
Proof. unfold is_nan. destruct x as [x|]; [|reflexivity]. cbn. rewrite !Req_bool_true by reflexivity. reflexivity. Qed.
Lemma log_term (n : Z) (s : num RNum) : nmul (nopp (nofZ n : num RNum)) (m_log exact_math (sc s)) = lower (IZR n * ln c) (nmul (nopp (nofZ n : num RNum)) (m_log exact_math s)).
Proof.
  destruct s as [s|]; [|reflexivity]. cbn. destruct (Rlt_bool_spec 0 s) as [H|H].
  - rewrite Rlt_bool_true by (apply Rmult_lt_0_compat; lra). cbn. f_equal. rewrite ln_mult by lra. ring.
  - rewrite Rlt_bool_false by (assert (0 <= c * - s) by (apply Rmult_le_pos; lra); lra). reflexivity.
Qed.
Lemma sw_likelihood p g s : log_likelihood exact_math (sw p) g (sc s) = match log_likelihood exact_math p g s with Ret v => Ret (lower (IZR (peaks_size p) * ln c) v) | Undef w => Undef w end.
Proof.
  unfold log_likelihood. cbn [scale_window p_cont p_e u_data]. change (ubend_size _) with (peaks_size p) at 1. change (ubend_size (p_cont p)) with (peaks_size p).
  cbv zeta. destruct (neq g _).
  - change (ubend_size _) with (peaks_size p). rewrite log_term, sc_div_both. f_equal.
    destruct (nmul (nopp _) _) as [a|], (ndiv (p_e p) s) as [b|]; cbn; try reflexivity. f_equal. ring.
  - change (ubend_size _) with (peaks_size p). rewrite log_term. unfold for_lt.
    apply (loop_map (lower (IZR (peaks_size p) * ln c))). intros i r. rewrite sc_rdcell. destruct (rdcell _ _) as [v|]; cbn [bind]; [|reflexivity].
    rewrite sc_cross', lower_add. reflexivity.
Qed.
Lemma sw_mean p : peaks_mean (sw p) = sc (peaks_mean p).
Proof. unfold peaks_mean. rewrite sw_size. cbn [scale_window p_e]. apply scale_div. Qed.
Lemma sw_var p : peaks_var (sw p) = scale (c * c) (peaks_var p).
Proof. unfold peaks_var. rewrite sw_size. cbn [scale_window p_e p_e2]. rewrite !scale_div, sc2_mul, sc2_sub. reflexivity. Qed.
Lemma sw_moments p : mom_estimator exact_math (sw p) = scale_estimate c (peaks_size p) (mom_estimator exact_math p).
Proof.
  unfold mom_estimator. rewrite sw_mean, sw_var. cbv zeta. rewrite sc2_mul, sc2_div_both, sc_mul_r, sc_mul_l, sw_likelihood.
  destruct (log_likelihood _ _ _ _) as [l|]; cbn [bind]; reflexivity.
Qed.

Lemma inv_mul (x y : num RNum) : nmul (scale (/ c) x) (sc y) = nmul x y.
Proof. destruct x as [x|], y as [y|]; cbn; try reflexivity. f_equal. field. lra. Qed.
Lemma loop_ext {S} (b b' : Z -> S -> res S) n : (forall i s, b' i s = b i s) -> forall i s, for_from n i b' s = for_from n i b s.
Proof. intros H. induction n as [|n IH]; intros i s; cbn [for_from]; [reflexivity|]. rewrite H. destruct (b i s); cbn [bind]; [apply IH|reflexivity]. Qed.
Lemma sw_w p x : grimshaw_w exact_math (sw p) (scale (/ c) x) = grimshaw_w exact_math p x.
Proof.
  unfold grimshaw_w. rewrite sw_size. cbn [scale_window p_cont u_data]. unfold for_lt. cbv zeta.
  rewrite (loop_ext (fun (i : Z) (uv : num RNum * num RNum) => let '(u, v) := uv in y <- rdcell (u_data (p_cont p)) i ;;
     Ret (nadd u (ndiv (nofZ 1) (nadd (nofZ 1) (nmul x y))), nadd v (m_log exact_math (nadd (nofZ 1) (nmul x y)))))); [reflexivity|].
  intros i [u v]. rewrite sc_rdcell. destruct (rdcell _ _) as [y|]; cbn [bind]; [|reflexivity]. rewrite inv_mul. reflexivity.
Qed.
Lemma sw_candidate p x : grimshaw_simplified_log_likelihood exact_math (scale (/ c) x) (sw p) = scale_estimate c (peaks_size p) (grimshaw_simplified_log_likelihood exact_math x p).
Proof.
  unfold grimshaw_simplified_log_likelihood.
  assert (ZZ : neq (scale (/ c) x) (nofZ 0 : num RNum) = neq x (nofZ 0 : num RNum)).
  { destruct x as [x|]; [|reflexivity]. cbn. assert (0 < / c) by (apply Rinv_0_lt_compat; exact Pc).
    destruct (Req_bool_spec x 0) as [E|E]; [apply Req_bool_true; subst; ring|apply Req_bool_false]. intros F. apply Rmult_integral in F as [F|F]; lra. }
  rewrite ZZ. destruct (neq x _) eqn:EZ; cbn [bind].
  - rewrite sw_mean, sw_likelihood. destruct (log_likelihood _ _ _ _) as [l|]; reflexivity.
  - assert (V : grimshaw_v exact_math (sw p) (scale (/ c) x) = grimshaw_v exact_math p x).
    { unfold grimshaw_v. rewrite sw_size. cbn [scale_window p_cont u_data]. unfold for_lt. cbv zeta.
      rewrite (loop_ext (fun (i : Z) (v : num RNum) => y <- rdcell (u_data (p_cont p)) i ;; Ret (nadd v (m_log exact_math (nadd (nofZ 1) (nmul x y)))))); [reflexivity|].
      intros i v. rewrite sc_rdcell. destruct (rdcell _ _) as [y|]; cbn [bind]; [|reflexivity]. rewrite inv_mul. reflexivity. }
    rewrite V. clear V. destruct (grimshaw_v exact_math p x) as [v|]; cbn [bind]; [|reflexivity].
    replace (ndiv (nsub v (nofZ 1)) (scale (/ c) x)) with (sc (ndiv (nsub v (nofZ 1)) x)).
    { rewrite sw_likelihood. destruct (log_likelihood _ _ _ _) as [l|]; reflexivity. }
    destruct v as [v|], x as [x|]; try reflexivity. cbn in EZ, ZZ |- *. rewrite EZ in *. rewrite ZZ. cbn. f_equal.
    assert (x <> 0) by (intros E; rewrite Req_bool_true in EZ by exact E; discriminate). field. split; [lra|assumption].
Qed.

(** ** The fit *)
Lemma est_eq n l g s : scale_estimate c n (Ret (l, g, s)) = Ret (lower (IZR n * ln c) l, g, sc s).
Proof. reflexivity. Qed.
Lemma sw_fit p (g s g' s' : num RNum) : unit_free c p ->
  tail_fit exact_math (MkTail g' s' (sw p)) = match tail_fit exact_math (MkTail g s p) with
    | Ret (t, ll) => Ret (MkTail (t_gamma t) (sc (t_sigma t)) (sw (t_peaks t)), lower (IZR (peaks_size p) * ln c) ll) | Undef w => Undef w end.
Proof.
  intros UF. unfold unit_free in UF. unfold tail_fit, ESTIMATORS. cbn [tail_fit_loop t_peaks]. rewrite sw_moments.
  destruct (mom_estimator exact_math p) as [[[l1 g1] s1]|]; [rewrite est_eq|reflexivity]. cbn [bind].
  assert (C : is_nan (c_nan : num RNum) = true) by (unfold c_nan, is_nan; cbn; rewrite Req_bool_true by reflexivity; reflexivity). rewrite C. cbn [orb t_peaks].
  rewrite UF. destruct (grimshaw_estimator exact_math p) as [[[l2 g2] s2]|]; [rewrite est_eq|reflexivity]. cbn [bind].
  rewrite lower_nan, lower_lt. destruct (_ || _)%bool; reflexivity.
Qed.

Lemma sd_step s x s' r : spot_step exact_math s x = Ret (s', r) -> (r = EXCESS -> unit_free c (t_peaks (s_tail s'))) -> spot_step exact_math (sd s) (sc x) = Ret (sd s', r).
Proof.
  unfold spot_step. rewrite sc_nan. destruct (is_nan x); [intros H; injection H as <- <-; reflexivity|].
  change (s_discard (sd s)) with (s_discard s). change (s_updown (sd s)) with (s_updown s). change (s_at (sd s)) with (sc (s_at s)).
  change (s_Nt (sd s)) with (s_Nt s). change (s_n (sd s)) with (s_n s). rewrite sc_sub, sc_mul_r.
  replace (nlt (nofZ 0) (sc (nmul (s_updown s) (nsub x (s_at s))))) with (nlt (nofZ 0) (nmul (s_updown s) (nsub x (s_at s)))) by (rewrite <- sc_zero at 2; rewrite sc_lt; reflexivity).
  destruct (_ && _)%bool; [intros H; injection H as <- <-; reflexivity|]. cbv zeta.
  cbn [with_counts s_updown s_et s_Nt s_n s_tail s_q with_tail]. change (s_et (sd s)) with (sc (s_et s)). change (s_updown (sd s)) with (s_updown s). rewrite sc_sub, sc_mul_r.
  replace (nle (nofZ 0) (sc (nmul (s_updown s) (nsub x (s_et s))))) with (nle (nofZ 0) (nmul (s_updown s) (nsub x (s_et s)))) by (rewrite <- sc_zero at 2; rewrite sc_le; reflexivity).
  destruct (nle _ _); [|intros H; injection H as <- <-; reflexivity].
  unfold tail_push. change (t_peaks (s_tail (sd s))) with (sw (t_peaks (s_tail s))). rewrite sw_push. destruct (peaks_push _ _) as [p|]; cbn [bind]; [|discriminate].
  change (t_gamma (s_tail (sd s))) with (t_gamma (s_tail s)). change (t_sigma (s_tail (sd s))) with (sc (t_sigma (s_tail s))).
  destruct (tail_fit exact_math (MkTail _ _ p)) as [[t l]|] eqn:F; cbn [bind]; [|discriminate]. pose proof (tail_fit_peaks _ _ _ _ F) as Pk. cbn [t_peaks] in Pk.
  destruct (spot_quantile _ _ _) as [a|] eqn:Q; cbn [bind]; [|discriminate]. intros H UF. injection H as <- <-. specialize (UF eq_refl). cbn [s_tail with_at with_tail] in UF. rewrite Pk in UF.
  rewrite (sw_fit p (t_gamma (s_tail s)) (t_sigma (s_tail s)) _ _ UF), F. cbn [bind].
  match goal with |- context [spot_quantile exact_math ?A ?B] => change A with (sd (with_tail (with_counts s (u64 (s_Nt s + 1)) (u64 (s_n s + 1))) t)) end.
  rewrite sd_quantile. change (s_q (sd s)) with (s_q s).
  match goal with |- context [spot_quantile exact_math ?A ?B] => change (spot_quantile exact_math A B) with (spot_quantile exact_math (with_tail (with_counts s (u64 (s_Nt s + 1)) (u64 (s_n s + 1))) t) (s_q s)) end.
  match type of Q with spot_quantile exact_math ?A ?B = _ => change (spot_quantile exact_math (with_tail (with_counts s (u64 (s_Nt s + 1)) (u64 (s_n s + 1))) t) (s_q s) = Ret a) in Q end.
  rewrite Q. reflexivity.
Qed.

(** without the condition: the code, the counters, the thresholds other than the anomaly threshold, and the window *)
Lemma sd_step_code s x s' r s'' r'' : spot_step exact_math s x = Ret (s', r) -> spot_step exact_math (sd s) (sc x) = Ret (s'', r'') ->
  r'' = r /\ s_et s'' = sc (s_et s') /\ s_Nt s'' = s_Nt s' /\ s_n s'' = s_n s' /\ t_peaks (s_tail s'') = sw (t_peaks (s_tail s')).
Proof.
  unfold spot_step. rewrite sc_nan. destruct (is_nan x); [intros H G; injection H as <- <-; injection G as <- <-; repeat split; reflexivity|].
  change (s_discard (sd s)) with (s_discard s). change (s_updown (sd s)) with (s_updown s). change (s_at (sd s)) with (sc (s_at s)).
  change (s_Nt (sd s)) with (s_Nt s). change (s_n (sd s)) with (s_n s). rewrite sc_sub, sc_mul_r.
  replace (nlt (nofZ 0) (sc (nmul (s_updown s) (nsub x (s_at s))))) with (nlt (nofZ 0) (nmul (s_updown s) (nsub x (s_at s)))) by (rewrite <- sc_zero at 2; rewrite sc_lt; reflexivity).
  destruct (_ && _)%bool; [intros H G; injection H as <- <-; injection G as <- <-; repeat split; reflexivity|]. cbv zeta.
  cbn [with_counts s_updown s_et s_Nt s_n s_tail s_q with_tail]. change (s_et (sd s)) with (sc (s_et s)). change (s_updown (sd s)) with (s_updown s). rewrite sc_sub, sc_mul_r.
  replace (nle (nofZ 0) (sc (nmul (s_updown s) (nsub x (s_et s))))) with (nle (nofZ 0) (nmul (s_updown s) (nsub x (s_et s)))) by (rewrite <- sc_zero at 2; rewrite sc_le; reflexivity).
  destruct (nle _ _); [|intros H G; injection H as <- <-; injection G as <- <-; repeat split; reflexivity].
  unfold tail_push. change (t_peaks (s_tail (sd s))) with (sw (t_peaks (s_tail s))). rewrite sw_push. destruct (peaks_push _ _) as [p|]; cbn [bind]; [|discriminate].
  destruct (tail_fit exact_math (MkTail _ _ p)) as [[t l]|] eqn:F; cbn [bind]; [|discriminate]. pose proof (tail_fit_peaks _ _ _ _ F) as Pk. cbn [t_peaks] in Pk.
  destruct (spot_quantile _ _ _) as [a|] eqn:Q; cbn [bind]; [|discriminate]. intros H. injection H as <- <-. clear Q.
  destruct (tail_fit exact_math (MkTail _ _ (sw p))) as [[t' l']|] eqn:F'; cbn [bind]; [|discriminate]. pose proof (tail_fit_peaks _ _ _ _ F') as Pk'. cbn [t_peaks] in Pk'.
  destruct (spot_quantile _ _ _) as [a'|] eqn:Q'; cbn [bind]; [|discriminate]. intros H. injection H as <- <-.
  cbn. rewrite Pk, Pk'. repeat split; reflexivity.
Qed.

Lemma sd_fill et data : forall s, fit_fill (sc et) (sd s) (map sc data) = match fit_fill et s data with Ret v => Ret (sd v) | Undef w => Undef w end.
Proof.
  induction data as [|x data IH]; intros s; cbn [fit_fill map]; [reflexivity|].
  change (s_updown (sd s)) with (s_updown s). rewrite sc_sub, sc_mul_r. cbv zeta.
  replace (nlt (nofZ 0) (sc (nmul (s_updown s) (nsub x et)))) with (nlt (nofZ 0) (nmul (s_updown s) (nsub x et))) by (rewrite <- sc_zero at 2; rewrite sc_lt; reflexivity).
  destruct (nlt _ _); [|apply IH].
  unfold tail_push. change (t_peaks (s_tail (sd s))) with (sw (t_peaks (s_tail s))). rewrite sw_push. destruct (peaks_push _ _) as [p|]; cbn [bind]; [|reflexivity].
  apply (IH (with_tail (with_counts s (u64 (s_Nt s + 1)) (s_n s)) (MkTail (t_gamma (s_tail s)) (t_sigma (s_tail s)) p))).
Qed.

Lemma sc_p2 (p : R) (data : list (num RNum)) : ~ In (None : num RNum) data ->
  exists v, p2_quantile (N := RNum) (Some p) data = Ret (Some v) /\ p2_quantile (N := RNum) (Some p) (map sc data) = Ret (Some (c * v)).
Proof.
  intros NN. destruct (le_lt_dec 5 (length data)) as [L|L].
  - destruct (real_list data NN) as (xs & ->). rewrite map_length in L. destruct (C53_lemma p xs L) as (t & _ & E). exists (height (k2 t)). split; [exact E|].
    pose proof (C53_unit_lemma p c 0 xs _ Pc E L) as U. rewrite Rplus_0_r in U. rewrite <- U. f_equal. rewrite !map_map. apply map_ext. intros a. cbn. f_equal. ring.
  - exists 0. rewrite !p2_quantile_short; [|rewrite map_length; exact L|exact L]. split; [reflexivity|]. cbn. do 2 f_equal. ring.
Qed.

Lemma sd_fit (s : spot RNum) data (lv : R) s' r : s_level s = (Some lv : num RNum) -> ~ In (None : num RNum) data ->
  spot_fit exact_math s data = Ret (s', r) -> unit_free c (t_peaks (s_tail s')) -> spot_fit exact_math (sd s) (map sc data) = Ret (sd s', r).
Proof.
  intros LV NN. unfold spot_fit. rewrite map_length. cbv zeta. cbn [with_counts s_low s_level]. change (s_low (sd s)) with (s_low s). change (s_level (sd s)) with (s_level s). rewrite LV.
  set (p := if (s_low s =? 0)%Z then (Some lv : num RNum) else nsub (nofZ 1 : num RNum) (Some lv : num RNum)).
  assert (P : exists p', p = Some p') by (unfold p; destruct (s_low s =? 0)%Z; [exists lv; reflexivity|exists (1 - lv); reflexivity]). destruct P as (p' & ->).
  destruct (sc_p2 p' data NN) as (v & -> & ->). cbn [bind].
  replace (is_nan (Some (c * v) : num RNum)) with (is_nan (Some v : num RNum)) by (symmetry; exact (sc_nan (Some v))).
  assert (NV : is_nan (Some v : num RNum) = false) by (unfold is_nan; cbn; rewrite Req_bool_true by reflexivity; reflexivity). rewrite NV.
  match goal with |- context [@fit_fill RNum ?A ?B (map sc data)] => change (@fit_fill RNum A B (map sc data)) with
    (fit_fill (sc (Some v : num RNum)) (sd (with_et (with_counts s 0 (Z.of_nat (length data))) (Some v : num RNum))) (map sc data)) end.
  rewrite sd_fill. destruct (fit_fill _ _ _) as [s1|]; cbn [bind]; [|discriminate]. 
  destruct (tail_fit exact_math (s_tail s1)) as [[t l]|] eqn:F; cbn [bind]; [|discriminate]. pose proof (tail_fit_peaks _ _ _ _ F) as Pk.
  destruct (spot_quantile exact_math (with_tail s1 t) _) as [a|] eqn:Q; cbn [bind]; [|discriminate]. intros H UF.
  assert (UF' : unit_free c (t_peaks (s_tail s1))).
  { destruct (is_nan a); injection H as <- _; cbn [s_tail with_at with_tail] in UF; rewrite Pk in UF; exact UF. }
  destruct (s_tail s1) as [g1 sg1 w1] eqn:T1. cbn [t_peaks] in UF', Pk.
  replace (s_tail (sd s1)) with (MkTail g1 (sc sg1) (sw w1)) by (unfold scale_detector; cbn [s_tail]; rewrite T1; reflexivity).
  rewrite (sw_fit w1 g1 sg1 g1 (sc sg1) UF'), F. cbn [bind].
  change (with_tail (sd s1) (MkTail (t_gamma t) (sc (t_sigma t)) (sw (t_peaks t)))) with (sd (with_tail s1 t)). rewrite sd_quantile.
  change (s_q (sd (with_tail s1 t))) with (s_q (with_tail s1 t)). rewrite Q. cbn [bind]. rewrite sc_nan. destruct (is_nan a); injection H as <- <-; reflexivity.
Qed.

Lemma sd_session cs : forall (s : spot RNum) (lv : R) s' l, s_level s = (Some lv : num RNum) -> windows_unit_free c s cs -> Forall numbers_only cs ->
  session exact_math s cs = Ret (s', l) -> session exact_math (sd s) (map (scale_call c) cs) = Ret (sd s', scale_answers c cs l).
Proof.
  induction cs as [|k cs IH]; intros s lv s' l LV WF NO; cbn [session map]; [intros H; injection H as <- <-; reflexivity|].
  inversion NO as [|? ? NO1 NO2]; subst. cbn [windows_unit_free] in WF. destruct k as [data|x|q|z]; cbn [scale_call do_call] in *.
  - destruct (spot_fit exact_math s data) as [[s1 r]|] eqn:E; cbn [bind] in *; [|discriminate]. destruct WF as (U & WF).
    rewrite (sd_fit s data lv s1 r LV NO1 E U). cbn [bind].
    destruct (session exact_math s1 cs) as [[s2 l2]|] eqn:S; cbn [bind]; [|discriminate].
    rewrite (IH s1 lv s2 l2); [|rewrite (fit_level _ _ _ _ _ E); exact LV|exact WF|exact NO2|exact S]. intros H. injection H as <- <-. reflexivity.
  - destruct (spot_step exact_math s x) as [[s1 r]|] eqn:E; cbn [bind] in *; [|discriminate]. destruct WF as (U & WF).
    rewrite (sd_step s x s1 r E U). cbn [bind].
    destruct (session exact_math s1 cs) as [[s2 l2]|] eqn:S; cbn [bind]; [|discriminate].
    rewrite (IH s1 lv s2 l2); [|rewrite (step_level _ _ _ _ _ E); exact LV|exact WF|exact NO2|exact S]. intros H. injection H as <- <-. reflexivity.
  - rewrite sd_quantile. destruct (spot_quantile exact_math s q) as [v|]; cbn [bind]; [|discriminate].
    destruct (session exact_math s cs) as [[s2 l2]|] eqn:S; cbn [bind]; [|discriminate].
    rewrite (IH s lv s2 l2 LV WF NO2 S). intros H. injection H as <- <-. reflexivity.
  - rewrite sd_probability. destruct (spot_probability exact_math s z) as [v|]; cbn [bind]; [|discriminate].
    destruct (session exact_math s cs) as [[s2 l2]|] eqn:S; cbn [bind]; [|discriminate].
    rewrite (IH s lv s2 l2 LV WF NO2 S). intros H. injection H as <- <-. reflexivity.
Qed.
End Unit.

(** ** A window of one excess is unit-free *)
Lemma w_single (p : peaks RNum) (y x : R) : peaks_size p = 1%Z -> rdcell (u_data (p_cont p)) 0 = Ret (Some y : num RNum) -> 0 < 1 + x * y ->
  grimshaw_w exact_math p (Some x : num RNum) = Ret (Some (/ (1 + x * y) * (1 + ln (1 + x * y)) - 1) : num RNum).
Proof.
  intros Sz D P. unfold grimshaw_w. rewrite Sz. cbv zeta. unfold for_lt. change (Z.to_nat 1) with 1%nat. cbn [for_from].
  rewrite D. cbn [bind]. cbn. rewrite Req_bool_false by lra. cbn. rewrite Rlt_bool_true by lra. cbn. rewrite !Req_bool_false by lra. cbn. do 2 f_equal. field. lra.
Qed.
Lemma w_single_neg s : 0 < s < 1 -> / s * (1 + ln s) - 1 < 0.
Proof.
  intros H. assert (L : ln s < s - 1).
  { assert (E : exp (ln s) = s) by (apply exp_ln; lra). assert (NZ : ln s <> 0) by (intros Z; rewrite Z, exp_0 in E; lra). pose proof (exp_ineq1 (ln s) NZ). lra. }
  assert (Hs : 0 < / s) by (apply Rinv_0_lt_compat; lra). assert (/ s * (1 + ln s) < / s * s) by (apply Rmult_lt_compat_l; lra).
  rewrite Rinv_l in H0 by lra. lra.
Qed.
Lemma loop_zero (f : num RNum -> res (num RNum)) (ep fa : num RNum) n tol :
  brent_loop f (Datatypes.S n) tol (MkBst (N := RNum) ep (Some 0) (Some 0) (nofZ 0) (nofZ 0) fa (Some 0) (Some 0)) = Ret (Some (Some 0)).
Proof.
  cbn [brent_loop].
  assert (RN : brent_rename (MkBst (N := RNum) ep (Some 0) (Some 0) (nofZ 0) (nofZ 0) fa (Some 0) (Some 0)) = MkBst (N := RNum) ep (Some 0) (Some 0) (nofZ 0) (nofZ 0) fa (Some 0) (Some 0)).
  { unfold brent_rename, same_sign, c_fabs. cbn. rewrite !(Rlt_bool_false 0 0) by lra. cbn. rewrite !(Rlt_bool_false 0 0) by lra. cbn. rewrite !(Rlt_bool_false 0 0) by lra. reflexivity. }
  rewrite RN. cbn [b_b b_c b_fb].
  replace (neq (Some 0 : num RNum) (nofZ 0 : num RNum)) with true by (cbn; rewrite Req_bool_true by reflexivity; reflexivity). rewrite orb_true_r. reflexivity.
Qed.
Lemma single_grimshaw (p : peaks RNum) (y : R) : peaks_size p = 1%Z -> rdcell (u_data (p_cont p)) 0 = Ret (Some y : num RNum) -> 0 < y ->
  p_e p = Some y -> p_min p = Some y -> p_max p = Some y ->
  grimshaw_estimator exact_math p = Ret (Some (- ln y - 1) : num RNum, Some 0 : num RNum, Some y : num RNum).
Proof.
  intros S D Py E Mn Mx.
  assert (EM : peaks_mean p = Some y). { unfold peaks_mean. rewrite S, E. cbn. rewrite Req_bool_false by lra. f_equal. field. }
  set (ep := if Rlt_bool (2 / 100000000) (1 / 2 / y) then 2 / 100000000 else 1 / 2 / y).
  assert (EP : xmin BRENT_DEFAULT_EPSILON (ndiv c_half (Some y : num RNum)) = (Some ep : num RNum)).
  { unfold xmin, BRENT_DEFAULT_EPSILON, c_half, is_nan. cbn. rewrite (Req_bool_false 100000000 0), (Req_bool_false 2 0) by lra. cbn. rewrite (Req_bool_false y 0) by lra. cbn. rewrite !Req_bool_true by reflexivity. cbn. unfold ep. destruct (Rlt_bool _ _); reflexivity. }
  assert (P2 : 0 < 1 / 2 / y) by (apply Rdiv_lt_0_compat; lra).
  assert (P1 : 0 < ep <= 1 / 2 / y). { unfold ep. destruct (Rlt_bool_spec (2 / 100000000) (1 / 2 / y)); lra. }
  assert (P3 : 0 < ep * y <= 1 / 2).
  { split; [apply Rmult_lt_0_compat; lra|]. replace (1 / 2) with (1 / 2 / y * y) by (field; lra). apply Rmult_le_compat_r; lra. }
  unfold grimshaw_estimator. rewrite EM, Mn, Mx, EP. cbv zeta. unfold brent at 1.
  replace (nadd (ndiv (nofZ (-1)) (Some y : num RNum)) (Some ep : num RNum)) with (Some (-1 / y + ep) : num RNum) by (cbn; rewrite Req_bool_false by lra; reflexivity).
  change (nopp (Some ep : num RNum)) with (Some (- ep) : num RNum).
  assert (A1 : 1 + (-1 / y + ep) * y = ep * y) by (field; lra). assert (A2 : 1 + - ep * y = 1 - ep * y) by ring.
  rewrite !(w_single p y _ S D) by lra. cbn [bind]. rewrite A1, A2.
  pose proof (w_single_neg (ep * y) ltac:(lra)) as N1. pose proof (w_single_neg (1 - ep * y) ltac:(lra)) as N2.
  match goal with |- context [same_sign ?u ?v] => replace (@same_sign RNum u v) with true end.
  2:{ unfold same_sign. cbn. rewrite (Rlt_bool_true _ 0 N1), (Rlt_bool_true _ 0 N2). rewrite orb_true_r. reflexivity. }
  cbn [bind]. unfold brent.
  replace (ndiv (nmul (nofZ 2) (nsub (Some y : num RNum) (Some y : num RNum))) (nmul (Some y : num RNum) (Some y : num RNum))) with (Some 0 : num RNum).
  2:{ cbn. rewrite Req_bool_false by (apply Rgt_not_eq, Rmult_lt_0_compat; exact Py). f_equal. field. lra. }
  rewrite !(w_single p y _ S D) by nra. cbn [bind].
  replace (/ (1 + 0 * y) * (1 + ln (1 + 0 * y)) - 1) with 0 by (rewrite Rmult_0_l, Rplus_0_r, ln_1; field).
  match goal with |- context [same_sign ?u ?v] => replace (@same_sign RNum u v) with false end.
  2:{ unfold same_sign. cbn. rewrite !(Rlt_bool_false 0 0) by lra. rewrite !andb_false_r. reflexivity. }
  change BRENT_ITMAX with (Datatypes.S 199). rewrite loop_zero. cbn [bind].
  unfold grimshaw_better. unfold grimshaw_simplified_log_likelihood.
  replace (neq (nofZ 0 : num RNum) (nofZ 0 : num RNum)) with true by (cbn; rewrite Req_bool_true by reflexivity; reflexivity).
  replace (neq (Some 0 : num RNum) (nofZ 0 : num RNum)) with true by (cbn; rewrite Req_bool_true by reflexivity; reflexivity). cbn [bind]. rewrite EM.
  assert (LL : log_likelihood exact_math p (nofZ 0 : num RNum) (Some y : num RNum) = Ret (Some (- ln y - 1) : num RNum)).
  { unfold log_likelihood. replace (neq (nofZ 0 : num RNum) (nofZ 0 : num RNum)) with true by (cbn; rewrite Req_bool_true by reflexivity; reflexivity).
    change (ubend_size (p_cont p)) with (peaks_size p). rewrite S, E. cbn. rewrite Rlt_bool_true by lra. cbn. rewrite Req_bool_false by lra. cbn. do 2 f_equal. field. lra. }
  rewrite LL. cbn [bind]. replace (nlt (Some (- ln y - 1) : num RNum) (Some (- ln y - 1) : num RNum)) with false by (cbn; rewrite Rlt_bool_false by lra; reflexivity). reflexivity.
Qed.
Lemma single_unit_free (c : R) (p : peaks RNum) (y : R) : 0 < c -> peaks_size p = 1%Z -> rdcell (u_data (p_cont p)) 0 = Ret (Some y : num RNum) -> 0 < y ->
  p_e p = Some y -> p_min p = Some y -> p_max p = Some y -> unit_free c p.
Proof.
  intros Pc S D Py E Mn Mx. unfold unit_free. rewrite (single_grimshaw p y S D Py E Mn Mx).
  rewrite (single_grimshaw (scale_window c p) (c * y)).
  - cbn [scale_estimate]. rewrite S. rewrite ln_mult by lra. cbn [scale]. do 4 f_equal. ring.
  - exact S.
  - cbn [scale_window p_cont u_data]. rewrite sc_rdcell, D. reflexivity.
  - apply Rmult_lt_0_compat; assumption.
  - cbn [scale_window p_e]. rewrite E. reflexivity.
  - cbn [scale_window p_min]. rewrite Mn. reflexivity.
  - cbn [scale_window p_max]. rewrite Mx. reflexivity.
Qed.

(** ** From initialisation *)
Lemma sd_init (c : R) old (q : num RNum) low discard (level : R) cap (s0 : spot RNum) :
  spot_init (N := RNum) old q low discard (Some level : num RNum) cap (fun _ => Some (repeat None (Z.to_nat cap))) = (s0, 0%Z) -> scale_detector c s0 = s0 /\ s_level s0 = (Some level : num RNum).
Proof.
  intros I. assert (E : s_level s0 = (Some level : num RNum)) by (apply init_fields in I as (_ & X & _); exact X). split; [|exact E].
  unfold spot_init in I. destruct (spot_check _ _) as [code|] eqn:C.
  { injection I as _ ->. unfold spot_check in C. destruct (_ || _)%bool; [discriminate|]. destruct (_ || _)%bool; discriminate. }
  cbn [tail_init peaks_init ubend_init Z.ltb Z.compare] in I. injection I as <-. unfold scale_detector, scale_window. cbn [s_q s_level s_discard s_low s_updown s_at s_et s_Nt s_n s_tail t_gamma t_sigma t_peaks p_e p_e2 p_min p_max p_cont u_cursor u_capacity u_last u_filled u_data].
  assert (MR : forall n, map (option_map (scale c)) (repeat (None : option (num RNum)) n) = repeat (None : option (num RNum)) n) by (induction n as [|n IH]; [reflexivity|cbn [repeat map option_map]; f_equal; exact IH]).
  rewrite !sc_c_nan, sc_zero, sc2_zero. f_equal. f_equal. f_equal. f_equal. apply MR.
Qed.
Lemma unit_session (c : R) old (q : num RNum) low discard (level : R) cap (s0 s' : spot RNum) cs l : 0 < c ->
  spot_init (N := RNum) old q low discard (Some level : num RNum) cap (fun _ => Some (repeat None (Z.to_nat cap))) = (s0, 0%Z) ->
  windows_unit_free c s0 cs -> Forall numbers_only cs ->
  session exact_math s0 cs = Ret (s', l) -> session exact_math s0 (map (scale_call c) cs) = Ret (scale_detector c s', scale_answers c cs l).
Proof.
  intros Pc I W NO H. destruct (sd_init c _ _ _ _ _ _ _ I) as (E & LV). rewrite <- E at 1. exact (sd_session c Pc cs s0 level s' l LV W NO H).
Qed.
Definition empty_window : peaks RNum := MkPeaks (nofZ 0) (nofZ 0) c_nan c_nan (MkUbend 0 2 c_nan 0 [None; None]).
Lemma push_single : exists p, peaks_push empty_window (Some 3 : num RNum) = Ret p /\ peaks_size p = 1%Z /\ rdcell (u_data (p_cont p)) 0 = Ret (Some 3 : num RNum) /\
  p_e p = Some 3 /\ p_min p = Some 3 /\ p_max p = Some 3.
Proof.
  assert (C : (c_nan : num RNum) = None) by (unfold c_nan; cbn; rewrite Req_bool_true by reflexivity; reflexivity).
  unfold peaks_push, empty_window. rewrite C. cbn. eexists. split; [reflexivity|]. cbn. repeat split; try reflexivity. f_equal. ring.
Qed.
Lemma demo_session_free (c : R) old (s0 : spot RNum) : 0 < c ->
  spot_init (N := RNum) old (Some (1 / 100) : num RNum) 0 1 (Some (1 / 4) : num RNum) 2 (fun _ => Some (repeat None (Z.to_nat 2))) = (s0, 0%Z) ->
  windows_unit_free c s0 [CFit (N := RNum) [Some 3]; CQuantile (N := RNum) (Some (1 / 100))].
Proof.
  intros Pc I. unfold spot_init in I. destruct (spot_check _ _) as [code|] eqn:C.
  { injection I as _ ->. unfold spot_check in C. destruct (_ || _)%bool; [discriminate|]. destruct (_ || _)%bool; discriminate. }
  cbn [tail_init peaks_init ubend_init Z.ltb Z.compare Z.eqb] in I. apply (f_equal fst) in I. cbn [fst] in I. 
  assert (P0 : t_peaks (s_tail s0) = empty_window) by (rewrite <- I; reflexivity). assert (UD : s_updown s0 = (Some 1 : num RNum)) by (rewrite <- I; reflexivity).
  clear I C. cbn [windows_unit_free]. unfold spot_fit. rewrite p2_quantile_short by (cbn; lia). cbn [bind].
  assert (NV : is_nan (nofZ 0 : num RNum) = false) by (unfold is_nan; cbn; rewrite Req_bool_true by reflexivity; reflexivity). rewrite NV.
  cbv zeta. cbn [fit_fill]. cbv zeta. cbn [with_et with_counts s_updown]. rewrite UD. replace (nmul (Some 1 : num RNum) (nsub (Some 3 : num RNum) (nofZ 0 : num RNum))) with (Some 3 : num RNum) by (cbn; f_equal; ring).
  replace (nlt (nofZ 0 : num RNum) (Some 3 : num RNum)) with true by (cbn; rewrite Rlt_bool_true by lra; reflexivity).
  cbv iota. cbn [s_tail]. unfold tail_push. match goal with |- context [peaks_push ?w (Some 3)] => change w with (t_peaks (s_tail s0)) end. rewrite P0. destruct push_single as (p & -> & Sz & D & E & Mn & Mx). cbn [bind].
  destruct (tail_fit _ _) as [[t ll]|] eqn:F; cbn [bind]; [|exact Logic.I]. apply tail_fit_peaks in F. cbn [s_tail with_tail t_peaks] in F.
  destruct (spot_quantile _ _ _) as [a|]; cbn [bind]; [|exact Logic.I].
  assert (U : unit_free c (t_peaks t)) by (rewrite F; apply (single_unit_free c p 3 Pc Sz D); try assumption; lra).
  destruct (is_nan a); split; try exact Logic.I; exact U.
Qed.
Lemma likelihood_defined (p : peaks RNum) (y : num RNum) g s : peaks_size p = 1%Z -> rdcell (u_data (p_cont p)) 0 = Ret y -> exists l, log_likelihood exact_math p g s = Ret l.
Proof.
  intros Sz D. unfold log_likelihood. destruct (neq g _); [eexists; reflexivity|]. change (ubend_size (p_cont p)) with (peaks_size p). rewrite Sz. unfold for_lt. change (Z.to_nat 1) with 1%nat.
  cbn [for_from]. rewrite D. cbn [bind]. eexists. reflexivity.
Qed.
Lemma quantile_defined (s : spot RNum) q : exists v, spot_quantile exact_math s q = Ret v.
Proof. unfold spot_quantile, tail_quantile. destruct (neq _ _); cbn [bind m_pow exact_math]; eexists; reflexivity. Qed.
Lemma demo_session_defined old (s0 : spot RNum) :
  spot_init (N := RNum) old (Some (1 / 100) : num RNum) 0 1 (Some (1 / 4) : num RNum) 2 (fun _ => Some (repeat None (Z.to_nat 2))) = (s0, 0%Z) ->
  exists s' l, session exact_math s0 [CFit (N := RNum) [Some 3]; CQuantile (N := RNum) (Some (1 / 100))] = Ret (s', l).
Proof.
  intros I. unfold spot_init in I. destruct (spot_check _ _) as [code|] eqn:C.
  { injection I as _ ->. unfold spot_check in C. destruct (_ || _)%bool; [discriminate|]. destruct (_ || _)%bool; discriminate. }
  cbn [tail_init peaks_init ubend_init Z.ltb Z.compare Z.eqb] in I. apply (f_equal fst) in I. cbn [fst] in I.
  assert (P0 : t_peaks (s_tail s0) = empty_window) by (rewrite <- I; reflexivity). assert (UD : s_updown s0 = (Some 1 : num RNum)) by (rewrite <- I; reflexivity).
  clear I C. cbn [session do_call]. unfold spot_fit. rewrite p2_quantile_short by (cbn; lia). cbn [bind].
  assert (NV : is_nan (nofZ 0 : num RNum) = false) by (unfold is_nan; cbn; rewrite Req_bool_true by reflexivity; reflexivity). rewrite NV.
  cbv zeta. cbn [fit_fill]. cbv zeta. cbn [with_et with_counts s_updown]. rewrite UD. replace (nmul (Some 1 : num RNum) (nsub (Some 3 : num RNum) (nofZ 0 : num RNum))) with (Some 3 : num RNum) by (cbn; f_equal; ring).
  replace (nlt (nofZ 0 : num RNum) (Some 3 : num RNum)) with true by (cbn; rewrite Rlt_bool_true by lra; reflexivity).
  cbv iota. cbn [s_tail]. unfold tail_push. match goal with |- context [peaks_push ?w (Some 3)] => change w with (t_peaks (s_tail s0)) end. rewrite P0.
  destruct push_single as (p & -> & Sz & D & E & Mn & Mx). cbn [bind].
  assert (TF : forall g s, exists t l, tail_fit exact_math (MkTail g s p) = Ret (t, l)).
  { intros g s. unfold tail_fit, ESTIMATORS. cbn [tail_fit_loop t_peaks]. unfold mom_estimator. destruct (likelihood_defined p _ (nmul c_half (nsub (nofZ 1) (ndiv (nmul (peaks_mean p) (peaks_mean p)) (peaks_var p))))
      (nmul (nmul c_half (peaks_mean p)) (nadd (nofZ 1) (ndiv (nmul (peaks_mean p) (peaks_mean p)) (peaks_var p)))) Sz D) as (l & L). rewrite L. cbn [bind].
    destruct (_ || _)%bool; cbn [t_peaks]; rewrite (single_grimshaw p 3 Sz D ltac:(lra) E Mn Mx); cbn [bind]; destruct (_ || _)%bool; do 2 eexists; reflexivity. }
  match goal with |- context [tail_fit exact_math ?w] => change w with (MkTail (t_gamma (s_tail s0)) (t_sigma (s_tail s0)) p) end.
  destruct (TF (t_gamma (s_tail s0)) (t_sigma (s_tail s0))) as (t & l & ->). cbn [bind].
  match goal with |- context [spot_quantile exact_math ?a ?b] => destruct (quantile_defined a b) as (v & ->) end. cbn [bind].
  destruct (is_nan v); cbn [bind]; match goal with |- context [spot_quantile exact_math ?a ?b] => destruct (quantile_defined a b) as (w & ->) end; cbn [bind]; do 2 eexists; reflexivity.
Qed.
