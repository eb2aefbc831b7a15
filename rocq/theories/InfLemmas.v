(** * InfLemmas: proofs for C97 (an infinite excess in the window) *)
From Coq Require Import ZArith List Bool Reals Lia Lra Permutation.
From Flocq Require Import Core.Core IEEE754.BinarySingleNaN.
From Verif Require Import Num XMath Ubend Peaks Brent Estimator Tail P2 Spot Session B64 Spec NumFacts UbendFacts PeaksFacts B64Facts SpotFacts SpotB64
  DetectorLemmas WindowLemmas FitEffect HistoryLemmas CastLemmas LogAcc LogMono RefitLemmas.
Import ListNotations.
Open Scope Z_scope.

Notation nan := (B754_nan : b64).
Notation inf := (B754_infinity false : b64).
Lemma mulN_l (x : b64) : b64_mult nan x = nan. Proof. destruct x; reflexivity. Qed.
Lemma mulN_r (x : b64) : b64_mult x nan = nan. Proof. destruct x; reflexivity. Qed.
Lemma addN_r (x : b64) : b64_plus x nan = nan. Proof. destruct x; reflexivity. Qed.
Lemma addN_l (x : b64) : b64_plus nan x = nan. Proof. destruct x; reflexivity. Qed.
Lemma subN_r (x : b64) : b64_minus x nan = nan. Proof. destruct x; reflexivity. Qed.
Lemma divN_l (x : b64) : b64_div nan x = nan. Proof. destruct x; reflexivity. Qed.
Lemma divN_r (x : b64) : b64_div x nan = nan. Proof. destruct x; reflexivity. Qed.

Definition bad (e : b64) : Prop := e = inf \/ e = nan.
Definition pos (x : b64) : Prop := b64_leb (b64_ofZ 0) x = true.
Lemma bad_add e x : bad e -> pos x -> bad (b64_plus e x).
Proof. intros [-> | ->] P; [|right; destruct x; reflexivity]. left. destruct x as [| [|]| |[|]]; try discriminate P; reflexivity. Qed.
Lemma bad_new e : bad (b64_plus e inf).
Proof. destruct e as [| [|]| |]; (left; reflexivity) || (right; reflexivity). Qed.
Lemma bad_sub e x : bad e -> pos x -> bad (b64_minus e x).
Proof. intros [-> | ->] P; [|right; destruct x; reflexivity]. destruct x as [| [|]| |[|]]; try discriminate P; (left; reflexivity) || (right; reflexivity). Qed.
Lemma inf_div n : 1 <= n < 2 ^ 64 -> b64_div inf (b64_ofZ n) = inf.
Proof.
  intros H. destruct (ofZ_counter n H) as (F & _ & P & _). destruct (b64_ofZ n) as [[|]| | |[|] m ex pf]; try discriminate F; cbn [B2R] in P; try (exfalso; lra).
  - exfalso. assert (F2R (Float radix2 (cond_Zopp true (Zpos m)) ex) < 0)%R by (apply F2R_lt_0; reflexivity). lra.
  - reflexivity.
Qed.
Lemma bad_div e n : bad e -> 1 <= n < 2 ^ 64 -> bad (b64_div e (b64_ofZ n)).
Proof.
  intros B H. destruct (ofZ_counter n H) as (F & _ & P & _). destruct (b64_ofZ n) as [[|]| | |[|] m ex pf]; try discriminate F; cbn [B2R] in P; try (exfalso; lra).
  - exfalso. assert (F2R (Float radix2 (cond_Zopp true (Zpos m)) ex) < 0)%R by (apply F2R_lt_0; reflexivity). lra.
  - destruct B as [-> | ->]; [left|right]; reflexivity.
Qed.

(** ** The sum of a window with an infinite excess *)
Lemma fold_bad : forall w (a : stats (N := B64)), (forall y, In y w -> pos y) -> bad (fst (fst (fst a))) \/ In inf w ->
  bad (fst (fst (fst (fold_left (stats_turn (N := B64)) w a)))).
Proof.
  induction w as [|y w IH]; intros a P H; cbn [fold_left]; [destruct H as [H|[]]; exact H|].
  apply IH; [intros z Z; apply P; right; exact Z|]. destruct a as [[[e e2] mn] mx]. cbn [stats_turn fst] in *.
  destruct H as [H|[->|H]]; [left; apply bad_add; [exact H|apply P; left; reflexivity]|left; apply bad_new|right; exact H].
Qed.
Definition inf_inv (cap : Z) (p : peaks B64) (l : list b64) : Prop :=
  rep cap (p_cont p) l /\ (forall y, In y l -> pos y) /\ (In inf l -> bad (p_e p)).
Lemma hd_in {A} (x : A) l : l = [] \/ In (hd x l) l.
Proof. destruct l; [left|right; left]; reflexivity. Qed.
Lemma inf_push cap p l x p' : inf_inv cap p l -> pos x -> peaks_push (N := B64) p x = Ret p' -> inf_inv cap p' (qpush cap l x).
Proof.
  intros (R & P & B) X E. destruct (peaks_push_eq cap p l x R) as (c & w & EQ). cbv zeta in EQ. destruct EQ as (_ & R' & _ & W & _ & E').
  rewrite E in E'. clear E.
  assert (PQ : forall y, In y (qpush cap l x) -> pos y).
  { intros y Y. unfold qpush in Y. destruct (_ <? _); apply in_app_or in Y as [Y|[<-|[]]]; try exact X; apply P; [exact Y|destruct l; [destruct Y|right; exact Y]]. }
  assert (BX : In inf (qpush cap l x) -> bad (b64_plus (p_e p) x)).
  { intros Y. assert (In inf l \/ x = inf) as [Y1| ->]; [|apply bad_add; [exact (B Y1)|exact X]|apply bad_new].
    unfold qpush in Y. destruct (_ <? _); apply in_app_or in Y as [Y|[Y|[]]]; auto. left. destruct l; [destruct Y|right; exact Y]. }
  assert (E2 : exists er : b64, (@is_nan B64 er = false -> pos er) /\ p' = (if @is_nan B64 er then MkPeaks (N := B64) (b64_plus (p_e p) x) (nadd (p_e2 p) (nmul (x : num B64) x)) (push_mn p (Z.of_nat (length w)) x) (push_mx p (Z.of_nat (length w)) x) c
      else if (b64_leb er (push_mn p (Z.of_nat (length w)) x) || b64_leb (push_mx p (Z.of_nat (length w)) x) er)%bool then set_stats (stats_of w) c
      else MkPeaks (N := B64) (b64_minus (b64_plus (p_e p) x) er) (nsub (nadd (p_e2 p) (nmul (x : num B64) x)) (nmul (er : num B64) er)) (push_mn p (Z.of_nat (length w)) x) (push_mx p (Z.of_nat (length w)) x) c)).
  { exists (if Z.of_nat (length l) <? cap then @c_nan B64 else hd x l). split.
    - destruct (_ <? _); [discriminate|]. intros _. destruct l as [|y l]; [exact X|apply P; left; reflexivity].
    - assert (RI : forall a b : peaks B64, Ret a = Ret b -> a = b) by (intros a b H; injection H; auto). apply RI. exact E'. }
  clear E'. destruct E2 as (er & PE & ->). destruct (@is_nan B64 er).
  - split; [exact R'|]. split; [exact PQ|exact BX].
  - specialize (PE eq_refl). destruct (_ || _)%bool.
    + unfold set_stats. destruct (stats_of w) as [[[e e2] mn] mx] eqn:S. split; [exact R'|]. split; [exact PQ|]. cbn [p_e]. intros Y.
      pose proof (fold_bad w (nofZ 0, nofZ 0, c_nan, c_nan) (fun y Y => PQ y (Permutation_in y W Y)) (or_intror (Permutation_in inf (Permutation_sym W) Y))) as F.
      change (fold_left stats_turn w (nofZ 0, nofZ 0, c_nan, c_nan)) with (stats_of (N := B64) w) in F. rewrite S in F. exact F.
    + split; [exact R'|]. split; [exact PQ|]. cbn [p_e]. intros Y. apply bad_sub; [exact (BX Y)|exact PE].
Qed.
Lemma inf_pushes cap : forall hist p l p', inf_inv cap p l -> (forall y, In y hist -> pos y) -> peaks_pushes (N := B64) p hist = Ret p' ->
  exists l', inf_inv cap p' l'.
Proof.
  induction hist as [|x hist IH]; intros p l p' I P E; cbn [peaks_pushes] in E; [injection E as <-; eauto|].
  destruct (peaks_push p x) as [p1|] eqn:E1; cbn [bind] in E; [|discriminate E].
  apply (IH p1 (qpush cap l x) p' (inf_push cap p l x p1 I (P x (or_introl eq_refl)) E1) (fun y Y => P y (or_intror Y)) E).
Qed.
Lemma inf_detector mf q low discard level cap (s : spot B64) : detector mf q low discard level cap s -> exists l, inf_inv cap (t_peaks (s_tail s)) l.
Proof.
  intros D. destruct (history_lemma _ _ _ _ _ _ _ D) as (blk & hist & HB & HP & HN).
  assert (C : 1 <= cap < 2 ^ 61) by (destruct D as (? & ? & ? & ? & ? & C & _); exact C).
  apply (inf_pushes cap hist (fst (peaks_init (Some blk) cap)) [] _); [|intros y Y; apply (HN y Y)|exact HP].
  split; [exact (rep_init (N := B64) cap blk C HB)|]. split; intros; contradiction.
Qed.

(** ** The fit *)
Section Fit.
Variable fu : FloatUtils B64.
Let mf := c_math fu.
Lemma log_nan : m_log mf nan = nan.
Proof. apply (xlog_nan_or_negative fu nan). left. reflexivity. Qed.
Lemma fold_nan (f : b64 -> b64) : forall w, fold_left (fun r v => b64_plus r (f v)) w nan = nan.
Proof. induction w as [|v w IH]; [reflexivity|]. cbn [fold_left]. rewrite addN_l. exact IH. Qed.
Lemma ll_nan cap (p : peaks B64) l : rep cap (p_cont p) l -> log_likelihood mf p nan nan = Ret nan.
Proof.
  intros R. destruct (prep_exists cap p l R) as (w & W). rewrite (log_likelihood_eq mf cap p l w nan nan W). f_equal. unfold log_likelihood_of.
  change (@neq B64 nan (nofZ 0)) with false. cbv iota. rewrite log_nan. change (@nmul B64) with b64_mult. rewrite mulN_r.
  exact (fold_nan (fun v => b64_mult (b64_opp (b64_plus (b64_ofZ 1) (b64_div (b64_ofZ 1) nan))) (xlog (N := B64) fu (b64_plus (b64_ofZ 1) (b64_mult (b64_div nan nan) v)))) w).
Qed.
Lemma bad_mom cap (p : peaks B64) l : rep cap (p_cont p) l -> bad (p_e p) -> 1 <= peaks_size p < 2 ^ 64 -> mom_estimator mf p = Ret (nan, nan, nan).
Proof.
  intros R B S. unfold mom_estimator. cbv zeta. assert (M : bad (peaks_mean p)) by (apply bad_div; assumption).
  assert (V : b64_div (b64_mult (peaks_mean p) (peaks_mean p)) (peaks_var p) = nan).
  { unfold peaks_var. cbv zeta. fold (peaks_mean p). destruct M as [-> | ->].
    - change (@nsub B64) with b64_minus. change (@nmul B64) with b64_mult. change (b64_mult inf inf) with inf. destruct (ndiv (p_e2 p) _) as [| [|]| |]; reflexivity.
    - change (b64_mult nan nan) with nan. apply divN_l. }
  change (@nmul B64) with b64_mult. change (@ndiv B64) with b64_div. change (@nsub B64) with b64_minus. change (@nadd B64) with b64_plus.
  rewrite V. rewrite subN_r, addN_r, !mulN_r. rewrite (ll_nan cap p l R). reflexivity.
Qed.
Lemma better_nan cap (p : peaks B64) l (g s : num B64) c : rep cap (p_cont p) l -> grimshaw_better mf p ((nan : num B64), g, s) c = Ret ((nan : num B64), g, s).
Proof.
  intros R. unfold grimshaw_better. destruct c as [[|] root]; [|reflexivity]. destruct (gsll_total mf cap p l root R) as ([[ll g'] s'] & ->). cbn [bind].
  assert (@nlt B64 nan ll = false) as -> by (destruct ll; reflexivity). reflexivity.
Qed.
Lemma bad_grimshaw cap (p : peaks B64) l : rep cap (p_cont p) l -> bad (p_e p) -> 1 <= peaks_size p < 2 ^ 64 ->
  grimshaw_estimator mf p = Ret ((nan : num B64), nofZ 0, peaks_mean p).
Proof.
  intros R B S. unfold grimshaw_estimator. cbv zeta. destruct (prep_exists cap p l R) as (w & W).
  assert (F : forall x, exists y, grimshaw_w mf p x = Ret y) by (intros x; rewrite (grimshaw_w_eq mf cap p l w x W); eauto).
  match goal with |- context [brent (grimshaw_w mf p) ?a ?b ?t] => destruct (brent_total _ F a b t) as [r1 ->] end. cbn [bind].
  match goal with |- context [brent (grimshaw_w mf p) ?a ?b ?t] => destruct (brent_total _ F a b t) as [r2 ->] end. cbn [bind].
  assert (G : grimshaw_simplified_log_likelihood mf (nofZ 0) p = Ret ((nan : num B64), nofZ 0, peaks_mean p)).
  { unfold grimshaw_simplified_log_likelihood. change (@neq B64 (nofZ 0) (nofZ 0)) with true. cbn [bind].
    rewrite (log_likelihood_eq mf cap p l w _ _ W). unfold log_likelihood_of. change (@neq B64 (nofZ 0) (nofZ 0)) with true. cbv iota. cbn [bind].
    assert (Q : b64_div (p_e p) (peaks_mean p) = nan).
    { assert (M : bad (peaks_mean p)) by (apply bad_div; assumption). destruct B as [-> | ->], M as [-> | ->]; reflexivity. }
    change (@ndiv B64) with b64_div. rewrite Q. change (@nsub B64) with b64_minus. rewrite subN_r. reflexivity. }
  rewrite G. cbn [bind]. rewrite (better_nan cap p l _ _ r1 R). cbn [bind]. exact (better_nan cap p l _ _ r2 R).
Qed.
Lemma bad_fit cap (t t' : tail B64) ll l : rep cap (p_cont (t_peaks t)) l -> bad (p_e (t_peaks t)) -> 1 <= peaks_size (t_peaks t) < 2 ^ 64 ->
  tail_fit mf t = Ret (t', ll) -> t' = MkTail (b64_ofZ 0 : num B64) (peaks_mean (t_peaks t)) (t_peaks t).
Proof.
  intros R B S. unfold tail_fit, ESTIMATORS. cbn [tail_fit_loop]. rewrite (bad_mom cap _ l R B S). cbn [bind]. change (@is_nan B64 c_nan) with true. cbn [orb t_peaks].
  rewrite (bad_grimshaw cap _ l R B S). cbn [bind]. change (@is_nan B64 nan) with true. cbn [orb]. intros H. injection H as <- _. reflexivity.
Qed.
End Fit.

(** ** The threshold *)
Definition ratio (s : spot B64) : b64 := b64_div (s_q s) (b64_div (b64_ofZ (s_Nt s)) (b64_ofZ (s_n s))).
Definition bad_state fu (s' : spot B64) : Prop :=
  t_gamma (s_tail s') = b64_ofZ 0 /\ t_sigma (s_tail s') = peaks_mean (t_peaks (s_tail s')) /\ bad (t_sigma (s_tail s')) /\
  s_at s' = b64_plus (s_et s') (b64_mult (s_updown s') (b64_mult (b64_opp (t_sigma (s_tail s'))) (xlog (N := B64) fu (ratio s')))).
Lemma bad_refit fu q low discard level cap (s s' : spot B64) :
  detector (c_math fu) q low discard level cap s -> refit (c_math fu) s s' -> bad (p_e (t_peaks (s_tail s'))) -> oldest_first (window s') <> [] ->
  bad_state fu s'.
Proof.
  intros D RF B NE. pose proof (refit_detector _ _ _ _ _ _ _ _ D RF) as D'.
  assert (C : 1 <= cap < 2 ^ 61) by (destruct D as (? & ? & ? & ? & ? & C & _); exact C).
  destruct (inf_detector _ _ _ _ _ _ _ D') as (l & R & _). unfold window in NE. rewrite (rep_oldest_first cap _ _ R) in NE.
  destruct (refit_tail _ _ _ RF) as (g0 & s0 & ll & TF & Q).
  assert (SZ : 1 <= peaks_size (t_peaks (s_tail s')) < 2 ^ 64).
  { destruct (prep_exists (N := B64) cap _ l R) as (w & _ & _ & PM & S). unfold peaks_size. rewrite S. rewrite (Permutation_length PM).
    pose proof (rep_length cap _ _ R) as LE. change (num B64) with b64 in *. destruct l as [|z l]; [exfalso; apply NE; reflexivity|]. cbn [length] in *. lia. }
  pose proof (bad_fit fu cap _ _ _ l R B SZ TF) as T. cbn [t_peaks] in T.
  assert (M : bad (peaks_mean (t_peaks (s_tail s')))) by (apply bad_div; assumption).
  assert (G : t_gamma (s_tail s') = b64_ofZ 0) by (rewrite T; reflexivity).
  assert (SG : t_sigma (s_tail s') = peaks_mean (t_peaks (s_tail s'))) by (rewrite T at 1; reflexivity).
  split; [exact G|]. split; [exact SG|]. split; [rewrite SG; exact M|].
  unfold spot_quantile, tail_quantile in Q. cbv zeta in Q. rewrite G in Q. change (@neq B64 (b64_ofZ 0) (nofZ 0)) with true in Q. cbn [bind] in Q.
  injection Q as Q. symmetry. exact Q.
Qed.
Lemma inf_refit fu q low discard level cap (s s' : spot B64) :
  detector (c_math fu) q low discard level cap s -> refit (c_math fu) s s' -> In (Some inf) (oldest_first (window s')) -> bad_state fu s'.
Proof.
  intros D RF I. pose proof (refit_detector _ _ _ _ _ _ _ _ D RF) as D'. apply (bad_refit _ _ _ _ _ _ _ _ D RF); [|intros E; rewrite E in I; destruct I].
  destruct (inf_detector _ _ _ _ _ _ _ D') as (l & R & P & B). unfold window in I. rewrite (rep_oldest_first cap _ _ R) in I.
  apply in_map_iff in I as (y & E & I). injection E as ->. exact (B I).
Qed.
Lemma bad_not_finite fu low (s' : spot B64) : sided low s' -> bad_state fu s' -> is_finite (s_at s' : b64) = false.
Proof.
  intros SD (_ & _ & S & A). rewrite A. set (L := xlog fu _) in *. clearbody L. set (et := s_et s' : b64) in *. clearbody et.
  assert (U : s_updown s' = b64_ofZ 1 \/ s_updown s' = b64_ofZ (-1)) by (destruct SD as [(_ & U)|(_ & U)]; auto).
  destruct U as [-> | ->], S as [-> | ->], L as [[|]|[|]| |[|]], et as [[|]|[|]| |[|]]; reflexivity.
Qed.
Lemma not_finite fu q low discard level cap (s s' : spot B64) :
  detector (c_math fu) q low discard level cap s -> refit (c_math fu) s s' -> In (Some inf) (oldest_first (window s')) ->
  t_gamma (s_tail s') = b64_ofZ 0 /\ (t_sigma (s_tail s') = inf \/ t_sigma (s_tail s') = nan) /\ is_finite (s_at s' : b64) = false.
Proof.
  intros D RF I. pose proof (inf_refit _ _ _ _ _ _ _ _ D RF I) as B. pose proof B as (G & _ & S & _). split; [exact G|]. split; [exact S|].
  exact (bad_not_finite fu low s' (detector_sided _ _ _ _ _ _ _ (refit_detector _ _ _ _ _ _ _ _ D RF)) B).
Qed.

(** ** The logarithm of a ratio below one *)
Definition not_pos (L : b64) : Prop := b64_ltb (b64_ofZ 0) L = false.
Lemma log_below_one (r : b64) : b64_leb r (b64_ofZ 1) = true -> not_pos (xlog (N := B64) musl_utils r).
Proof.
  intros H. unfold not_pos. destruct (b64_ltb r (b64_ofZ 0)) eqn:L0; [rewrite xlog_nan_or_negative by (right; exact L0); reflexivity|].
  destruct (finite64 r) eqn:F.
  - destruct (Req_dec (B2R64 r) 0) as [Z|Z].
    { destruct r as [sg|sg| |sg m e X]; try discriminate; [rewrite xlog_zero; reflexivity|].
      exfalso. apply (F2R_neq_0 radix2) in Z; [assumption|]. destruct sg; discriminate. }
    assert (NR : nan64 r = false) by (apply finite_not_nan; exact F). destruct (ofZ_exact 1 ltac:(lia)) as (F1 & E1).
    assert (P : (0 < B2R64 r)%R) by (rewrite ltb_xval, xval_zero, xval_finite in L0 by (assumption || reflexivity); apply Rlt_bool_false_inv in L0; lra).
    assert (Q : (B2R64 r <= 1)%R).
    { rewrite leb_xval, !xval_finite in H by (assumption || apply finite_not_nan; assumption). rewrite E1 in H. revert H. case Rle_bool_spec; [intros; assumption|discriminate]. }
    destruct (xlog_accuracy r F P) as (FL & _).
    assert (X : (xval (xlog (N := B64) musl_utils r) <= 0)%R).
    { rewrite <- xlog_one. apply xlog_order; try assumption; rewrite ?E1; try exact Q. right.
      assert (bpow radix2 (-48) < 1 / 2)%R by (change (1 / 2)%R with (1 * / 2)%R; rewrite Rmult_1_l; change (/ 2)%R with (bpow radix2 (-1)); apply bpow_lt; lia).
      destruct (Rle_dec (bpow radix2 (-48)) (B2R64 r)); [left; lra|right; lra]. }
    rewrite ltb_xval by (reflexivity || apply finite_not_nan; assumption). rewrite xval_zero. apply Rlt_bool_false. exact X.
  - destruct r as [sg|[|]| |sg m e X]; try discriminate.
Qed.
Lemma blind fu low (s' : spot B64) y : sided low s' -> bad_state fu s' -> not_pos (xlog (N := B64) fu (ratio s')) -> beyond low (s_at s') y = false.
Proof.
  intros SD (_ & _ & S & A) N. rewrite A. revert N.
  set (L := xlog fu _). clearbody L. set (et := s_et s' : b64). clearbody et. unfold beyond, not_pos.
  destruct SD as [(-> & ->)|(NL & ->)]; [change (0 =? 0) with true|rewrite (proj2 (Z.eqb_neq low 0) NL)]; cbv iota;
  destruct S as [-> | ->], L as [[|]|[|]| |[|]], et as [[|]|[|]| |[|]]; try discriminate; destruct y as [[|]|[|]| |[|]]; reflexivity.
Qed.
Lemma no_anomaly mf q low discard level cap (s s' : spot B64) y a : detector mf q low discard level cap s ->
  (forall y, beyond low (s_at s) y = false) -> spot_step mf s y = Ret (s', a) -> a <> ANOMALY.
Proof.
  intros D B E ->.
  assert (NY : is_NaN y = false).
  { apply step_inv in E. destruct E as [? ? X|X ? ? ? ?|? ? ? ? X|? ? ? ? ? ? ? ? ? ? ? X]; try discriminate X. rewrite is_nan_b64 in X. destruct y; try discriminate X; reflexivity. }
  destruct (C07_lemma _ _ _ _ _ _ _ y D NY) as (_ & H). destruct (H _ E) as (_ & BY & _). rewrite B in BY. discriminate BY.
Qed.
Lemma blind_steps q low discard level cap : forall ys (s s' : spot B64) l,
  detector (c_math musl_utils) q low discard level cap s -> (forall y, beyond low (s_at s) y = false) ->
  (forall ys1 ys2 s1 l1, ys = ys1 ++ ys2 -> spot_steps (c_math musl_utils) s ys1 = Ret (s1, l1 ++ [EXCESS]) ->
    In (Some inf) (oldest_first (window s1)) /\ b64_leb (ratio s1) (b64_ofZ 1) = true) ->
  spot_steps (c_math musl_utils) s ys = Ret (s', l) -> ~ In ANOMALY l.
Proof.
  induction ys as [|y ys IH]; intros s s' l D B H; cbn [spot_steps]; [intros E; injection E as <- <-; intros []|].
  destruct (spot_step (c_math musl_utils) s y) as [[s1 r]|] eqn:E1; cbn [bind]; [|discriminate].
  destruct (spot_steps (c_math musl_utils) s1 ys) as [[s2 rs]|] eqn:E2; cbn [bind]; [|discriminate].
  intros E; injection E as <- <-. intros [-> |I]; [exact (no_anomaly _ _ _ _ _ _ _ _ _ _ D B E1 eq_refl)|]. revert I.
  assert (D1 : detector (c_math musl_utils) q low discard level cap s1).
  { eapply (detector_call _ _ _ _ _ _ _ (CStep y)); [exact D|]. cbn [do_call]. rewrite E1. reflexivity. }
  apply (IH s1 s2 rs D1).
  - assert (NA : r <> ANOMALY) by exact (no_anomaly _ _ _ _ _ _ _ _ _ _ D B E1).
    destruct (Z.eq_dec r EXCESS) as [-> |NE].
    + destruct (H [y] ys s1 [] eq_refl) as (IN & RT); [cbn [spot_steps]; rewrite E1; reflexivity|].
      intros z. apply (blind musl_utils); [exact (detector_sided _ _ _ _ _ _ _ D1)|apply (inf_refit _ q low discard level cap s); [exact D|left; exists y; exact E1|exact IN]|]. apply log_below_one. exact RT.
    + apply step_inv in E1. destruct E1 as [? -> ?|? ? ? ? ?|? ? ? -> ?|? ? ? ? ? ? ? ? ? ? ? ?]; [exact B|contradiction|exact B|contradiction].
  - intros ys1 ys2 s3 l1 Y E3. apply (H (y :: ys1) ys2 s3 (r :: l1)); [rewrite Y; reflexivity|]. cbn [spot_steps]. rewrite E1. cbn [bind]. rewrite E3. reflexivity.
  - exact E2.
Qed.
Lemma blind_stream q low discard level cap ys (s s' s2 : spot B64) l :
  detector (c_math musl_utils) q low discard level cap s -> refit (c_math musl_utils) s s' ->
  In (Some inf) (oldest_first (window s')) -> b64_leb (ratio s') (b64_ofZ 1) = true ->
  (forall ys1 ys2 s1 l1, ys = ys1 ++ ys2 -> spot_steps (c_math musl_utils) s' ys1 = Ret (s1, l1 ++ [EXCESS]) ->
    In (Some inf) (oldest_first (window s1)) /\ b64_leb (ratio s1) (b64_ofZ 1) = true) ->
  spot_steps (c_math musl_utils) s' ys = Ret (s2, l) -> ~ In ANOMALY l.
Proof.
  intros D RF I R. apply (blind_steps q low discard level cap); [exact (refit_detector _ _ _ _ _ _ _ _ D RF)|].
  intros z. apply (blind musl_utils); [exact (detector_sided _ _ _ _ _ _ _ (refit_detector _ _ _ _ _ _ _ _ D RF))|exact (inf_refit _ _ _ _ _ _ _ _ D RF I)|]. apply log_below_one. exact R.
Qed.

(** ** The same for a sum that overflows *)
Lemma sum_nonempty mf q low discard level cap (s : spot B64) : detector mf q low discard level cap s -> p_e (t_peaks (s_tail s)) = inf -> oldest_first (window s) <> [].
Proof.
  intros D E. destruct (history_lemma _ _ _ _ _ _ _ D) as (blk & hist & HB & HP & HN).
  assert (C : 1 <= cap < 2 ^ 61) by (destruct D as (? & ? & ? & ? & ? & C & _); exact C).
  destruct hist as [|x hist].
  { cbn [peaks_pushes] in HP. injection HP as HP. rewrite <- HP in E. unfold peaks_init in E. destruct (ubend_init (Some blk) cap) as [c r]. cbn [fst p_e] in E. discriminate E. }
  cbn [peaks_pushes] in HP. destruct (peaks_push _ x) as [p1|] eqn:E1; cbn [bind] in HP; [|discriminate HP].
  destruct (peaks_push_rep cap (fst (peaks_init (N := B64) (Some blk) cap)) [] x (rep_init (N := B64) cap blk C HB)) as (p2 & E2 & R2). rewrite E1 in E2. injection E2 as <-.
  assert (G : forall hist (p p' : peaks B64) l, l <> [] -> rep cap (p_cont p) l -> peaks_pushes (N := B64) p hist = Ret p' -> oldest_first (p_cont p') <> []).
  { clear. induction hist as [|x hist IH]; intros p p' l NE R H; cbn [peaks_pushes] in H.
    - injection H as <-. rewrite (rep_oldest_first cap _ _ R). destruct l; [contradiction|discriminate].
    - destruct (peaks_push_rep cap _ l x R) as (p2 & E2 & R2). rewrite E2 in H. cbn [bind] in H. apply (IH p2 p' (qpush cap l x)); try assumption.
      unfold qpush. destruct (_ <? _); [destruct l|destruct (tl l)]; discriminate. }
  apply (G hist p1 _ (qpush cap [] x)); try assumption. unfold qpush. destruct (_ <? _); discriminate.
Qed.
Lemma overflow q low discard level cap (s s' : spot B64) :
  detector (c_math musl_utils) q low discard level cap s -> refit (c_math musl_utils) s s' -> p_e (t_peaks (s_tail s')) = inf ->
  t_gamma (s_tail s') = b64_ofZ 0 /\ t_sigma (s_tail s') = inf /\ is_finite (s_at s' : b64) = false /\
  (b64_leb (ratio s') (b64_ofZ 1) = true -> forall y s'' a, spot_step (c_math musl_utils) s' y = Ret (s'', a) -> a <> ANOMALY).
Proof.
  intros D RF E. pose proof (refit_detector _ _ _ _ _ _ _ _ D RF) as D'. pose proof (detector_sided _ _ _ _ _ _ _ D') as SD.
  pose proof (sum_nonempty _ _ _ _ _ _ _ D' E) as NE.
  assert (B : bad_state musl_utils s') by (apply (bad_refit _ _ _ _ _ _ _ _ D RF); [left; exact E|exact NE]).
  pose proof B as (G & M & _). split; [exact G|]. split.
  { rewrite M. assert (C : 1 <= cap < 2 ^ 61) by (destruct D as (? & ? & ? & ? & ? & C & _); exact C).
    destruct (inf_detector _ _ _ _ _ _ _ D') as (l & R & _). unfold window in NE. rewrite (rep_oldest_first cap _ _ R) in NE.
    assert (SZ : 1 <= peaks_size (t_peaks (s_tail s')) < 2 ^ 64).
    { destruct (prep_exists (N := B64) cap _ l R) as (w & _ & _ & PM & S). unfold peaks_size. rewrite S. rewrite (Permutation_length PM).
      pose proof (rep_length cap _ _ R) as LE. change (num B64) with b64 in *. destruct l as [|z l]; [exfalso; apply NE; reflexivity|]. cbn [length] in *. lia. }
    unfold peaks_mean. rewrite E. exact (inf_div _ SZ). }
  split; [exact (bad_not_finite _ low s' SD B)|]. intros RT y s'' a. apply (no_anomaly _ q low discard level cap); [exact D'|].
  intros z. apply (blind musl_utils); [exact SD|exact B|]. apply log_below_one. exact RT.
Qed.
