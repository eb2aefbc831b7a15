(** * Lemmas: thresholds after a step or a fit, collapse near a zero shape, witnesses (C54-C57) *)
From Coq Require Import ZArith List Bool Reals Lra Lia Psatz.
From Flocq Require Import Core.Core IEEE754.BinarySingleNaN.
From Verif Require Import Num XMath B64 B64Facts FloatErr LogAcc ExpAcc
  Ubend Session Peaks Brent Estimator Tail P2 Spot Spec CastLemmas CastDemo AccSpec PowAcc PowAcc2 PowAcc3 PowAcc4 PowAcc5 Demo.
Import ListNotations.
Open Scope R_scope.

(** ** The stored threshold is the quantile of the risk *)
Lemma step_threshold {N : NumOps} (mf : MathFns N) (s s' : spot N) x :
  spot_step mf s x = Ret (s', EXCESS) -> spot_quantile mf s' (s_q s') = Ret (s_at s').
Proof.
  unfold spot_step. destruct (is_nan x); [intros H; injection H as _ H; discriminate|].
  destruct (negb _ && _)%bool; [intros H; injection H as _ H; discriminate|].
  destruct (nle _ _); [|intros H; injection H as _ H; discriminate].
  destruct (tail_push _ _) as [t|]; [|discriminate]. cbn [bind]. destruct (tail_fit _ _) as [[t2 o]|]; [|discriminate]. cbn [bind].
  destruct (spot_quantile _ _ _) as [a|] eqn:E; [|discriminate]. cbn [bind]. intros H. injection H as <-. exact E.
Qed.
Lemma fit_threshold {N : NumOps} (mf : MathFns N) (s s' : spot N) l :
  spot_fit mf s l = Ret (s', 0%Z) -> spot_quantile mf s' (s_q s') = Ret (s_at s').
Proof.
  unfold spot_fit. destruct (p2_quantile _ _) as [e|]; [|discriminate]. cbn [bind].
  destruct (is_nan e); [intros H; injection H as _ H; discriminate|].
  destruct (fit_fill _ _ _) as [s1|]; [|discriminate]. cbn [bind]. destruct (tail_fit _ _) as [[t2 o]|]; [|discriminate]. cbn [bind].
  destruct (spot_quantile _ _ _) as [a|] eqn:E; [|discriminate]. cbn [bind].
  destruct (is_nan a); intros H; injection H as <-; [discriminate|exact E].
Qed.

Lemma threshold_accuracy (s s' : spot B64) et dir sigma gamma :
  (exists x, spot_step (c_math musl_utils) s x = Ret (s', EXCESS)) \/ (exists l, spot_fit (c_math musl_utils) s l = Ret (s', 0%Z)) ->
  finite_detector s' et dir sigma gamma -> finite64 (s_q s') = true -> usual_range s' et sigma gamma (B2R64 (s_q s')) ->
  let rho := relative_risk s' (B2R64 (s_q s')) in let ideal := et + dir * gpd_quantile gamma sigma rho in
  finite64 (s_at s') = true /\ Rabs (B2R64 (s_at s') - ideal) <= quantile_error gamma sigma rho + 2 / 10 ^ 16 * Rabs ideal + 1 / 10 ^ 58.
Proof.
  intros H FD Fq UR rho ideal. assert (E : spot_quantile (c_math musl_utils) s' (s_q s') = Ret (s_at s')).
  { destruct H as [(x & H)|(l & H)]; [exact (step_threshold _ _ _ _ H)|exact (fit_threshold _ _ _ _ H)]. }
  destruct (quantile_accuracy s' et dir sigma gamma (s_q s') FD Fq UR) as (v & Ev & Fv & Av). rewrite E in Ev. injection Ev as ->. auto.
Qed.

(** ** Loss of the excess for shapes near zero *)
Lemma gpd_quantile_low gamma sigma rho : gamma <> 0 -> 0 < sigma -> 0 < rho < 1 -> Rabs (gamma * ln rho) <= 1 / 100 ->
  99 / 100 * (sigma * - ln rho) <= gpd_quantile gamma sigma rho.
Proof.
  intros G S R H. unfold gpd_quantile. destruct (Req_EM_T gamma 0) as [X|_]; [contradiction|]. unfold Rpower.
  assert (L : ln rho < 0) by (rewrite <- ln_1; apply ln_increasing; lra). set (l := - ln rho) in *.
  replace (- gamma * ln rho) with (gamma * l) by (unfold l; ring). replace (gamma * ln rho) with (- (gamma * l)) in H by (unfold l; ring). rewrite Rabs_Ropp in H.
  assert (Pl : 0 < l) by (unfold l; lra).
  replace (99 / 100 * (sigma * l)) with (sigma * (99 / 100 * l)) by ring. unfold Rdiv at 2. rewrite Rmult_assoc. apply Rmult_le_compat_l; [lra|].
  apply Rabs_le_inv in H. destruct (Rlt_le_dec gamma 0) as [N|N].
  - set (t := - (gamma * l)). assert (T : 0 < t <= 1 / 100) by (unfold t; nra). replace (gamma * l) with (- t) by (unfold t; ring).
    assert (X : exp (- t) <= 1 - t + t * t).
    { rewrite exp_Ropp. pose proof (exp_ineq1_le t). apply Rle_trans with (/ (1 + t)); [apply Rinv_le; lra|].
      apply Rmult_le_reg_r with (1 + t); [lra|]. rewrite Rinv_l by lra. nra. }
    apply Rmult_le_reg_l with (- gamma); [lra|]. replace (- gamma * (/ gamma * (exp (- t) - 1))) with (1 - exp (- t)) by (field; lra).
    replace (- gamma * (99 / 100 * l)) with (99 / 100 * t) by (unfold t; ring). nra.
  - assert (P : 0 < gamma) by lra. apply Rmult_le_reg_l with gamma; [exact P|]. replace (gamma * (/ gamma * (exp (gamma * l) - 1))) with (exp (gamma * l) - 1) by (field; lra).
    pose proof (exp_ineq1_le (gamma * l)). nra.
Qed.

Lemma threshold_collapse (s : spot B64) et dir sigma gamma (q : b64) :
  finite_detector s et dir sigma gamma -> finite64 q = true -> / 10 ^ 30 <= sigma <= 10 ^ 30 -> / 10 ^ 200 <= Rabs gamma ->
  / 10 ^ 40 <= B2R64 q <= 1 -> relative_risk s (B2R64 q) < 1 ->
  Rabs gamma * (Rabs (ln (relative_risk s (B2R64 q))) + 1 / 10 ^ 3) <= 98 / 10 ^ 18 ->
  99 / 100 * (sigma * - ln (relative_risk s (B2R64 q))) <= gpd_quantile gamma sigma (relative_risk s (B2R64 q)) /\
  exists v : b64, spot_quantile (c_math musl_utils) s q = Ret v /\ finite64 v = true /\ B2R64 v = et.
Proof.
  intros FD Fq Hs Hg Hq Hr HL. split; [|exact (quantile_collapse s et dir sigma gamma q FD Fq Hs Hg Hq HL)].
  assert (0 < / 10 ^ 30) by (apply Rinv_0_lt_compat, pow_lt; lra). assert (0 < / 10 ^ 200) by (apply Rinv_0_lt_compat, pow_lt; lra).
  assert (0 < / 10 ^ 40) by (apply Rinv_0_lt_compat, pow_lt; lra).
  apply gpd_quantile_low.
  - intros ->. rewrite Rabs_R0 in Hg. lra.
  - lra.
  - split; [|exact Hr]. destruct FD as (_ & _ & _ & _ & _ & _ & _ & _ & HN & Hn). pose proof (counter_ratio _ _ HN Hn).
    unfold relative_risk. apply Rmult_lt_0_compat; [lra|]. apply Rinv_0_lt_compat. lra.
  - rewrite Rabs_mult. pose proof (Rabs_pos gamma). nra.
Qed.

(** ** A concrete detector: threshold 10, scale 2, 10 excesses among 640 observations (a frequency of 1/64) *)
Definition acc_demo (up : bool) (g : b64) : spot B64 :=
  MkSpot (N := B64) (dy 1 10) (dy 3 2) 1 (if up then 0 else 1)%Z (if up then d 1 else d (-1)) (d 20) (d 10) 10 640
    (MkTail (N := B64) g (d 2) (t_peaks (s_tail demo_up))).

Lemma double_of (x : b64) m e : B2SF x = SpecFloat.S754_finite false m e -> finite64 x = true /\ B2R64 x = IZR (Z.pos m) * bpow radix2 e.
Proof. intros H. split; [destruct x; try discriminate; reflexivity|]. rewrite (sf_value _ _ H). reflexivity. Qed.
Lemma half_value : finite64 (dy 1 1) = true /\ B2R64 (dy 1 1) = 1 / 2.
Proof. destruct (double_of (dy 1 1) 4503599627370496 (-53) eq_refl) as (F & E). split; [exact F|]. rewrite E. simpl. lra. Qed.
Lemma risk_value : finite64 (dy 1 10) = true /\ B2R64 (dy 1 10) = 1 / 1024.
Proof. destruct (double_of (dy 1 10) 4503599627370496 (-62) eq_refl) as (F & E). split; [exact F|]. rewrite E. simpl. lra. Qed.
Lemma tiny_value : finite64 (dy 1 60) = true /\ B2R64 (dy 1 60) = / 1152921504606846976.
Proof. destruct (double_of (dy 1 60) 4503599627370496 (-112) eq_refl) as (F & E). split; [exact F|]. rewrite E. simpl. lra. Qed.

Lemma ln_16 : 277 / 100 <= ln 16 <= 278 / 100.
Proof. replace 16 with (2 ^ 4) by lra. rewrite ln_pow by lra. pose proof ln2_sharp. simpl. lra. Qed.
Lemma demo_risk up g : relative_risk (acc_demo up g) (1 / 1024) = 1 / 16.
Proof. unfold relative_risk. cbn [s_Nt s_n acc_demo]. lra. Qed.
Lemma ln_16th : ln (1 / 16) = - ln 16.
Proof. replace (1 / 16) with (/ 16) by lra. apply ln_Rinv. lra. Qed.

Lemma acc_demo_finite up (g : b64) gamma : finite64 g = true -> B2R64 g = gamma ->
  finite_detector (acc_demo up g) 10 (if up then 1 else -1) 2 gamma.
Proof.
  intros F E. destruct (ofZ_exact 10 ltac:(lia)) as (F10 & E10). destruct (ofZ_exact 2 ltac:(lia)) as (F2 & E2).
  unfold finite_detector. cbn [s_et s_updown s_tail t_sigma t_gamma s_Nt s_n acc_demo].
  repeat split; try assumption; try lia; try lra. destruct up; [left|right]; auto.
Qed.

Lemma ten_pow_inv a b : (a <= b)%nat -> / 10 ^ b <= / 10 ^ a.
Proof. intros H. apply Rinv_le; [apply pow_lt; lra|apply Rle_pow; [lra|exact H]]. Qed.

Lemma acc_demo_usual up : usual_range (acc_demo up (dy 1 1)) 10 2 (1 / 2) (B2R64 (dy 1 10)).
Proof.
  destruct risk_value as (_ & ->). unfold usual_range. rewrite demo_risk, ln_16th. pose proof ln_16.
  assert (10 ^ 2 <= 10 ^ 200) by (apply Rle_pow; [lra|lia]). assert (10 ^ 1 <= 10 ^ 30) by (apply Rle_pow; [lra|lia]).
  assert (/ 10 ^ 30 <= / 10 ^ 5) by (apply ten_pow_inv; lia). assert (/ 10 ^ 40 <= / 10 ^ 5) by (apply ten_pow_inv; lia). assert (/ 10 ^ 20 <= / 10 ^ 5) by (apply ten_pow_inv; lia).
  rewrite (Rabs_pos_eq 10), (Rabs_pos_eq (1 / 2)) by lra. repeat split; try lra; try (apply Rabs_le; lra); right; split; lra.
Qed.
Lemma acc_demo_ideal : gpd_quantile (1 / 2) 2 (1 / 16) = 12.
Proof.
  unfold gpd_quantile. destruct (Req_EM_T (1 / 2) 0) as [X|_]; [lra|].
  assert (E : Rpower (1 / 16) (- (1 / 2)) = 4); [|rewrite E; lra]. unfold Rpower. rewrite ln_16th. replace 16 with (4 * 4) by lra. rewrite ln_mult by lra.
  replace (- (1 / 2) * - (ln 4 + ln 4)) with (ln 4) by lra. apply exp_ln. lra.
Qed.
Lemma acc_demo_probability : probability_range 10 (B2R64 (d 22)) 2 (1 / 2) 12.
Proof.
  destruct (ofZ_exact 22 ltac:(lia)) as (_ & E). change (d 22) with (b64_ofZ 22). rewrite E. unfold probability_range.
  assert (10 ^ 2 <= 10 ^ 200) by (apply Rle_pow; [lra|lia]). assert (10 ^ 1 <= 10 ^ 30) by (apply Rle_pow; [lra|lia]).
  assert (/ 10 ^ 30 <= / 10 ^ 5) by (apply ten_pow_inv; lia).
  replace (1 + 1 / 2 * 12 / 2) with 4 by lra. assert (L : ln 4 = ln 2 + ln 2) by (rewrite <- ln_mult by lra; f_equal; lra). rewrite L. pose proof ln2_sharp.
  rewrite (Rabs_pos_eq 10), (Rabs_pos_eq 22) by lra. repeat split; try lra. right. rewrite (Rabs_pos_eq (1 / 2)) by lra. repeat split; try lra. apply Rabs_le. lra.
Qed.
Lemma acc_demo_survival : gpd_survival (1 / 2) 2 12 = 1 / 16.
Proof.
  unfold gpd_survival. destruct (Req_EM_T (1 / 2) 0) as [X|_]; [lra|]. replace (1 + 1 / 2 * 12 / 2) with 4 by lra.
  unfold Rpower. replace (-1 / (1 / 2) * ln 4) with (- (ln 4 + ln 4)) by lra. rewrite exp_Ropp, exp_plus, exp_ln by lra. lra.
Qed.
Lemma acc_demo_tiny up : Rabs (/ 1152921504606846976) * (Rabs (ln (relative_risk (acc_demo up (dy 1 60)) (1 / 1024))) + 1 / 10 ^ 3) <= 98 / 10 ^ 18.
Proof. rewrite demo_risk, ln_16th, Rabs_Ropp. pose proof ln_16. rewrite !Rabs_pos_eq by lra. lra. Qed.
