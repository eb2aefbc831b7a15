(** * AdmissibleFit2: when the excesses are not tiny, the degenerate candidate of Grimshaw's method cannot be kept (C62) *)
From Coq Require Import ZArith List Bool Reals Lra Lia Psatz.
From Flocq Require Import Core.Core IEEE754.BinarySingleNaN.
From Verif Require Import Num NumFacts XMath Ubend UbendFacts Peaks PeaksFacts Brent BrentB64 Estimator Tail P2 Spot B64 B64Facts LogAcc Spec FitLemmas
  FloatErr SpotB64 P2B64 LogExact CastLemmas PowAcc PowAcc4 PowAcc5 TinyFit BrentBracket AdmissibleFit AdmissibleSize.
Import ListNotations.
Open Scope R_scope.

Notation cm := (c_math musl_utils : MathFns B64).

Lemma plus_le_l (a b : b64) : nan64 (b64_plus a b) = false -> xval b <= 0 -> xval (b64_plus a b) <= xval a.
Proof.
  intros N H. pose proof TOP_pos as T. destruct (finite64 a) eqn:Fa, (finite64 b) eqn:Fb.
  - destruct (plus_xval a b Fa Fb) as (_ & V). rewrite V, (xval_finite _ Fa). rewrite (xval_finite _ Fb) in H. apply fge. lra.
  - destruct b as [s|s| |s m e W]; try discriminate Fb; [|destruct a; discriminate N]. destruct s; [|cbn [xval] in H; lra].
    assert (E : b64_plus a (B754_infinity true) = B754_infinity true) by (destruct a; try discriminate Fa; reflexivity).
    rewrite E. pose proof (xval_bounds a). cbn [xval]. lra.
  - destruct a as [s|s| |s m e W]; try discriminate Fa; try discriminate N.
    assert (E : b64_plus (B754_infinity s) b = B754_infinity s) by (destruct b; try discriminate Fb; reflexivity). rewrite E. lra.
  - destruct a as [s|s| |s m e W]; try discriminate Fa; try discriminate N. destruct b as [r|r| |r n x Z]; try discriminate Fb; try discriminate N.
    destruct s, r; try discriminate N; cbn; lra.
Qed.
Lemma plus_le_r (a b : b64) : nan64 (b64_plus a b) = false -> xval a <= 0 -> xval (b64_plus a b) <= xval b.
Proof.
  intros N H. pose proof TOP_pos as T. destruct (finite64 a) eqn:Fa, (finite64 b) eqn:Fb.
  - destruct (plus_xval a b Fa Fb) as (_ & V). rewrite V, (xval_finite _ Fb). rewrite (xval_finite _ Fa) in H. apply fge. lra.
  - destruct b as [s|s| |s m e W]; try discriminate Fb; [|destruct a; discriminate N].
    assert (E : b64_plus a (B754_infinity s) = B754_infinity s) by (destruct a; try discriminate Fa; reflexivity). rewrite E. lra.
  - destruct a as [s|s| |s m e W]; try discriminate Fa; try discriminate N. destruct s; [|cbn [xval] in H; lra].
    assert (E : b64_plus (B754_infinity true) b = B754_infinity true) by (destruct b; try discriminate Fb; reflexivity).
    rewrite E. pose proof (xval_bounds b). cbn [xval]. lra.
  - destruct a as [s|s| |s m e W]; try discriminate Fa; try discriminate N. destruct b as [r|r| |r n x Z]; try discriminate Fb; try discriminate N.
    destruct s, r; try discriminate N; cbn; lra.
Qed.

(** a sum of non-positive terms is at most each of them *)
Lemma fold_le (f : b64 -> b64) (w : list b64) (r : b64) : xval r <= 0 -> (forall v, In v w -> xval (f v) <= 0) ->
  nan64 (fold_left (fun r v => b64_plus r (f v)) w r) = false ->
  xval (fold_left (fun r v => b64_plus r (f v)) w r) <= xval r /\
  (forall v, In v w -> xval (fold_left (fun r v => b64_plus r (f v)) w r) <= xval (f v)).
Proof.
  revert r. induction w as [|y w IH]; intros r Hr Hf N; cbn [fold_left] in *.
  - split; [lra|]. intros v [].
  - destruct (fold_nan f w _ N) as (N1 & _). assert (Hy : xval (f y) <= 0) by (apply Hf; left; reflexivity).
    pose proof (plus_le_l r (f y) N1 Hy) as A. pose proof (plus_le_r r (f y) N1 Hr) as B.
    destruct (IH (b64_plus r (f y))) as (I1 & I2); [lra|intros v Hv; apply Hf; right; exact Hv|exact N|].
    split; [lra|]. intros v [<-|Hv]; [lra|auto].
Qed.

Lemma log_le (s : b64) (z : R) : nan64 (xlog (N := B64) musl_utils s) = false -> xval s <= 1 - z -> 0 <= z <= 4 / 10 ->
  xval (xlog (N := B64) musl_utils s) <= - (98 / 100 * z).
Proof.
  intros N H Hz. destruct (log_domain s N) as [(F & P)|(b & ->)].
  2:{ destruct (xlog_special musl_utils (B754_zero b)) as (_ & _ & C & _). rewrite (C b eq_refl). cbn [xval]. pose proof TOP_pos as T.
      assert (1 < TOP). { destruct (ofZ_exact 1 ltac:(lia)) as (F1 & E1). rewrite <- E1. apply B2R_bounds. } lra. }
  rewrite (xval_finite _ F) in H. destruct (xlog_nonpos s F ltac:(lra)) as (Fl & Hl). rewrite (xval_finite _ Fl).
  destruct (xlog_accuracy s F P) as (_ & A & B & C).
  destruct (Req_dec (B2R64 s) 1) as [E|E]; [lra|].
  assert (L : ln (B2R64 s) < 0) by (rewrite <- ln_1; apply ln_increasing; lra).
  assert (L1 : ln (B2R64 s) <= - z). { pose proof (exp_ineq1_le (ln (B2R64 s))) as X. rewrite exp_ln in X by exact P. lra. }
  rewrite (Rabs_left _ L) in A, C.
  destruct (Rle_lt_dec (1 / 2) (B2R64 s)) as [D|D].
  - specialize (A ltac:(lra)). apply Rabs_le_inv in A. lra.
  - assert (L2 : ln (B2R64 s) <= - (69 / 100)).
    { apply Rle_trans with (ln (/ 2)); [apply ln_mono; lra|]. rewrite ln_Rinv by lra. pose proof ln2_bounds. lra. }
    destruct (Rle_lt_dec (1 / 4) (B2R64 s)) as [D2|D2].
    + specialize (B ltac:(lra)). apply Rabs_le_inv in B. lra.
    + specialize (C ltac:(lra)). apply Rabs_le_inv in C. lra.
Qed.

(** 1 + x*y on doubles, x <= 0 <= y *)
Lemma support_term (x y : b64) (E : R) : finite64 x = true -> finite64 y = true -> B2R64 x * B2R64 y <= - E -> 0 <= E <= 45 / 100 ->
  nan64 (xlog (N := B64) musl_utils (b64_plus (b64_ofZ 1) (b64_mult x y))) = false ->
  xval (b64_plus (b64_ofZ 1) (b64_mult x y)) <= 1 /\ xval (b64_plus (b64_ofZ 1) (b64_mult x y)) <= 1 - (99 / 100 * E - 112 / 10 ^ 18).
Proof.
  intros Fx Fy H HE NL. destruct (mult_xval x y Fx Fy) as (Nm & Vm). destruct (ofZ_exact 1 ltac:(lia)) as (F1 & E1).
  set (m := b64_mult x y) in *.
  assert (Fm : finite64 m = true).
  { destruct (log_domain _ NL) as [(F & _)|(z & E0)].
    - destruct m as [s|s| |s mm e W]; try reflexivity; [destruct s; discriminate F|discriminate F].
    - destruct m as [s|s| |s mm e W]; try reflexivity; [destruct s; discriminate E0|discriminate E0]. }
  rewrite (xval_finite _ Fm) in Vm. destruct (plus_xval _ _ F1 Fm) as (Np & Vp). rewrite E1 in Vp. rewrite Vp.
  assert (M0 : B2R64 m <= 0). { rewrite Vm, <- rndc_0. apply rndc_mono. lra. }
  split; [rewrite <- E1; apply fge; rewrite E1; lra|].
  assert (M1 : B2R64 m <= - (999 / 1000 * E) + / 10 ^ 59).
  { rewrite Vm. apply Rle_trans with (rndc (- E)); [apply rndc_mono; exact H|].
    assert (R : rndc (- E) = rnd (- E)). { pose proof (rnd_abs (- E)) as A. rewrite Rabs_Ropp, (Rabs_pos_eq E) in A by lra. apply clamp_id.
      apply Rle_trans with 1; [|destruct (ofZ_exact 1 ltac:(lia)) as (F1' & E1'); rewrite <- E1'; apply Rlt_le, B2R_bounds].
      pose proof inv59_le. apply Rabs_le_inv in A. apply Rabs_le. unfold eps in A. lra. }
    rewrite R. pose proof (rnd_abs (- E)) as A. rewrite Rabs_Ropp, (Rabs_pos_eq E) in A by lra. apply Rabs_le_inv in A. unfold eps in A. lra. }
  apply Rle_trans with (rndc (1 - 999 / 1000 * E + / 10 ^ 59)); [apply rndc_mono; lra|]. pose proof inv59_le as I. pose proof inv59_pos as I'.
  set (t := 1 - 999 / 1000 * E + / 10 ^ 59) in *. assert (Ht : 0 <= t <= 1 + / 10 ^ 59) by (unfold t; lra).
  pose proof (rnd_abs t) as A. rewrite (Rabs_pos_eq t) in A by lra.
  assert (R : rndc t = rnd t). { apply clamp_id. apply Rle_trans with 2; [|destruct (ofZ_exact 2 ltac:(lia)) as (F1' & E1'); rewrite <- E1'; apply Rlt_le, B2R_bounds].
    apply Rabs_le_inv in A. apply Rabs_le. unfold eps in A. lra. }
  rewrite R. apply Rabs_le_inv in A. unfold eps in A. unfold t in *. lra.
Qed.

Lemma zero_minus_one (v : b64) z : b64_minus v (b64_ofZ 1) = B754_zero z -> v = b64_ofZ 1.
Proof.
  intros E. destruct (ofZ_exact 1 ltac:(lia)) as (F1 & E1).
  assert (F : finite64 v = true). { destruct v as [s|s| |s m e W]; try reflexivity; discriminate E. }
  destruct (minus_sign v _ F F1) as (_ & _ & M). rewrite E, E1 in M. apply one_unique; [exact F|]. apply M. reflexivity.
Qed.
Lemma one_minus_one : b64_minus (b64_ofZ 1) (b64_ofZ 1) = B754_zero false.
Proof. apply B2SF_inj. vm_compute. reflexivity. Qed.

Lemma mult_sign (x y : b64) : nan64 (b64_mult x y) = false -> Bsign (b64_mult x y) = xorb (Bsign x) (Bsign y).
Proof.
  intros N. pose proof (Bmult_correct 53 1024 Hprec64 Hmax64 mode_NE x y) as C. change (Bmult mode_NE x y) with (b64_mult x y) in C.
  destruct (Rlt_bool _ _).
  - destruct C as (_ & _ & C). apply C. exact N.
  - destruct (b64_mult x y) as [s|s| |s m e W]; cbn in C; try discriminate C. injection C as ->. reflexivity.
Qed.

Section Large.
Variables (cap : Z) (p : peaks B64) (l w : list b64).
Hypothesis PR : prep cap p l w.
Let n := Z.of_nat (length w).
Let M := B2R64 (p_max p).
Let m := B2R64 (p_min p).
Hypothesis W0 : forall v, In v w -> b64_leb (b64_ofZ 0) v = true.
Hypothesis WM : forall v, In v w -> b64_leb v (p_max p) = true.
Hypothesis IM : In (p_max p : b64) w.
Hypothesis Hn : (n <= 2 ^ 50)%Z.
Hypothesis FM : finite64 (p_max p) = true.
Hypothesis HM : 2 / 10 ^ 8 * IZR n <= M <= 10 ^ 30.

Lemma n_range : (1 <= n <= 2 ^ 50)%Z.
Proof. split; [|exact Hn]. unfold n. destruct w; [destruct IM|cbn [length]; lia]. Qed.
Lemma n_real : 1 <= IZR n <= 1125899906842624.
Proof. pose proof n_range as (A & B). split; apply IZR_le; assumption. Qed.
Lemma M_low : 2 / 10 ^ 8 <= M.
Proof. pose proof n_real. lra. Qed.

(** half / max *)
Lemma half_over : finite64 (b64_div half64 (p_max p)) = true /\ Rabs (B2R64 (b64_div half64 (p_max p)) - / 2 / M) <= eps * (/ 2 / M) + / 10 ^ 59.
Proof.
  pose proof M_low as ML. destruct (div_xval half64 (p_max p) half64_fin FM ltac:(fold M; lra)) as (N & V). rewrite half64_val in V. fold M in V.
  replace (1 / 2 / M) with (/ 2 / M) in V by (field; lra).
  assert (I : 0 < / M) by (apply Rinv_0_lt_compat; lra). assert (I2 : / M <= 10 ^ 8). { apply Rle_trans with (/ (2 / 10 ^ 8)); [apply Rinv_le; lra|lra]. }
  assert (B : Rabs (/ 2 / M) = / 2 / M) by (apply Rabs_pos_eq; unfold Rdiv; nra).
  destruct (op_abs _ _ N V) as (F & _ & A).
  { rewrite B. apply Rle_trans with (10 ^ 8); [unfold Rdiv; nra|apply Rle_pow; [lra|lia]]. }
  rewrite B in A. split; [exact F|exact A].
Qed.
Lemma epsilon_range : finite64 (g_epsilon p) = true /\ 0 < B2R64 (g_epsilon p) <= 2 / 10 ^ 8 + / 10 ^ 20 /\ B2R64 (g_epsilon p) <= B2R64 (b64_div half64 (p_max p)) /\
  39 / 10 ^ 17 * IZR n <= B2R64 (g_epsilon p) * M.
Proof.
  pose proof M_low as ML. pose proof n_real as NR. destruct half_over as (Fh & Ah). destruct eps0_range as (F0 & H0).
  set (h := b64_div half64 (p_max p)) in *.
  assert (I : 0 < / M) by (apply Rinv_0_lt_compat; lra). assert (I2 : / 10 ^ 30 <= / M) by (apply Rinv_le; lra).
  assert (MI : / M * M = 1) by (apply Rinv_l; lra).
  assert (I59 : / 10 ^ 59 <= / 10 ^ 20 * / 10 ^ 30) by lra.
  apply Rabs_le_inv in Ah. unfold Rdiv in Ah. assert (Hh : 499 / 1000 * / M <= B2R64 h) by (unfold eps in Ah; lra).
  unfold g_epsilon. fold h. fold eps0. unfold xmin. rewrite (is_nan_b64 eps0), (is_nan_b64 h), (finite_not_nan _ F0), (finite_not_nan _ Fh). cbn [orb].
  change (nlt (n := B64) eps0 h) with (b64_ltb eps0 h). rewrite ltb_xval by (apply finite_not_nan; assumption). rewrite (xval_finite _ F0), (xval_finite _ Fh).
  case Rlt_bool_spec; intros C.
  - split; [exact F0|]. split; [lra|]. split; [lra|]. nra.
  - split; [exact Fh|]. split; [split; [|lra]|].
    + assert (0 < 499 / 1000 * / M) by lra. lra.
    + split; [lra|]. apply Rle_trans with (499 / 1000 * / M * M); [rewrite Rmult_assoc, MI; lra|]. apply Rmult_le_compat_r; lra.
Qed.

Lemma left_lo_range : finite64 (left_lo p) = true /\ - 10 ^ 199 <= B2R64 (left_lo p) <= - (99 / 100 * B2R64 (g_epsilon p)).
Proof.
  pose proof M_low as ML. destruct half_over as (Fh & Ah). destruct epsilon_range as (F & P & L & _).
  set (h := B2R64 (b64_div half64 (p_max p))) in *. set (e := B2R64 (g_epsilon p)) in *.
  assert (I : 0 < / M) by (apply Rinv_0_lt_compat; lra). assert (I1 : / 10 ^ 30 <= / M) by (apply Rinv_le; lra).
  assert (I2 : / M <= 10 ^ 8). { apply Rle_trans with (/ (2 / 10 ^ 8)); [apply Rinv_le; lra|lra]. }
  assert (I59 : / 10 ^ 59 <= / 10 ^ 20 * / 10 ^ 30) by lra.
  apply Rabs_le_inv in Ah. unfold Rdiv in Ah.
  destruct (ofZ_exact (-1) ltac:(lia)) as (F1 & E1). destruct (div_xval _ (p_max p) F1 FM ltac:(fold M; lra)) as (Nq & Vq). rewrite E1 in Vq. fold M in Vq.
  assert (Bq : Rabs (-1 / M) = / M). { replace (-1 / M) with (- / M) by (field; lra). rewrite Rabs_Ropp. apply Rabs_pos_eq. lra. }
  assert (T8 : 10 ^ 9 <= 10 ^ 300) by (apply Rle_pow; [lra|lia]). assert (T9 : 10 ^ 9 <= 10 ^ 199) by (apply Rle_pow; [lra|lia]).
  destruct (op_abs _ _ Nq Vq) as (Fq & _ & Aq); [rewrite Bq; lra|]. rewrite Bq in Aq. apply Rabs_le_inv in Aq.
  set (q1 := b64_div (b64_ofZ (-1)) (p_max p)) in *. replace (-1 / M) with (- / M) in Aq by (field; lra).
  unfold left_lo. fold q1. destruct (plus_xval q1 (g_epsilon p) Fq F) as (Ns & Vs). fold e in Vs.
  assert (X1 : B2R64 q1 <= - (1999 / 1000 * e)) by (unfold eps in *; lra).
  assert (X2 : - (1001 / 1000 * / M) <= B2R64 q1) by (unfold eps in *; lra).
  assert (Bs : Rabs (B2R64 q1 + e) = - (B2R64 q1 + e)) by (apply Rabs_left; lra).
  destruct (op_abs _ _ Ns Vs) as (Fs & _ & As); [rewrite Bs; lra|]. rewrite Bs in As. apply Rabs_le_inv in As.
  split; [exact Fs|]. assert (E20 : / 10 ^ 59 <= / 10 ^ 10 * e).
  { assert (/ 10 ^ 30 * / 10 ^ 17 <= e); [|lra].
    destruct epsilon_range as (_ & _ & _ & Q). fold e in Q. pose proof n_real as NR.
    apply Rmult_le_reg_r with M; [lra|]. apply Rle_trans with (39 / 10 ^ 17); [|nra]. apply Rle_trans with (/ 10 ^ 30 * / 10 ^ 17 * 10 ^ 30); [|lra]. apply Rmult_le_compat_l; lra. }
  unfold eps in *. lra.
Qed.

Hypothesis Fm : finite64 (p_min p) = true.
Hypothesis Hm : / 10 ^ 80 <= m.
Hypothesis Fe : finite64 (p_e p) = true.
Hypothesis He : 0 < B2R64 (p_e p).
Hypothesis FE : finite64 (peaks_mean p) = true.
Hypothesis HE : m <= B2R64 (peaks_mean p) <= 10 ^ 31.

Lemma mean_pos : 0 < B2R64 (peaks_mean p).
Proof. assert (0 < / 10 ^ 80) by (apply Rinv_0_lt_compat, pow_lt; lra). lra. Qed.

Lemma right_hi_range : finite64 (right_hi p) = true /\ 0 <= B2R64 (right_hi p) <= 10 ^ 199.
Proof.
  unfold right_hi. assert (P80 : 0 < / 10 ^ 80) by (apply Rinv_0_lt_compat, pow_lt; lra).
  assert (T : 10 ^ 33 <= 10 ^ 300) by (apply Rle_pow; [lra|lia]).
  destruct (minus_xval _ _ FE Fm) as (N1 & V1). fold m in V1. set (E := B2R64 (peaks_mean p)) in *.
  assert (B1 : Rabs (E - m) = E - m) by (apply Rabs_pos_eq; lra).
  destruct (op_abs _ _ N1 V1) as (F1 & R1 & A1); [rewrite B1; lra|]. rewrite B1 in A1. apply Rabs_le_inv in A1.
  set (d := b64_minus (peaks_mean p) (p_min p)) in *. assert (D0 : 0 <= B2R64 d) by (rewrite R1; apply rnd_nonneg; lra).
  pose proof inv59_le as I59. assert (D1 : B2R64 d <= 10 ^ 32) by (unfold eps in A1; lra).
  destruct (twice d F1) as (N2 & V2). rewrite clamp_id in V2 by (pose proof TOP_300; rewrite Rabs_pos_eq; lra).
  assert (F2 : finite64 (b64_mult (b64_ofZ 2) d) = true) by (apply finite_of_xval; [exact N2|]; rewrite V2, Rabs_pos_eq; [pose proof TOP_300|]; lra).
  rewrite (xval_finite _ F2) in V2. set (d2 := b64_mult (b64_ofZ 2) d) in *.
  destruct (mult_xval _ _ Fm Fm) as (N3 & V3). fold m in V3. set (mm := b64_mult (p_min p) (p_min p)) in *.
  assert (T31 : 10 ^ 62 <= 10 ^ 300) by (apply Rle_pow; [lra|lia]).
  assert (B3 : Rabs (m * m) <= 10 ^ 300). { rewrite Rabs_pos_eq by nra. apply Rle_trans with (10 ^ 31 * 10 ^ 31); [apply Rmult_le_compat; lra|lra]. }
  destruct (op_abs _ _ N3 V3 B3) as (F3 & R3 & _).
  assert (L3 : bpow radix2 (-540) <= B2R64 mm).
  { rewrite R3, <- (rnd_bpow (-540)) by lia. apply round_le; [apply FLT_exp_valid; reflexivity|apply valid_rnd_N|].
    apply Rle_trans with (/ 10 ^ 80 * / 10 ^ 80); [|apply Rmult_le_compat; lra].
    rewrite <- Rinv_mult, <- pow_add. change (bpow radix2 (-540)) with (/ IZR (2 ^ 540)). apply Rinv_le; [apply pow_lt; lra|]. rewrite pow_IZR. apply IZR_le. vm_compute. discriminate. }
  assert (P3 : 0 < bpow radix2 (-540)) by apply bpow_gt_0.
  destruct (div_xval d2 mm F2 F3 ltac:(lra)) as (N4 & V4). rewrite V2 in V4.
  assert (Q0 : 0 <= 2 * B2R64 d / B2R64 mm). { unfold Rdiv. apply Rmult_le_pos; [lra|]. apply Rlt_le, Rinv_0_lt_compat. lra. }
  assert (Q1 : 2 * B2R64 d / B2R64 mm <= 10 ^ 198).
  { apply Rle_trans with (2 * 10 ^ 32 * bpow radix2 540).
    - unfold Rdiv. apply Rmult_le_compat; [lra|apply Rlt_le, Rinv_0_lt_compat; lra|lra|].
      replace (bpow radix2 540) with (/ bpow radix2 (-540)) by (rewrite <- bpow_opp; reflexivity). apply Rinv_le; assumption.
    - change (bpow radix2 540) with (IZR (2 ^ 540)). rewrite !pow_IZR, <- !mult_IZR. apply IZR_le. vm_compute. discriminate. }
  assert (T2 : 10 ^ 198 <= 10 ^ 300) by (apply Rle_pow; [lra|lia]).
  destruct (op_abs _ _ N4 V4) as (F4 & R4 & A4); [rewrite Rabs_pos_eq; lra|]. rewrite (Rabs_pos_eq (2 * B2R64 d / B2R64 mm)) in A4 by lra. apply Rabs_le_inv in A4.
  split; [exact F4|]. split; [rewrite R4; apply rnd_nonneg; lra|].
  assert (T4 : 2 * 10 ^ 198 <= 10 ^ 199). { rewrite !pow_IZR, <- mult_IZR. apply IZR_le. vm_compute. discriminate. }
  assert (T5 : 1 <= 10 ^ 198) by (apply pow_R1_Rle; lra). unfold eps in A4. lra.
Qed.

(** a root of the left search gives a mean logarithm which is visibly negative *)
Lemma left_v (x : b64) : finite64 x = true -> B2R64 x <= - (99 / 100 * B2R64 (g_epsilon p)) -> grimshaw_v_of cm w (x : num B64) <> b64_ofZ 1.
Proof.
  intros Fx Hx EV. pose proof M_low as ML. pose proof n_real as NR. destruct epsilon_range as (_ & P & _ & Q).
  set (f := fun y : b64 => xlog (N := B64) musl_utils (b64_plus (b64_ofZ 1) (b64_mult x y)) : b64).
  set (S := fold_left (fun r v => b64_plus r (f v)) w (b64_ofZ 0)).
  assert (EV' : b64_plus (b64_ofZ 1) (b64_div S (b64_ofZ n)) = b64_ofZ 1) by exact EV. clear EV.
  destruct (ofZ_exact 1 ltac:(lia)) as (F1 & E1). destruct (ofZ_exact n ltac:(pose proof n_range; lia)) as (Fn & En).
  assert (FD : finite64 (b64_div S (b64_ofZ n)) = true).
  { destruct (b64_div S (b64_ofZ n)) as [s|s| |s mm e W] eqn:X; try reflexivity; exfalso; rewrite ?X in EV'; [|discriminate EV'].
    assert (Y : finite64 (b64_plus (b64_ofZ 1) (B754_infinity s)) = true) by (rewrite EV'; exact F1). discriminate Y. }
  assert (FS : finite64 S = true).
  { destruct (pos_int_shape n ltac:(pose proof n_range; lia)) as (mm & e & W & EW). rewrite EW in FD. destruct S; try reflexivity; discriminate FD. }
  assert (NS : nan64 S = false) by (apply finite_not_nan; exact FS).
  destruct (fold_nan f w _ NS) as (_ & NF).
  assert (T : forall y, In y w -> finite64 y = true /\ 0 <= B2R64 y).
  { intros y Hy. specialize (W0 y Hy). specialize (WM y Hy). apply leb_true_iff in W0 as (_ & N1 & Y0). apply leb_true_iff in WM as (_ & _ & Y1).
    rewrite xval_zero in Y0. rewrite (xval_finite _ FM) in Y1. fold M in Y1.
    assert (Fy : finite64 y = true) by (apply finite_of_xval; [exact N1|]; rewrite Rabs_pos_eq by exact Y0; pose proof (B2R_bounds (p_max p)) as Bd; fold M in Bd; lra).
    rewrite (xval_finite _ Fy) in Y0. auto. }
  assert (NP : forall y, In y w -> xval (f y) <= 0).
  { intros y Hy. destruct (T y Hy) as (Fy & Py). pose proof (NF y Hy) as Nf. unfold f in *.
    destruct (support_term x y 0 Fx Fy ltac:(nra) ltac:(lra) Nf) as (X & _). pose proof (log_le _ 0 Nf ltac:(lra) ltac:(lra)). lra. }
  destruct (fold_le f w (b64_ofZ 0) ltac:(rewrite xval_zero; lra) NP NS) as (_ & LS). specialize (LS _ IM). fold S in LS.
  assert (B : B2R64 S <= - (26 / 10 ^ 17 * IZR n)).
  { rewrite (xval_finite _ FS) in LS. pose proof (NF _ IM) as Nf. unfold f in LS, Nf.
    destruct (support_term x (p_max p) (386 / 10 ^ 18 * IZR n) Fx FM) as (_ & X); [fold M; nra|lra|exact Nf|].
    pose proof (log_le _ (27 / 10 ^ 17 * IZR n - / 10 ^ 18 * IZR n) Nf ltac:(lra) ltac:(lra)) as Y. lra. }
  destruct (div_xval S _ FS Fn ltac:(rewrite En; lra)) as (_ & Vd). rewrite (xval_finite _ FD), En in Vd.
  assert (D : B2R64 (b64_div S (b64_ofZ n)) <= - (25 / 10 ^ 17)).
  { rewrite Vd. apply Rle_trans with (rndc (- (26 / 10 ^ 17))).
    - apply rndc_mono. apply Rmult_le_reg_r with (IZR n); [lra|]. unfold Rdiv at 1. rewrite Rmult_assoc, Rinv_l by lra. lra.
    - pose proof (rnd_abs (- (26 / 10 ^ 17))) as A. rewrite Rabs_Ropp, (Rabs_pos_eq (26 / 10 ^ 17)) in A by lra. pose proof inv59_le as I. apply Rabs_le_inv in A. unfold eps in A.
      unfold rndc. rewrite clamp_id; [lra|]. pose proof TOP_300. apply Rabs_le. pose proof ten300. lra. }
  destruct (plus_xval _ _ F1 FD) as (_ & Vp). rewrite EV', (xval_finite _ F1), E1 in Vp.
  assert (C : rndc (1 + B2R64 (b64_div S (b64_ofZ n))) <= 1 - / 10 ^ 17); [|lra].
  apply Rle_trans with (rndc (1 - 25 / 10 ^ 17)); [apply rndc_mono; lra|].
  pose proof (rnd_abs (1 - 25 / 10 ^ 17)) as A. rewrite (Rabs_pos_eq (1 - 25 / 10 ^ 17)) in A by lra. pose proof inv59_le as I. apply Rabs_le_inv in A. unfold eps in A.
  unfold rndc. rewrite clamp_id; [lra|]. pose proof TOP_300. apply Rabs_le. pose proof ten300. lra.
Qed.

Definition glitch (g s : b64) : Prop := (exists z, g = B754_zero z) /\ s = B754_zero true.

Lemma root_no_glitch (x : b64) ll (g s : b64) : finite64 x = true -> (B2R64 x <= - (99 / 100 * B2R64 (g_epsilon p)) \/ 0 <= B2R64 x) ->
  grimshaw_simplified_log_likelihood cm (x : num B64) p = Ret (ll, g : num B64, s : num B64) -> ~ glitch g s.
Proof.
  intros Fx Hx E ((z & Eg) & Es). unfold grimshaw_simplified_log_likelihood in E. change (neq (n := B64) x (nofZ 0)) with (b64_eqb x (b64_ofZ 0)) in E.
  destruct (b64_eqb x (b64_ofZ 0)) eqn:X0; cbn [bind] in E.
  - destruct (log_likelihood cm p _ _); cbn [bind] in E; [|discriminate]. assert (E3 : peaks_mean p = (B754_zero true : b64)) by (rewrite <- Es; injection E as _ _ X; exact X). pose proof mean_pos as MP. rewrite E3 in MP. cbn in MP. lra.
  - rewrite (grimshaw_v_eq cm cap p l w _ PR) in E. cbn [bind] in E. destruct (log_likelihood cm p _ _); cbn [bind] in E; [|discriminate].
    assert (E1 : b64_minus (grimshaw_v_of cm w (x : num B64)) (b64_ofZ 1) = g) by (injection E as _ X _; exact X).
    assert (E2 : b64_div g x = s) by (injection E as _ X Y; rewrite <- X; exact Y). clear E.
    rewrite Eg in E1. apply zero_minus_one in E1 as EV. destruct Hx as [Hx|Hx]; [exact (left_v x Fx Hx EV)|].
    rewrite EV, one_minus_one in E1. injection E1 as <-. subst g s.
    assert (P : 0 < B2R64 x). { destruct (Req_dec (B2R64 x) 0) as [Z|Z]; [|lra]. exfalso. rewrite eqb_xval, xval_zero, (xval_finite _ Fx), Z in X0 by (try apply finite_not_nan; try assumption; reflexivity). rewrite Req_bool_true in X0 by reflexivity. discriminate. }
    destruct (pos_shape x Fx P) as (mm & e & W & ->). discriminate E2.
Qed.

Lemma mom_no_glitch : ~ glitch (mom_gamma p) (mom_sigma p).
Proof.
  intros ((z & Eg) & Es). unfold mom_gamma in Eg. unfold mom_sigma in Es. set (R := mom_ratio p) in *.
  pose proof mean_pos as MP. change half with half64 in *. change (Spec.d 1) with (b64_ofZ 1) in *.
  destruct (ofZ_exact 1 ltac:(lia)) as (F1 & E1).
  assert (S1 : Bsign (b64_plus (b64_ofZ 1) R) = true /\ nan64 (b64_plus (b64_ofZ 1) R) = false).
  { assert (NN : nan64 (b64_mult (b64_mult half64 (peaks_mean p)) (b64_plus (b64_ofZ 1) R)) = false) by (rewrite Es; reflexivity).
    pose proof (mult_sign _ _ NN) as SG. rewrite Es in SG. destruct (mult_nan_inv _ _ NN) as (N1 & N2). pose proof (mult_sign _ _ N1) as SH. rewrite SH in SG.
    destruct (pos_shape _ FE MP) as (m1 & e1 & W1 & EE). replace (Bsign (peaks_mean p : b64)) with false in SG by (rewrite EE; reflexivity).
    replace (Bsign half64) with false in SG by (vm_compute; reflexivity). cbn [xorb] in SG. split; [destruct (Bsign (b64_plus (b64_ofZ 1) R)); [reflexivity|discriminate SG]|exact N2]. }
  destruct S1 as (S1 & N1).
  assert (D : xval (b64_minus (b64_ofZ 1) R) >= 2).
  { destruct (plus_nan_inv _ _ N1) as (_ & NR). destruct (finite64 R) eqn:FR.
    - destruct (plus_xval _ _ F1 FR) as (_ & Vp). rewrite E1 in Vp.
      assert (X : xval (b64_plus (b64_ofZ 1) R) <= 0).
      { destruct (b64_plus (b64_ofZ 1) R) as [s|s| |s mm e W] eqn:EP; try discriminate N1; cbn in S1; subst; cbn [xval B2R].
        - cbn. lra.
        - pose proof TOP_pos. lra.
        - left. apply F2R_lt_0. reflexivity. }
      assert (RL : B2R64 R <= -1).
      { apply Rnot_lt_le. intros C. destruct (ofZ_exact (-1) ltac:(lia)) as (Fm1 & Em1).
        destruct (minus_sign R (b64_ofZ (-1)) FR Fm1) as (Pp & _). rewrite Em1 in Pp. apply Pp in C.
        destruct (minus_xval R (b64_ofZ (-1)) FR Fm1) as (_ & Vm). rewrite Em1 in Vm. replace (B2R64 R - -1) with (1 + B2R64 R) in Vm by lra. lra. }
      destruct (minus_xval _ _ F1 FR) as (_ & Vm). rewrite E1 in Vm. rewrite Vm. apply Rle_ge. destruct (ofZ_exact 2 ltac:(lia)) as (F2 & E2). rewrite <- E2. apply fle. rewrite E2. lra.
    - destruct R as [s|s| |s mm e W]; try discriminate FR; try discriminate NR. destruct s; [|discriminate S1].
      change (TOP >= 2). destruct (ofZ_exact 2 ltac:(lia)) as (F2 & E2). rewrite <- E2. pose proof (B2R_bounds (b64_ofZ 2)). lra. }
  set (t := b64_minus (b64_ofZ 1) R) in *. assert (Nt : nan64 t = false) by (destruct t; try reflexivity; cbn in D; lra).
  destruct (finite64 t) eqn:Ft.
  - destruct (mult_xval half64 t half64_fin Ft) as (_ & V). rewrite Eg, half64_val in V. cbn [xval B2R64 B2R] in V. rewrite (xval_finite _ Ft) in D.
    assert (B2R64 (b64_ofZ 1) <= rndc (1 / 2 * B2R64 t)) by (apply fle; rewrite E1; lra). change (0 = rndc (1 / 2 * B2R64 t)) in V. lra.
  - destruct t as [s|s| |s mm e W]; try discriminate Ft; try discriminate Nt.
    assert (X : finite64 (b64_mult half64 (B754_infinity s)) = true) by (rewrite Eg; reflexivity). destruct half64 eqn:EH; try discriminate X; pose proof half64_val as HV; rewrite EH in HV; cbn in HV; lra.
Qed.

Lemma fit_admissible (g0 s0 : b64) t' ll : tail_fit cm (MkTail (N := B64) g0 s0 p) = Ret (t', ll) -> admissible (t_gamma t') (t_sigma t') w.
Proof.
  intros TF. pose proof n_range as NR. pose proof mean_pos as MP.
  assert (NE : w <> []) by (intros X; rewrite X in IM; destruct IM).
  destruct (C20_lemma _ _ _ _ TF) as (_ & LL & lm & le & _ & EX & _ & GE & NAN). cbn [t_peaks] in *.
  assert (Nl : nan64 ll = false).
  { rewrite <- is_NaN_eq. destruct (is_NaN ll) eqn:X; [|reflexivity]. destruct (NAN eq_refl) as (_ & C). exfalso.
    rewrite (log_likelihood_eq cm cap p l w _ _ PR) in EX. injection EX as <-. rewrite is_NaN_eq in C. unfold log_likelihood_of in C.
    change (neq (n := B64) (Spec.d 0) (nofZ 0)) with true in C. cbv iota in C.
    assert (Y := exponential_not_nan n (p_e p) (peaks_mean p) ltac:(lia) Fe ltac:(lra) FE MP). unfold n in Y.
    change (nan64 (b64_minus (b64_mult (b64_opp (b64_ofZ (Z.of_nat (length w)))) (xlog (N := B64) musl_utils (peaks_mean p))) (b64_div (p_e p) (peaks_mean p))) = true) in C. congruence. }
  rewrite (log_likelihood_eq cm cap p l w _ _ PR) in LL.
  assert (NL : nan64 (log_likelihood_of cm (p_e p) w (t_gamma t') (t_sigma t')) = false) by (injection LL as ->; exact Nl).
  destruct (likelihood_admissible (p_e p) w (t_gamma t') (t_sigma t') NE ltac:(fold n; lia) W0 ltac:(apply finite_not_nan; exact Fe) ltac:(rewrite (xval_finite _ Fe); lra) NL) as [A|G]; [exact A|exfalso].
  change (glitch (t_gamma t') (t_sigma t')) in G. destruct epsilon_range as (Fep & Pep & _). destruct left_lo_range as (Fl & Rl). destruct right_hi_range as (Fr & Rr).
  destruct eps0_range as (F0 & H0). assert (T9 : 1 <= 10 ^ 199) by (apply pow_R1_Rle; lra).
  assert (T0 : / 10 ^ 40 <= B2R64 eps0 <= 10 ^ 199) by lra.
  assert (Fo : finite64 (b64_opp (g_epsilon p)) = true) by (rewrite finite_opp; exact Fep).
  assert (Eo : B2R64 (b64_opp (g_epsilon p)) = - B2R64 (g_epsilon p)) by (rewrite <- (xval_finite _ Fo), xval_opp, (xval_finite _ Fep); reflexivity).
  destruct (fit_cases _ _ _ _ TF) as [(E1 & E2)|[(E1 & E2)|[(x & E1 & E2)|(x & E1 & E2)]]]; cbn [t_peaks] in *.
  - rewrite E1, E2 in G. exact (mom_no_glitch G).
  - destruct G as (_ & G). rewrite E2 in G. rewrite G in MP. cbn in MP. lra.
  - destruct (C61_lemma (grimshaw_w cm p) (left_lo p) (b64_opp (g_epsilon p)) eps0 Fl Fo F0) as (IN & _); [apply Rabs_le; lra|rewrite Eo; apply Rabs_le; lra|exact T0|].
    destruct (IN x E1) as (Fx & Bx). rewrite Eo in Bx. refine (root_no_glitch x ll _ _ Fx _ E2 G). left.
    apply Rle_trans with (1 := proj2 Bx). apply Rmax_lub; lra.
  - destruct (C61_lemma (grimshaw_w cm p) (g_epsilon p) (right_hi p) eps0 Fep Fr F0) as (IN & _); [apply Rabs_le; lra|apply Rabs_le; lra|exact T0|].
    destruct (IN x E1) as (Fx & Bx). refine (root_no_glitch x ll _ _ Fx _ E2 G). right.
    apply Rle_trans with (2 := proj1 Bx). apply Rmin_glb; lra.
Qed.

(** ** Size of the parameters *)
Lemma root_ratio (x : b64) ll (g s : b64) : finite64 x = true -> Rabs (B2R64 x) <= 10 ^ 199 -> (B2R64 x <= - (99 / 100 * B2R64 (g_epsilon p)) \/ 0 <= B2R64 x) ->
  grimshaw_simplified_log_likelihood cm (x : num B64) p = Ret (ll, g : num B64, s : num B64) -> finite64 g = true -> finite64 s = true -> 0 < B2R64 s ->
  B2R64 g = 0 \/ (Rabs (B2R64 g) <= 10 ^ 6 /\ / 10 ^ 300 <= B2R64 s / Rabs (B2R64 g) <= 10 ^ 300).
Proof.
  intros Fx Bx Hx E Fg Fs Ps. destruct (Req_dec (B2R64 g) 0) as [G0|G0]; [left; exact G0|right].
  unfold grimshaw_simplified_log_likelihood in E. change (neq (n := B64) x (nofZ 0)) with (b64_eqb x (b64_ofZ 0)) in E.
  pose proof n_range as NRZ. pose proof n_real as NR. pose proof M_low as ML.
  destruct (b64_eqb x (b64_ofZ 0)) eqn:X0; cbn [bind] in E.
  { destruct (log_likelihood cm p _ _); cbn [bind] in E; [|discriminate]. exfalso. apply G0. assert (X : b64_ofZ 0 = g) by (injection E as _ X _; exact X). rewrite <- X. destruct (ofZ_exact 0 ltac:(lia)) as (_ & Z). exact Z. }
  rewrite (grimshaw_v_eq cm cap p l w _ PR) in E. cbn [bind] in E. destruct (log_likelihood cm p _ _); cbn [bind] in E; [|discriminate].
  assert (E1 : b64_minus (grimshaw_v_of cm w (x : num B64)) (b64_ofZ 1) = g) by (injection E as _ X _; exact X).
  assert (E2 : b64_div g x = s) by (injection E as _ X Y; rewrite <- X; exact Y). clear E.
  set (f := fun y : b64 => xlog (N := B64) musl_utils (b64_plus (b64_ofZ 1) (b64_mult x y)) : b64).
  set (S := fold_left (fun r v => b64_plus r (f v)) w (b64_ofZ 0)).
  assert (EV : b64_minus (b64_plus (b64_ofZ 1) (b64_div S (b64_ofZ n))) (b64_ofZ 1) = g) by exact E1. clear E1.
  destruct (ofZ_exact 1 ltac:(lia)) as (F1 & E1). destruct (ofZ_exact n ltac:(lia)) as (Fn & En).
  assert (FV : finite64 (b64_plus (b64_ofZ 1) (b64_div S (b64_ofZ n))) = true) by (apply (minus_fin_inv _ (b64_ofZ 1)); rewrite EV; exact Fg).
  assert (FD : finite64 (b64_div S (b64_ofZ n)) = true) by (apply (plus_fin_inv (b64_ofZ 1)); exact FV).
  assert (FS : finite64 S = true).
  { destruct (pos_int_shape n ltac:(lia)) as (mm & e & W & EW). rewrite EW in FD. destruct S; try reflexivity; discriminate FD. }
  assert (T : forall y, In y w -> finite64 y = true /\ 0 <= B2R64 y <= M).
  { intros y Hy. specialize (W0 y Hy). specialize (WM y Hy). apply leb_true_iff in W0 as (_ & N1 & Y0). apply leb_true_iff in WM as (_ & _ & Y1).
    rewrite xval_zero in Y0. rewrite (xval_finite _ FM) in Y1. fold M in Y1.
    assert (Fy : finite64 y = true) by (apply finite_of_xval; [exact N1|]; rewrite Rabs_pos_eq by exact Y0; pose proof (B2R_bounds (p_max p)) as Bd; fold M in Bd; lra).
    rewrite (xval_finite _ Fy) in Y0, Y1. auto. }
  assert (SB : Rabs (B2R64 S) <= 1000 * IZR n).
  { pose proof (fold_bound f (fun y => xlog_small _) w (b64_ofZ 0) 0) as B. rewrite Z.add_0_l in B. apply B; [lia|exact Hn| |exact FS].
    destruct (ofZ_exact 0 ltac:(lia)) as (_ & ->). rewrite Rabs_R0. lra. }
  destruct (div_xval S _ FS Fn ltac:(rewrite En; lra)) as (ND & VD). rewrite En in VD.
  assert (QB : Rabs (B2R64 S / IZR n) <= 1000).
  { unfold Rdiv. rewrite Rabs_mult, (Rabs_pos_eq (/ IZR n)) by (left; apply Rinv_0_lt_compat; lra). apply Rmult_le_reg_r with (IZR n); [lra|]. rewrite Rmult_assoc, Rinv_l by lra. lra. }
  pose proof inv59_le as I59. assert (T3 : 10 ^ 4 <= 10 ^ 300) by (apply Rle_pow; [lra|lia]).
  destruct (op_abs _ _ ND VD ltac:(lra)) as (_ & _ & AD). set (D := b64_div S (b64_ofZ n)) in *.
  assert (DB : Rabs (B2R64 D) <= 1001).
  { pose proof (Rabs_triang (B2R64 D - B2R64 S / IZR n) (B2R64 S / IZR n)) as TT. replace (B2R64 D - B2R64 S / IZR n + B2R64 S / IZR n) with (B2R64 D) in TT by lra. unfold eps in AD. lra. }
  destruct (plus_xval _ _ F1 FD) as (NV & VV). rewrite E1 in VV. apply Rabs_le_inv in DB.
  destruct (op_abs _ _ NV VV) as (_ & _ & AV); [apply Rabs_le; lra|]. set (V := b64_plus (b64_ofZ 1) D) in *.
  assert (VB : Rabs (B2R64 V) <= 1003).
  { assert (Rabs (1 + B2R64 D) <= 1002) by (apply Rabs_le; lra). pose proof (Rabs_triang (B2R64 V - (1 + B2R64 D)) (1 + B2R64 D)) as TT.
    replace (B2R64 V - (1 + B2R64 D) + (1 + B2R64 D)) with (B2R64 V) in TT by lra. unfold eps in AV. lra. }
  apply Rabs_le_inv in VB. destruct (minus_rel V (b64_ofZ 1) FV F1) as (_ & GR); [rewrite E1; apply Rle_trans with (10 ^ 4); [apply Rabs_le; lra|lra]|].
  rewrite EV, E1 in GR.
  assert (V1 : B2R64 V <> 1).
  { intros C. rewrite C in GR. replace (1 - 1) with 0 in GR by lra. rewrite Rabs_R0, Rmult_0_r in GR. apply G0. pose proof (Rabs_pos (B2R64 g - 0)) as P0.
    assert (Z0 : Rabs (B2R64 g - 0) = 0) by lra. destruct (Req_dec (B2R64 g - 0) 0) as [Q|Q]; [lra|]. apply Rabs_no_R0 in Q. lra. }
  pose proof (away_from_one V V1) as AW. assert (VU : Rabs (B2R64 V - 1) <= 1004) by (apply Rabs_le; lra).
  assert (GB : / 10 ^ 17 <= Rabs (B2R64 g) <= 1005).
  { pose proof (Rabs_triang (B2R64 g - (B2R64 V - 1)) (B2R64 V - 1)) as T1. replace (B2R64 g - (B2R64 V - 1) + (B2R64 V - 1)) with (B2R64 g) in T1 by lra.
    pose proof (Rabs_triang (- (B2R64 g - (B2R64 V - 1))) (B2R64 g)) as T2. rewrite Rabs_Ropp in T2. replace (- (B2R64 g - (B2R64 V - 1)) + B2R64 g) with (B2R64 V - 1) in T2 by lra.
    unfold eps in GR. split; lra. }
  assert (XB : / 10 ^ 60 <= Rabs (B2R64 x)).
  { destruct Hx as [Hx|Hx].
    - destruct epsilon_range as (_ & Pe & _ & Q). rewrite Rabs_left by lra. assert (/ 10 ^ 59 <= B2R64 (g_epsilon p)); [|lra].
      apply Rmult_le_reg_r with M; [lra|]. apply Rle_trans with (39 / 10 ^ 17); [|nra]. apply Rle_trans with (/ 10 ^ 59 * 10 ^ 30); [|lra]. apply Rmult_le_compat_l; lra.
    - rewrite Rabs_pos_eq by exact Hx. apply Rnot_lt_le. intros C. apply V1.
      assert (FZ : forall y, In y w -> f y = B754_zero false).
      { intros y Hy. destruct (T y Hy) as (Fy & Py). unfold f. rewrite (one_plus_tiny (b64_mult x y)); [exact xlog_one|..];
        destruct (mult_xval x y Fx Fy) as (Nm & Vm); assert (XY : 0 <= B2R64 x * B2R64 y <= / 10 ^ 30) by
          (split; [apply Rmult_le_pos; lra|]; apply Rle_trans with (/ 10 ^ 60 * 10 ^ 30); [apply Rmult_le_compat; lra|lra]);
        destruct (op_abs _ _ Nm Vm) as (Fm' & _ & Am); try (rewrite Rabs_pos_eq by lra; lra); [exact Fm'|].
        rewrite (Rabs_pos_eq (B2R64 x * B2R64 y)) in Am by lra. apply Rabs_le_inv in Am. apply Rabs_le. unfold eps in Am. lra. }
      assert (S0 : S = B754_zero false).
      { unfold S. clear - FZ. change (b64_ofZ 0) with (B754_zero false : b64). revert FZ. generalize w as u. induction u as [|y u IH]; intros FZ; [reflexivity|]. cbn [fold_left].
        rewrite (FZ y) by (left; reflexivity). change (b64_plus (B754_zero false) (B754_zero false)) with (B754_zero false : b64). apply IH. intros z Hz. apply FZ. right. exact Hz. }
      unfold V, D. rewrite S0. destruct (pos_int_shape n ltac:(lia)) as (mm & e & W & EW). rewrite EW. change (b64_div (B754_zero false) (B754_finite false mm e W)) with (B754_zero false : b64).
      replace (b64_plus (b64_ofZ 1) (B754_zero false)) with (b64_ofZ 1) by (apply B2SF_inj; vm_compute; reflexivity). exact E1. }
  assert (Xn : B2R64 x <> 0). { intros C. rewrite C, Rabs_R0 in XB. assert (0 < / 10 ^ 60) by (apply Rinv_0_lt_compat, pow_lt; lra). lra. }
  destruct (div_xval g x Fg Fx Xn) as (Nq & Vq). rewrite E2 in Nq, Vq. set (ag := Rabs (B2R64 g)) in *. set (bx := Rabs (B2R64 x)) in *.
  assert (AQ : Rabs (B2R64 g / B2R64 x) = ag * / bx). { unfold Rdiv. rewrite Rabs_mult, Rabs_inv. reflexivity. }
  assert (P60 : 0 < / 10 ^ 60) by (apply Rinv_0_lt_compat, pow_lt; lra). assert (P199 : 0 < 10 ^ 199) by (apply pow_lt; lra).
  assert (IB : / 10 ^ 199 <= / bx <= 10 ^ 60).
  { split; [apply Rinv_le; lra|]. replace (10 ^ 60) with (/ / 10 ^ 60) by (apply Rinv_inv). apply Rinv_le; lra. }
  assert (P199' : 0 < / 10 ^ 199) by (apply Rinv_0_lt_compat; exact P199).
  assert (U : ag * / bx <= 10 ^ 300).
  { apply Rle_trans with (1005 * 10 ^ 60); [apply Rmult_le_compat; lra|]. rewrite pow_IZR, <- mult_IZR, pow_IZR. apply IZR_le. vm_compute. discriminate. }
  destruct (op_abs _ _ Nq Vq ltac:(rewrite AQ; exact U)) as (_ & Rq & _).
  pose proof (rnd_rel (B2R64 g / B2R64 x)) as RR. rewrite <- Rq, AQ in RR.
  assert (L : bpow radix2 (-1022) <= ag * / bx).
  { apply Rle_trans with (/ 10 ^ 17 * / 10 ^ 199).
    - rewrite <- Rinv_mult, <- pow_add. change (bpow radix2 (-1022)) with (/ IZR (2 ^ 1022)). apply Rinv_le; [apply pow_lt; lra|]. rewrite pow_IZR. apply IZR_le. vm_compute. discriminate.
    - apply Rmult_le_compat; lra. }
  specialize (RR L).
  pose proof (Rabs_triang (B2R64 s - B2R64 g / B2R64 x) (B2R64 g / B2R64 x)) as T1. replace (B2R64 s - B2R64 g / B2R64 x + B2R64 g / B2R64 x) with (B2R64 s) in T1 by lra.
  pose proof (Rabs_triang (- (B2R64 s - B2R64 g / B2R64 x)) (B2R64 s)) as T2. rewrite Rabs_Ropp in T2. replace (- (B2R64 s - B2R64 g / B2R64 x) + B2R64 s) with (B2R64 g / B2R64 x) in T2 by lra.
  rewrite AQ in T1, T2. rewrite (Rabs_pos_eq (B2R64 s)) in T1, T2 by lra.
  assert (A0 : 0 < ag) by lra. assert (IA : ag * / ag = 1) by (apply Rinv_r; lra). assert (IA0 : 0 < / ag) by (apply Rinv_0_lt_compat; lra).
  assert (AB : 0 < ag * / bx) by (apply Rmult_lt_0_compat; lra).
  split; [lra|]. assert (SU : B2R64 s <= 2 * (ag * / bx)) by (unfold eps in RR; lra). assert (SL : ag * / bx <= 2 * B2R64 s) by (unfold eps in RR; lra).
  unfold Rdiv. split.
  - apply Rle_trans with (/ 2 * / bx).
    + apply Rle_trans with (/ 2 * / 10 ^ 199); [|lra]. rewrite <- Rinv_mult. apply Rinv_le; [lra|]. replace 2 with (IZR 2) by reflexivity. rewrite !pow_IZR, <- mult_IZR. apply IZR_le. vm_compute. discriminate.
    + apply Rmult_le_reg_r with ag; [exact A0|]. replace (B2R64 s * / ag * ag) with (B2R64 s * (ag * / ag)) by ring. rewrite IA. lra.
  - apply Rle_trans with (2 * / bx).
    + apply Rmult_le_reg_r with ag; [exact A0|]. replace (B2R64 s * / ag * ag) with (B2R64 s * (ag * / ag)) by ring. rewrite IA. lra.
    + apply Rle_trans with (2 * 10 ^ 60); [lra|]. rewrite !pow_IZR, <- mult_IZR. apply IZR_le. vm_compute. discriminate.
Qed.


Lemma fit_size (g0 s0 : b64) t' ll : finite64 (peaks_var p) = true -> B2R64 (peaks_mean p) * B2R64 (peaks_mean p) <= 10 ^ 6 * B2R64 (peaks_var p) ->
  tail_fit cm (MkTail (N := B64) g0 s0 p) = Ret (t', ll) ->
  B2R64 (t_gamma t') = 0 \/ (Rabs (B2R64 (t_gamma t')) <= 10 ^ 6 /\ / 10 ^ 300 <= B2R64 (t_sigma t') / Rabs (B2R64 (t_gamma t')) <= 10 ^ 300).
Proof.
  intros FV HV TF. destruct (fit_admissible g0 s0 t' ll TF) as (A1 & A2 & A3 & _).
  destruct epsilon_range as (Fep & Pep & Uep & _). destruct left_lo_range as (Fl & Rl). destruct right_hi_range as (Fr & Rr).
  destruct eps0_range as (F0 & H0). assert (T9 : 1 <= 10 ^ 199) by (apply pow_R1_Rle; lra).
  assert (T0 : / 10 ^ 40 <= B2R64 eps0 <= 10 ^ 199) by lra.
  assert (Fo : finite64 (b64_opp (g_epsilon p)) = true) by (rewrite finite_opp; exact Fep).
  assert (Eo : B2R64 (b64_opp (g_epsilon p)) = - B2R64 (g_epsilon p)) by (rewrite <- (xval_finite _ Fo), xval_opp, (xval_finite _ Fep); reflexivity).
  destruct (fit_cases _ _ _ _ TF) as [(E1 & E2)|[(E1 & E2)|[(x & E1 & E2)|(x & E1 & E2)]]]; cbn [t_peaks] in *.
  - rewrite E1, E2. apply mom_ratio_range; [exact FE|lra|exact FV|exact HV].
  - left. rewrite E1. destruct (ofZ_exact 0 ltac:(lia)) as (_ & Z). exact Z.
  - destruct (C61_lemma (grimshaw_w cm p) (left_lo p) (b64_opp (g_epsilon p)) eps0 Fl Fo F0) as (IN & _); [apply Rabs_le; lra|rewrite Eo; apply Rabs_le; lra|exact T0|].
    destruct (IN x E1) as (Fx & Bx). rewrite Eo in Bx.
    assert (UB : B2R64 x <= - (99 / 100 * B2R64 (g_epsilon p))) by (apply Rle_trans with (1 := proj2 Bx); apply Rmax_lub; lra).
    assert (LB : - 10 ^ 199 <= B2R64 x) by (apply Rle_trans with (2 := proj1 Bx); apply Rmin_glb; lra).
    apply (root_ratio x ll _ _ Fx); [apply Rabs_le; lra|left; exact UB|exact E2|exact A1|exact A2|exact A3].
  - destruct (C61_lemma (grimshaw_w cm p) (g_epsilon p) (right_hi p) eps0 Fep Fr F0) as (IN & _); [apply Rabs_le; lra|apply Rabs_le; lra|exact T0|].
    destruct (IN x E1) as (Fx & Bx).
    assert (LB : 0 <= B2R64 x) by (apply Rle_trans with (2 := proj1 Bx); apply Rmin_glb; lra).
    assert (UB : B2R64 x <= 10 ^ 199) by (apply Rle_trans with (1 := proj2 Bx); apply Rmax_lub; lra).
    apply (root_ratio x ll _ _ Fx); [apply Rabs_le; lra|right; exact LB|exact E2|exact A1|exact A2|exact A3].
Qed.
End Large.
