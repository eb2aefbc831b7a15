(** * Lemmas: accuracy of xpow, of the quantile and of the probability (C54-C57) *)
From Coq Require Import ZArith List Bool Reals Lra Lia Psatz.
From Flocq Require Import Core.Core IEEE754.BinarySingleNaN.
From Verif Require Import Num XMath B64 RNum B64Facts FloatErr FloatUtilsLemmas LogExact LogAcc ExpExact ExpB64 ExpAcc
  Ubend Peaks Brent Estimator Tail Spot CastLemmas AccSpec.
Open Scope R_scope.

Lemma TOP_300 : 10 ^ 300 * 8 <= TOP.
Proof.
  unfold TOP. apply Rle_trans with (bpow radix2 1020); [|apply bpow_le; lia].
  rewrite <- IZR_Zpower by lia. change (Zpower radix2 1020) with (2 ^ 1020)%Z.
  rewrite (pow_IZR 10 300), <- mult_IZR. apply IZR_le. vm_compute. discriminate.
Qed.
Lemma inv59_pos : 0 < / 10 ^ 59.
Proof. apply Rinv_0_lt_compat, pow_lt; lra. Qed.
Lemma ten300 : 1 <= 10 ^ 300.
Proof. apply pow_R1_Rle. lra. Qed.
Lemma inv59_le : / 10 ^ 59 <= 1 / 10 ^ 50.
Proof. unfold Rdiv. rewrite Rmult_1_l. apply Rinv_le; [apply pow_lt; lra|]. apply Rle_pow; [lra|lia]. Qed.

(** the result of an operation whose exact value is not huge *)
Lemma op_abs v t : nan64 v = false -> xval v = rndc t -> Rabs t <= 10 ^ 300 -> finite64 v = true /\ B2R64 v = rnd t /\ Rabs (B2R64 v - t) <= eps * Rabs t + / 10 ^ 59.
Proof.
  intros N E H. pose proof (rnd_abs t) as R. pose proof TOP_300 as T. pose proof inv59_pos as P. pose proof inv59_le as P'. pose proof ten300 as P1.
  pose proof (Rabs_pos t). assert (X : Rabs (rnd t) < TOP).
  { pose proof (Rabs_triang (rnd t - t) t) as TT. replace (rnd t - t + t) with (rnd t) in TT by lra.
    assert (eps * Rabs t <= Rabs t) by (unfold eps; nra). assert (1 / 10 ^ 50 <= 1) by lra. lra. }
  unfold rndc in E. rewrite clamp_id in E by lra.
  assert (F : finite64 v = true) by (apply finite_of_xval; [assumption|rewrite E; assumption]).
  rewrite xval_finite in E by assumption. rewrite E. auto.
Qed.

Lemma exp_close d D : Rabs d <= D -> D <= 2 / 10 ^ 4 -> Rabs (exp d - 1) <= D + 2 * (D * D).
Proof.
  intros H HD. pose proof (Rabs_pos d). apply Rabs_le_inv in H. pose proof (exp_ineq1_le d). assert (0 <= D * D) by nra.
  apply Rabs_le. split; [lra|]. apply Rle_trans with (exp D - 1).
  - pose proof (exp_le_compat d D). lra.
  - pose proof (exp_small D). lra.
Qed.

Lemma log_error_pos lo hi a : 1 / 10 ^ 15 <= log_error lo hi a.
Proof. unfold log_error. pose proof (Rabs_pos (ln a)). destruct Rle_dec; [destruct Rlt_dec|]; lra. Qed.
Lemma xlog_error (a : b64) : finite64 a = true -> 0 < B2R64 a ->
  finite64 (xlog (N := B64) musl_utils a) = true /\
  Rabs (B2R64 (xlog (N := B64) musl_utils a) - ln (B2R64 a)) <= log_error (1 / 4) (1 / 2) (B2R64 a).
Proof.
  intros F P. destruct (xlog_accuracy a F P) as (Fl & A & B & C). split; [exact Fl|].
  pose proof (Rabs_pos (ln (B2R64 a))). unfold log_error. destruct Rle_dec as [X|X]; [destruct Rlt_dec as [Y|Y]|].
  - apply B. lra.
  - destruct (Rlt_le_dec (B2R64 a) 1) as [Z|Z]; [eapply Rle_trans; [apply A; lra|]; lra|eapply Rle_trans; [apply C; lra|]; lra].
  - eapply Rle_trans; [apply C; lra|]. lra.
Qed.

(** error of x * xlog a with respect to x * L, L = the wanted logarithm *)
Lemma exponent_error (x l : b64) L E : finite64 x = true -> finite64 l = true -> Rabs (B2R64 l - L) <= E ->
  Rabs (B2R64 x) <= 10 ^ 6 -> Rabs (B2R64 x * L) <= 700 -> Rabs (B2R64 x) * E <= 11 / 10 ^ 5 ->
  finite64 (b64_mult x l) = true /\
  Rabs (B2R64 (b64_mult x l) - B2R64 x * L) <= (1 + 1 / 10 ^ 9) * (Rabs (B2R64 x) * E) + eps * Rabs (B2R64 x * L) + / 10 ^ 59.
Proof.
  intros Fx Fl HE Hx HL HxE. destruct (mult_xval x l Fx Fl) as (N & V). set (X := B2R64 x) in *. set (l' := B2R64 l) in *.
  assert (A : Rabs (X * l' - X * L) <= Rabs X * E).
  { rewrite <- Rmult_minus_distr_l, Rabs_mult. apply Rmult_le_compat_l; [apply Rabs_pos|assumption]. }
  assert (B : Rabs (X * l') <= Rabs (X * L) + Rabs X * E).
  { pose proof (Rabs_triang (X * l' - X * L) (X * L)) as T. replace (X * l' - X * L + X * L) with (X * l') in T by lra. lra. }
  pose proof ten300. assert (T3 : 701 <= 10 ^ 300). { apply Rle_trans with (10 ^ 3); [lra|]. apply Rle_pow; [lra|lia]. }
  destruct (op_abs _ _ N V) as (F & _ & R); [lra|]. split; [exact F|].
  pose proof (Rabs_triang (B2R64 (b64_mult x l) - X * l') (X * l' - X * L)) as T.
  replace (B2R64 (b64_mult x l) - X * l' + (X * l' - X * L)) with (B2R64 (b64_mult x l) - X * L) in T by lra.
  assert (0 <= Rabs X * E) by (pose proof (Rabs_pos (X * l' - X * L)); lra).
  assert (eps * Rabs (X * l') <= eps * Rabs (X * L) + eps * (Rabs X * E)) by (pose proof eps_pos; nra).
  assert (eps * (Rabs X * E) <= 1 / 10 ^ 9 * (Rabs X * E)) by (unfold eps; nra). lra.
Qed.

(** exponential of an approximate exponent *)
Lemma xexp_error (y : b64) Y D : finite64 y = true -> Rabs (B2R64 y - Y) <= D -> D <= 2 / 10 ^ 4 -> Rabs Y <= 701 ->
  exists v, xexp (N := B64) musl_utils y = Ret (v : num B64) /\ finite64 v = true /\
    Rabs (B2R64 v - exp Y) <= (1001 / 1000 * D + 1501 / 10 ^ 19 * Rabs Y + 301 / 10 ^ 17) * exp Y.
Proof.
  intros Fy HD D1 HY. assert (AY : Rabs (B2R64 y) <= Rabs Y + D).
  { pose proof (Rabs_triang (B2R64 y - Y) Y) as T. replace (B2R64 y - Y + Y) with (B2R64 y) in T by lra. lra. }
  destruct (xexp_accuracy y Fy ltac:(lra)) as (v & Ev & Fv & A). exists v. split; [exact Ev|]. split; [exact Fv|].
  set (d := B2R64 y - Y) in *. assert (D0 : 0 <= D) by (pose proof (Rabs_pos d); lra).
  assert (EE : exp (B2R64 y) = exp Y * exp d) by (rewrite <- exp_plus; f_equal; unfold d; lra).
  pose proof (exp_close d D HD D1) as Q. pose proof (exp_pos Y) as PY. pose proof (exp_pos d) as Pd.
  rewrite EE in A. set (t := 15 / 10 ^ 17 * Rabs (B2R64 y) + 3 / 10 ^ 15) in *.
  assert (Ht : 0 <= t <= 15 / 10 ^ 17 * (Rabs Y + D) + 3 / 10 ^ 15) by (unfold t; pose proof (Rabs_pos (B2R64 y)); lra).
  pose proof (Rabs_triang (B2R64 v - exp Y * exp d) (exp Y * exp d - exp Y)) as T.
  replace (B2R64 v - exp Y * exp d + (exp Y * exp d - exp Y)) with (B2R64 v - exp Y) in T by lra.
  assert (B : Rabs (exp Y * exp d - exp Y) <= (D + 2 * (D * D)) * exp Y).
  { replace (exp Y * exp d - exp Y) with (exp Y * (exp d - 1)) by lra. rewrite Rabs_mult, (Rabs_pos_eq (exp Y)) by lra. nra. }
  assert (DD : D * D <= 2 / 10 ^ 4 * D) by nra.
  assert (Pd2 : exp d <= 1 + 3 / 10 ^ 4). { apply Rabs_le_inv in Q. nra. }
  assert (C : t * (exp Y * exp d) <= (1 + 3 / 10 ^ 4) * t * exp Y). { assert (t * exp d <= t * (1 + 3 / 10 ^ 4)) by nra. nra. }
  pose proof (Rabs_pos Y).
  assert (K : D + 2 * (D * D) + (1 + 3 / 10 ^ 4) * t <= 1001 / 1000 * D + 1501 / 10 ^ 19 * Rabs Y + 301 / 10 ^ 17) by lra.
  apply (Rmult_le_compat_r (exp Y)) in K; lra.
Qed.

Lemma xpow_accuracy (a x : b64) : finite64 a = true -> 0 < B2R64 a -> finite64 x = true ->
  Rabs (B2R64 x) <= 10 ^ 6 -> Rabs (B2R64 x * ln (B2R64 a)) <= 700 ->
  exists v : b64, xpow (N := B64) musl_utils a x = Ret v /\ finite64 v = true /\
    Rabs (B2R64 v - Rpower (B2R64 a) (B2R64 x)) <=
      (101 / 100 * log_error (1 / 4) (1 / 2) (B2R64 a) * Rabs (B2R64 x) + 4 / 10 ^ 16 * Rabs (B2R64 x * ln (B2R64 a)) + 31 / 10 ^ 16) * Rpower (B2R64 a) (B2R64 x).
Proof.
  intros Fa Pa Fx Hx HL. destruct (xlog_error a Fa Pa) as (Fl & El).
  set (E := log_error _ _ _) in *. set (l := xlog (N := B64) musl_utils a : b64) in *. set (L := ln (B2R64 a)) in *.
  pose proof (log_error_pos (1 / 4) (1 / 2) (B2R64 a)) as E0. fold E in E0. pose proof (Rabs_pos (B2R64 x)) as X0.
  assert (XE : Rabs (B2R64 x) * E <= 11 / 10 ^ 5).
  { unfold E, log_error. fold L. destruct Rle_dec; [destruct Rlt_dec|].
    - lra.
    - rewrite Rabs_mult in HL. lra.
    - rewrite Rabs_mult in HL. lra. }
  destruct (exponent_error x l L E Fx Fl El Hx HL XE) as (Fy & Ey).
  pose proof inv59_le. pose proof inv59_pos.
  assert (XE0 : 0 <= Rabs (B2R64 x) * E) by (apply Rmult_le_pos; lra).
  assert (W0 : 0 <= eps * Rabs (B2R64 x * L) <= 8 / 10 ^ 14) by (pose proof (Rabs_pos (B2R64 x * L)); unfold eps; lra).
  destruct (xexp_error (b64_mult x l) (B2R64 x * L) _ Fy Ey ltac:(lra) ltac:(lra)) as (v & Ev & Fv & Av).
  exists v. split; [exact Ev|]. split; [exact Fv|].
  unfold Rpower. fold L. eapply Rle_trans; [exact Av|]. apply Rmult_le_compat_r; [left; apply exp_pos|].
  pose proof (Rabs_pos (B2R64 x * L)). unfold eps in *. lra.
Qed.

(** ** The quantile *)
Lemma ln_close x D : Rabs (x - 1) <= D -> 0 <= D <= 1 / 10 ^ 9 -> Rabs (ln x) <= D + 2 * (D * D).
Proof.
  intros H HD. apply Rabs_le_inv in H. assert (Px : 0 < x) by lra. apply Rabs_le. split.
  - pose proof (exp_ineq1_le (- ln x)) as I. rewrite exp_Ropp, exp_ln in I by assumption.
    assert (/ x <= 1 + D + 2 * (D * D)).
    { apply Rmult_le_reg_l with x; [assumption|]. rewrite Rinv_r by lra. nra. }
    lra.
  - pose proof (exp_ineq1_le (ln x)) as I. rewrite exp_ln in I by assumption. assert (0 <= D * D) by nra. lra.
Qed.

Lemma ln_mono x y : 0 < x -> x <= y -> ln x <= ln y.
Proof. intros P [H|<-]; [left; apply ln_increasing; assumption|lra]. Qed.

Lemma mid_of r lo hi : lo <= Rabs r <= hi -> / 10 ^ 60 <= lo -> hi <= 10 ^ 60 -> mid r.
Proof. unfold mid. lra. Qed.

Lemma counter_ratio Nt n : (0 < Nt <= n)%Z -> (n <= 2 ^ 53)%Z -> / 9007199254740992 <= IZR Nt / IZR n <= 1.
Proof.
  intros H1 H2. assert (1 <= IZR Nt) by (apply IZR_le; lia). assert (IZR Nt <= IZR n) by (apply IZR_le; lia).
  assert (IZR n <= 9007199254740992) by (apply IZR_le; lia). split.
  - apply Rmult_le_reg_r with (IZR n); [lra|]. unfold Rdiv. rewrite Rmult_assoc, Rinv_l by lra. lra.
  - apply Rmult_le_reg_r with (IZR n); [lra|]. unfold Rdiv. rewrite Rmult_assoc, Rinv_l by lra. lra.
Qed.

Lemma risk_near (q : b64) Nt n : finite64 q = true -> / 10 ^ 40 <= B2R64 q <= 1 -> (0 < Nt <= n)%Z -> (n <= 2 ^ 53)%Z ->
  let rho := B2R64 q / (IZR Nt / IZR n) in let r := b64_div q (b64_div (b64_ofZ Nt) (b64_ofZ n)) in
  Nr r rho (21 / 10 * eps) /\ / 10 ^ 40 <= rho <= 10 ^ 16.
Proof.
  intros Fq Hq H1 H2 rho r. pose proof (counter_ratio Nt n H1 H2) as H. set (R0 := IZR Nt / IZR n) in *.
  assert (P40 : 0 < / 10 ^ 40) by (apply Rinv_0_lt_compat, pow_lt; lra).
  assert (N0 : Nr (b64_div (b64_ofZ Nt) (b64_ofZ n)) R0 eps).
  { apply (Nr_div _ _ _ _ 0 0); try lra; try (apply Nr_ofZ; lia).
    - apply not_0_IZR. lia.
    - apply (mid_of _ (/ 10 ^ 40) 1); [rewrite Rabs_pos_eq by (unfold R0 in H; lra); split; [|apply H]|apply Rinv_le; [apply pow_lt; lra|apply Rle_pow; [lra|lia]]|apply Rle_trans with (10 ^ 0); [simpl; lra|apply Rle_pow; [lra|lia]]].
      eapply Rle_trans; [|apply H]. apply Rinv_le; lra. }
  assert (B : / 10 ^ 40 <= rho <= 10 ^ 16).
  { unfold rho. split.
    - apply Rmult_le_reg_r with R0; [lra|]. unfold Rdiv. rewrite Rmult_assoc, Rinv_l by lra. nra.
    - apply Rmult_le_reg_r with R0; [lra|]. unfold Rdiv. rewrite Rmult_assoc, Rinv_l by lra. lra. }
  split; [|exact B]. apply (Nr_div _ _ _ _ 0 eps); try (unfold eps; lra).
  - apply Nr_self. assumption.
  - assumption.
  - fold rho. apply mid_bounds. split; [|apply Rle_trans with (10 ^ 16); [apply B|apply Rle_pow; [lra|lia]]].
    apply Rle_trans with (/ 10 ^ 40); [|apply B]. apply Rinv_le; [apply pow_lt; lra|apply Rle_pow; [lra|lia]].
Qed.

Lemma ln_ratio v r e : Nr v r e -> 0 < r -> 0 <= e <= 1 / 10 ^ 9 -> 0 < B2R64 v /\ Rabs (ln (B2R64 v) - ln r) <= e + 2 * (e * e).
Proof.
  intros (_ & A) P He. rewrite (Rabs_pos_eq r) in A by lra. assert (Pv : 0 < B2R64 v) by (apply Rabs_le_inv in A; nra).
  split; [exact Pv|]. replace (ln (B2R64 v) - ln r) with (ln (B2R64 v / r)) by (unfold Rdiv; rewrite ln_mult, ln_Rinv by (try apply Rinv_0_lt_compat; assumption); lra).
  apply ln_close; [|assumption]. replace (B2R64 v / r - 1) with ((B2R64 v - r) * / r) by (field; lra).
  rewrite Rabs_mult, (Rabs_pos_eq (/ r)) by (left; apply Rinv_0_lt_compat; assumption).
  apply Rmult_le_reg_r with r; [assumption|]. rewrite Rmult_assoc, Rinv_l by lra. lra.
Qed.

(** logarithm of a slightly wrong argument *)
Lemma xlog_near (r : b64) rho e : Nr r rho e -> 0 < rho -> 0 <= e <= 1 / 10 ^ 12 ->
  finite64 (xlog (N := B64) musl_utils r) = true /\ 0 < B2R64 r /\
  Rabs (B2R64 (xlog (N := B64) musl_utils r) - ln rho) <= log_error (1 / 5) (3 / 5) rho + e + / 10 ^ 20.
Proof.
  intros Nx P He. assert (He2 : 0 <= e <= 1 / 10 ^ 9) by lra.
  destruct (ln_ratio _ _ _ Nx P He2) as (Pr & HL). destruct Nx as (Fr & A).
  destruct (xlog_error r Fr Pr) as (Fl & El). split; [exact Fl|]. split; [exact Pr|].
  pose proof (Rabs_triang (B2R64 (xlog (N := B64) musl_utils r) - ln (B2R64 r)) (ln (B2R64 r) - ln rho)) as T.
  replace (_ + (ln (B2R64 r) - ln rho)) with (B2R64 (xlog (N := B64) musl_utils r) - ln rho) in T by lra.
  eapply Rle_trans; [exact T|]. assert (EE : e * e <= 1 / 10 ^ 24) by nra.
  assert (LL : Rabs (ln (B2R64 r)) <= Rabs (ln rho) + 2 / 10 ^ 12).
  { pose proof (Rabs_triang (ln (B2R64 r) - ln rho) (ln rho)) as T2. replace (ln (B2R64 r) - ln rho + ln rho) with (ln (B2R64 r)) in T2 by lra. lra. }
  assert (KK : log_error (1 / 4) (1 / 2) (B2R64 r) <= log_error (1 / 5) (3 / 5) rho + 1 / 10 ^ 26).
  { rewrite (Rabs_pos_eq rho) in A by lra. apply Rabs_le_inv in A. unfold log_error.
    assert (1 / 2 <= rho -> rho < 3 / 5 -> True) by auto.
    destruct (Rle_dec (1 / 4) (B2R64 r)) as [X|X]; [destruct (Rlt_dec (B2R64 r) (1 / 2)) as [Y|Y]|].
    - assert (1 / 5 <= rho < 3 / 5) by (split; nra). destruct Rle_dec; [destruct Rlt_dec|]; lra.
    - destruct (Rle_dec (1 / 5) rho); [destruct (Rlt_dec rho (3 / 5))|]; try lra.
      assert (Rabs (ln rho) <= 1); [|lra]. apply Rabs_le.
      assert (4 / 10 <= rho) by nra. split.
      + apply Rle_trans with (ln (/ exp 1)); [rewrite ln_Rinv, ln_exp by apply exp_pos; lra|].
        apply ln_mono; [apply Rinv_0_lt_compat, exp_pos|]. apply Rle_trans with (4 / 10); [|lra].
        pose proof (exp_ineq1_le (1 / 2)) as I. replace 1 with (1 / 2 + 1 / 2) at 1 by lra. rewrite exp_plus.
        assert (5 / 2 <= exp (1 / 2) * exp (1 / 2)).
        { assert (exp (1 / 2) = exp (1 / 4) * exp (1 / 4)) by (rewrite <- exp_plus; f_equal; lra). pose proof (exp_ineq1_le (1 / 8)) as J.
          assert (exp (1 / 4) = exp (1 / 8) * exp (1 / 8)) by (rewrite <- exp_plus; f_equal; lra).
          assert (1265 / 1000 <= exp (1 / 4)) by nra. assert (16 / 10 <= exp (1 / 2)) by nra. nra. }
        apply Rmult_le_reg_r with (exp (1 / 2) * exp (1 / 2)); [lra|]. rewrite Rinv_l by lra. lra.
      + apply Rle_trans with (ln 1); [|rewrite ln_1; lra]. apply ln_mono; lra.
    - destruct (Rle_dec (1 / 5) rho); [destruct (Rlt_dec rho (3 / 5))|]; try lra.
      assert (Rabs (ln rho) <= 2); [|lra]. apply Rabs_le. split.
      + apply Rle_trans with (ln (/ (exp 1 * exp 1))). { rewrite ln_Rinv, ln_mult, ln_exp by (try apply Rmult_lt_0_compat; apply exp_pos). lra. }
        assert (9 / 4 <= exp 1). { replace 1 with (1 / 2 + 1 / 2) by lra. rewrite exp_plus. pose proof (exp_ineq1_le (1 / 2)). nra. }
        apply ln_mono; [apply Rinv_0_lt_compat; nra|]. apply Rle_trans with (1 / 5); [|lra].
        apply Rmult_le_reg_r with (exp 1 * exp 1); [nra|]. rewrite Rinv_l by nra. nra.
      + apply Rle_trans with (ln 1); [|rewrite ln_1; lra]. apply ln_mono; lra. }
  assert (Z20 : / 10 ^ 20 = 1 / 10 ^ 20) by lra. rewrite Z20. lra.
Qed.
