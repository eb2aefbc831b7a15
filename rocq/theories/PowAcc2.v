(** * Lemmas: accuracy of the quantile (C55) *)
From Coq Require Import ZArith List Bool Reals Lra Lia Psatz.
From Flocq Require Import Core.Core IEEE754.BinarySingleNaN.
From Flocq Require Sterbenz.
From Verif Require Import Num XMath B64 RNum B64Facts FloatErr FloatUtilsLemmas LogExact LogAcc ExpExact ExpB64 ExpAcc
  Ubend Peaks Brent Estimator Tail Spot CastLemmas AccSpec PowAcc.
Open Scope R_scope.

Lemma exp_300 : exp 300 <= 10 ^ 150.
Proof.
  replace 300 with (INR 300 * 1) by (rewrite INR_IZR_INZ; simpl; lra).
  assert (H : forall n, exp (INR n * 1) = exp 1 ^ n).
  { induction n as [|n IH]; [simpl; rewrite Rmult_0_l; apply exp_0|]. rewrite S_INR, Rmult_plus_distr_r, exp_plus, IH, Rmult_1_l. simpl. lra. }
  rewrite H. apply Rle_trans with (3 ^ 300).
  - apply pow_incr. split; [left; apply exp_pos|apply exp_le_3].
  - rewrite !pow_IZR. apply IZR_le. vm_compute. discriminate.
Qed.

Lemma small_result z x : Rabs (z - x) <= eps * Rabs x + / 10 ^ 59 -> Rabs x <= 10 ^ 240 -> Rabs z <= 10 ^ 250.
Proof.
  intros H Hx. pose proof (Rabs_triang (z - x) x) as T. replace (z - x + x) with z in T by lra. pose proof inv59_le.
  assert (eps * Rabs x <= Rabs x) by (pose proof (Rabs_pos x); unfold eps; lra).
  assert (2 * 10 ^ 240 + 1 <= 10 ^ 250). { rewrite !pow_IZR, <- mult_IZR, <- plus_IZR. apply IZR_le. vm_compute. discriminate. } lra.
Qed.
Lemma ln_10 : ln 10 <= 278 / 100.
Proof.
  apply Rle_trans with (ln (2 ^ 4)); [apply ln_mono; lra|]. rewrite ln_pow by lra. pose proof ln2_sharp. simpl. lra.
Qed.

Lemma ln_rho rho : / 10 ^ 40 <= rho <= 10 ^ 16 -> Rabs (ln rho) <= 112.
Proof.
  intros B. assert (P40 : 0 < / 10 ^ 40) by (apply Rinv_0_lt_compat, pow_lt; lra).
  apply Rabs_le. split.
    - apply Rle_trans with (ln (/ 10 ^ 40)); [|apply ln_mono; lra]. rewrite ln_Rinv by (apply pow_lt; lra).
      rewrite ln_pow by lra. pose proof ln_10.
      rewrite INR_IZR_INZ. simpl. lra.
    - apply Rle_trans with (ln (10 ^ 16)); [apply ln_mono; lra|]. rewrite ln_pow by lra.
      pose proof ln_10.
      rewrite INR_IZR_INZ. simpl. lra.
Qed.

(** p - 1 suffers no underflow *)
Lemma minus_one_rel (p : b64) : finite64 p = true -> Rabs (B2R64 p) <= 10 ^ 200 ->
  finite64 (b64_minus p (b64_ofZ 1)) = true /\
  Rabs (B2R64 (b64_minus p (b64_ofZ 1)) - (B2R64 p - 1)) <= eps * Rabs (B2R64 p - 1).
Proof.
  intros F H. destruct (ofZ_exact 1 ltac:(lia)) as (F1 & E1). destruct (minus_xval p _ F F1) as (N & V). rewrite E1 in V.
  assert (T : Rabs (B2R64 p - 1) <= 10 ^ 300).
  { pose proof (Rabs_triang (B2R64 p) (-1)) as T. rewrite (Rabs_left (-1)) in T by lra. replace (B2R64 p + -1) with (B2R64 p - 1) in T by lra.
    assert (10 ^ 200 + 1 <= 10 ^ 300). { rewrite !pow_IZR, <- plus_IZR. apply IZR_le. vm_compute. discriminate. } lra. }
  destruct (op_abs _ _ N V T) as (Fw & Ew & _). split; [exact Fw|]. rewrite Ew.
  destruct (Rle_lt_dec (1 / 2) (B2R64 p)) as [A|A]; [destruct (Rle_lt_dec (B2R64 p) 2) as [B|B]|].
  - (* Sterbenz *)
    assert (G : generic_format radix2 fexp64 (B2R64 p - 1)).
    { rewrite <- E1. apply Sterbenz.sterbenz; [typeclasses eauto|typeclasses eauto|apply generic_format_B2R|apply generic_format_B2R|]. rewrite E1. lra. }
    replace (rnd (B2R64 p - 1)) with (B2R64 p - 1) by (symmetry; apply round_generic; [apply valid_rnd_N|exact G]). rewrite Rminus_eq_0, Rabs_R0. apply Rmult_le_pos; [left; apply eps_pos|apply Rabs_pos].
  - apply rnd_rel. apply Rle_trans with 1; [change 1 with (bpow radix2 0); apply bpow_le; lia|]. rewrite Rabs_pos_eq; lra.
  - apply rnd_rel. apply Rle_trans with (1 / 2); [replace (1 / 2) with (bpow radix2 (-1)) by (simpl; lra); apply bpow_le; lia|].
    rewrite Rabs_left1; lra.
Qed.

Section Quantile.
Variables (t : tail B64) (q : b64) (Nt n : Z).
Hypothesis Fs : finite64 (t_sigma t) = true.
Hypothesis Fg : finite64 (t_gamma t) = true.
Hypothesis Fq : finite64 q = true.
Hypothesis Hq : / 10 ^ 40 <= B2R64 q <= 1.
Hypothesis HN : (0 < Nt <= n)%Z.
Hypothesis Hn : (n <= 2 ^ 53)%Z.
Let sigma := B2R64 (t_sigma t).
Let gamma := B2R64 (t_gamma t).
Let rho := B2R64 q / (IZR Nt / IZR n).
Hypothesis Hs : / 10 ^ 30 <= sigma <= 10 ^ 30.
Let r := b64_div q (b64_div (b64_ofZ Nt) (b64_ofZ n)).

Lemma quantile_zero_shape : gamma = 0 ->
  exists z : b64, tail_quantile (c_math musl_utils) t (b64_div (b64_ofZ Nt) (b64_ofZ n)) q = Ret z /\ finite64 z = true /\ Rabs (B2R64 z) <= 10 ^ 250 /\
    Rabs (B2R64 z - gpd_quantile gamma sigma rho) <= sigma * Rpower rho (- gamma) *
      (1015 / 1000 * log_error (1 / 5) (3 / 5) rho + 45 / 10 ^ 17 * (1 + Rabs (ln rho))) + / 10 ^ 59.
Proof.
  intros G0. destruct (risk_near q Nt n Fq Hq HN Hn) as (Nx & B). fold rho r in Nx, B.
  assert (P40 : 0 < / 10 ^ 40) by (apply Rinv_0_lt_compat, pow_lt; lra).
  assert (P30 : 0 < / 10 ^ 30) by (apply Rinv_0_lt_compat, pow_lt; lra).
  destruct (xlog_near r rho _ Nx ltac:(lra) ltac:(unfold eps; lra)) as (Fl & _ & El). set (l := xlog (N := B64) musl_utils r : b64) in *.
  exists (b64_mult (b64_opp (t_sigma t)) l).
  split. { unfold tail_quantile. change (@neq B64 (t_gamma t) (nofZ 0)) with (b64_eqb (t_gamma t) (b64_ofZ 0)).
    rewrite eqb_xval, xval_zero, xval_finite by (try apply finite_not_nan; assumption || reflexivity). rewrite Req_bool_true by exact G0. reflexivity. }
  assert (Fo : finite64 (b64_opp (t_sigma t)) = true) by (rewrite finite_opp; exact Fs).
  destruct (mult_xval _ l Fo Fl) as (N & V). assert (Eo : B2R64 (b64_opp (t_sigma t)) = - sigma) by (unfold b64_opp; rewrite B2R_Bopp; reflexivity).
  rewrite Eo in V. set (l' := B2R64 l) in *. set (K := log_error (1 / 5) (3 / 5) rho) in *.
  assert (K0 : 1 / 10 ^ 15 <= K) by apply log_error_pos.
  pose proof (ln_rho rho B) as LR.
  assert (K1 : K <= 1 / 10 ^ 9). { unfold K, log_error. destruct Rle_dec; [destruct Rlt_dec|]; lra. }
  assert (A : Rabs (- sigma * l' - - sigma * ln rho) <= sigma * (K + 21 / 10 * eps + / 10 ^ 20)).
  { rewrite <- Rmult_minus_distr_l, Rabs_mult, Rabs_Ropp, (Rabs_pos_eq sigma) by lra. apply Rmult_le_compat_l; [lra|exact El]. }
  assert (C : Rabs (- sigma * l') <= sigma * (Rabs (ln rho) + K + 21 / 10 * eps + / 10 ^ 20)).
  { pose proof (Rabs_triang (- sigma * l' - - sigma * ln rho) (- sigma * ln rho)) as T.
    replace (- sigma * l' - - sigma * ln rho + - sigma * ln rho) with (- sigma * l') in T by lra.
    rewrite (Rabs_mult (- sigma) (ln rho)), Rabs_Ropp, (Rabs_pos_eq sigma) in T by lra. lra. }
  assert (S300 : sigma * (Rabs (ln rho) + K + 21 / 10 * eps + / 10 ^ 20) <= 10 ^ 240).
  { pose proof (Rabs_pos (ln rho)). apply Rle_trans with (10 ^ 30 * 1000); [apply Rmult_le_compat; try lra; unfold eps; lra|].
    rewrite !pow_IZR, <- mult_IZR. apply IZR_le. vm_compute. discriminate. }
  assert (T240 : 10 ^ 240 <= 10 ^ 300) by (apply Rle_pow; [lra|lia]).
  destruct (op_abs _ _ N V ltac:(lra)) as (Fz & _ & Rz). split; [exact Fz|]. split; [apply (small_result _ _ Rz); lra|].
  unfold gpd_quantile. destruct (Req_EM_T gamma 0); [|contradiction]. rewrite G0, Ropp_0. unfold Rpower. rewrite Rmult_0_l, exp_0, Rmult_1_r.
  set (z := B2R64 (b64_mult (b64_opp (t_sigma t)) l)) in *.
  pose proof (Rabs_triang (z - - sigma * l') (- sigma * l' - - sigma * ln rho)) as T.
  replace (z - - sigma * l' + (- sigma * l' - - sigma * ln rho)) with (z - - sigma * ln rho) in T by lra.
  assert (M : eps * Rabs (- sigma * l') <= sigma * (eps * (Rabs (ln rho) + K + 21 / 10 * eps + / 10 ^ 20))) by (pose proof eps_pos; nra).
  eapply Rle_trans; [exact T|]. eapply Rle_trans; [apply Rplus_le_compat; [exact Rz|exact A]|].
  assert (F : eps * (Rabs (ln rho) + K + 21 / 10 * eps + / 10 ^ 20) + (K + 21 / 10 * eps + / 10 ^ 20) <= 1015 / 1000 * K + 45 / 10 ^ 17 * (1 + Rabs (ln rho))).
  { pose proof (Rabs_pos (ln rho)). unfold eps. lra. }
  apply (Rmult_le_compat_l sigma) in F; [|lra]. lra.
Qed.

Lemma quantile_shape : / 10 ^ 20 <= Rabs gamma <= 10 ^ 6 -> Rabs (gamma * ln rho) <= 300 ->
  exists z : b64, tail_quantile (c_math musl_utils) t (b64_div (b64_ofZ Nt) (b64_ofZ n)) q = Ret z /\ finite64 z = true /\ Rabs (B2R64 z) <= 10 ^ 250 /\
    Rabs (B2R64 z - gpd_quantile gamma sigma rho) <= sigma * Rpower rho (- gamma) *
      (1015 / 1000 * log_error (1 / 5) (3 / 5) rho + 45 / 10 ^ 17 * (1 + Rabs (ln rho)) + 315 / 10 ^ 17 / Rabs gamma)
      + 37 / 10 ^ 17 * Rabs (gpd_quantile gamma sigma rho) + / 10 ^ 59.
Proof.
  intros Hg HL. destruct (risk_near q Nt n Fq Hq HN Hn) as (Nx & B). fold rho r in Nx, B.
  assert (P40 : 0 < / 10 ^ 40) by (apply Rinv_0_lt_compat, pow_lt; lra).
  assert (P30 : 0 < / 10 ^ 30) by (apply Rinv_0_lt_compat, pow_lt; lra).
  assert (P20 : 0 < / 10 ^ 20) by (apply Rinv_0_lt_compat, pow_lt; lra).
  assert (G0 : gamma <> 0) by (intros X; rewrite X, Rabs_R0 in Hg; lra).
  destruct (xlog_near r rho _ Nx ltac:(lra) ltac:(unfold eps; lra)) as (Fl & _ & El). set (l := xlog (N := B64) musl_utils r : b64) in *.
  set (K := log_error (1 / 5) (3 / 5) rho) in *. assert (K0 : 1 / 10 ^ 15 <= K) by apply log_error_pos.
  pose proof (ln_rho rho B) as LR. pose proof (Rabs_pos (ln rho)) as L0. set (E := K + 21 / 10 * eps + / 10 ^ 20) in *.
  (* the power *)
  set (e := b64_opp (t_gamma t) : b64). assert (Fe : finite64 e = true) by (unfold e; rewrite finite_opp; exact Fg).
  assert (Ve : B2R64 e = - gamma) by (unfold e, b64_opp; rewrite B2R_Bopp; reflexivity).
  assert (Ae : Rabs (B2R64 e) = Rabs gamma) by (rewrite Ve; apply Rabs_Ropp).
  assert (AeL : Rabs (B2R64 e * ln rho) = Rabs (gamma * ln rho)) by (rewrite Ve, <- Ropp_mult_distr_l; apply Rabs_Ropp).
  assert (GK : Rabs gamma * K <= 105 / 10 ^ 6).
  { unfold K, log_error. assert (Rabs gamma * Rabs (ln rho) <= 300) by (rewrite <- Rabs_mult; exact HL). destruct Rle_dec; [destruct Rlt_dec|]; lra. }
  assert (GE : Rabs gamma * E <= 11 / 10 ^ 5). { unfold E, eps. lra. }
  destruct (exponent_error e l (ln rho) E Fe Fl El ltac:(rewrite Ae; lra) ltac:(rewrite AeL; lra) ltac:(rewrite Ae; exact GE)) as (Fy & Ey).
  rewrite Ae, AeL in Ey. pose proof inv59_le as I1. pose proof inv59_pos as I0.
  assert (GE0 : 0 <= Rabs gamma * E) by (apply Rmult_le_pos; unfold E, eps; lra).
  assert (HL0 : 0 <= Rabs (gamma * ln rho)) by apply Rabs_pos.
  destruct (xexp_error (b64_mult e l) (B2R64 e * ln rho) _ Fy Ey ltac:(unfold eps; lra) ltac:(rewrite AeL; lra)) as (p & Ep & Fp & Ap).
  rewrite AeL in Ap. replace (exp (B2R64 e * ln rho)) with (Rpower rho (- gamma)) in Ap by (unfold Rpower; rewrite Ve; reflexivity).
  set (P := Rpower rho (- gamma)) in *. assert (PP : 0 < P) by apply exp_pos.
  assert (P150 : P <= 10 ^ 150).
  { apply Rle_trans with (exp 300); [|apply exp_300]. unfold P, Rpower. apply exp_le_compat. apply Rabs_le_inv in HL. lra. }
  set (A := 1001 / 1000 * ((1 + 1 / 10 ^ 9) * (Rabs gamma * E) + eps * Rabs (gamma * ln rho) + / 10 ^ 59) + 1501 / 10 ^ 19 * Rabs (gamma * ln rho) + 301 / 10 ^ 17) in *.
  assert (A0 : 0 <= A <= 1 / 1000) by (unfold A, eps; lra).
  (* the difference with one *)
  assert (p200 : Rabs (B2R64 p) <= 10 ^ 200).
  { pose proof (Rabs_triang (B2R64 p - P) P) as T. replace (B2R64 p - P + P) with (B2R64 p) in T by lra. rewrite (Rabs_pos_eq P) in T by lra.
    assert (A * P <= P) by nra. assert (2 * 10 ^ 150 <= 10 ^ 200). { rewrite !pow_IZR, <- mult_IZR. apply IZR_le. vm_compute. discriminate. } lra. }
  destruct (minus_one_rel p Fp p200) as (Fw & Ew). set (w := b64_minus p (b64_ofZ 1) : b64) in *.
  assert (Dw : Rabs (B2R64 w - (P - 1)) <= (1 + eps) * (A * P) + eps * Rabs (P - 1)).
  { pose proof (Rabs_triang (B2R64 w - (B2R64 p - 1)) (B2R64 p - P)) as T. replace (B2R64 w - (B2R64 p - 1) + (B2R64 p - P)) with (B2R64 w - (P - 1)) in T by lra.
    pose proof (Rabs_triang (B2R64 p - P) (P - 1)) as T2. replace (B2R64 p - P + (P - 1)) with (B2R64 p - 1) in T2 by lra. pose proof eps_pos. nra. }
  (* the factor *)
  set (c := b64_div (t_sigma t) (t_gamma t) : b64). set (S := sigma / gamma).
  assert (AS : Rabs S = sigma / Rabs gamma). { unfold S, Rdiv. rewrite Rabs_mult, Rabs_inv, (Rabs_pos_eq sigma) by lra. reflexivity. }
  assert (BS : / 10 ^ 36 <= Rabs S <= 10 ^ 50).
  { rewrite AS. split.
    - apply Rmult_le_reg_r with (Rabs gamma); [lra|]. unfold Rdiv. rewrite Rmult_assoc, Rinv_l, Rmult_1_r by lra.
      apply Rle_trans with (/ 10 ^ 36 * 10 ^ 6); [apply Rmult_le_compat_l; [left; apply Rinv_0_lt_compat, pow_lt; lra|lra]|]. lra.
    - apply Rmult_le_reg_r with (Rabs gamma); [lra|]. unfold Rdiv. rewrite Rmult_assoc, Rinv_l, Rmult_1_r by lra. lra. }
  destruct (Nr_div (t_sigma t) (t_gamma t) sigma gamma 0 0 eps) as (Fc & Ac); try lra; try (apply Nr_self; assumption).
  { fold S. apply (mid_of _ _ _ BS); [apply Rinv_le; [apply pow_lt; lra|apply Rle_pow; [lra|lia]]|apply Rle_pow; [lra|lia]]. }
  fold c S in Fc, Ac.
  (* the product *)
  destruct (mult_xval c w Fc Fw) as (Nz & Vz). exists (b64_mult c w).
  split. { unfold tail_quantile. change (@neq B64 (t_gamma t) (nofZ 0)) with (b64_eqb (t_gamma t) (b64_ofZ 0)).
    rewrite eqb_xval, xval_zero, xval_finite by (try apply finite_not_nan; assumption || reflexivity). rewrite Req_bool_false by exact G0.
    cbn [m_pow c_math]. assert (Ep' : xpow (N := B64) musl_utils (r : num B64) (e : num B64) = Ret p) by exact Ep.
    match goal with |- context [xpow ?u ?a ?b] => change (xpow u a b) with (xpow (N := B64) musl_utils (r : num B64) (e : num B64)) end.
    rewrite Ep'. reflexivity. }
  set (W := P - 1) in *. set (c' := B2R64 c) in *. set (w' := B2R64 w) in *.
  assert (Q : gpd_quantile gamma sigma rho = S * W). { unfold gpd_quantile. destruct (Req_EM_T gamma 0); [contradiction|]. reflexivity. }
  pose proof (Rabs_pos W) as W0. pose proof eps_pos as EP. assert (S0 : 0 < Rabs S) by (pose proof (Rinv_0_lt_compat (10 ^ 36)); assert (0 < 10 ^ 36) by (apply pow_lt; lra); lra).
  assert (AP0 : 0 <= A * P) by (apply Rmult_le_pos; lra).
  assert (Dc : Rabs (c' * w' - S * W) <= Rabs S * ((1 + eps) * ((1 + eps) * (A * P) + eps * Rabs W) + eps * Rabs W)).
  { replace (c' * w' - S * W) with (c' * (w' - W) + (c' - S) * W) by lra.
    eapply Rle_trans; [apply Rabs_triang|]. rewrite !Rabs_mult.
    assert (Rabs c' <= (1 + eps) * Rabs S). { pose proof (Rabs_triang (c' - S) S) as T. replace (c' - S + S) with c' in T by lra. lra. }
    pose proof (Rabs_pos (w' - W)). pose proof (Rabs_pos c').
    apply Rle_trans with ((1 + eps) * Rabs S * ((1 + eps) * (A * P) + eps * Rabs W) + eps * Rabs S * Rabs W); [|lra].
    apply Rplus_le_compat; [apply Rmult_le_compat; lra|apply Rmult_le_compat_r; lra]. }
  assert (Dc2 : Rabs (c' * w' - S * W) <= (1 + 1 / 10 ^ 9) * (Rabs S * (A * P)) + 21 / 10 * eps * (Rabs S * Rabs W)).
  { eapply Rle_trans; [exact Dc|]. replace ((1 + 1 / 10 ^ 9) * (Rabs S * (A * P)) + 21 / 10 * eps * (Rabs S * Rabs W)) with (Rabs S * ((1 + 1 / 10 ^ 9) * (A * P) + 21 / 10 * eps * Rabs W)) by lra.
    apply Rmult_le_compat_l; [lra|]. unfold eps in *. nra. }
  assert (SW : Rabs (S * W) = Rabs S * Rabs W) by apply Rabs_mult.
  assert (SAP0 : 0 <= Rabs S * (A * P)) by (apply Rmult_le_pos; lra).
  assert (Mc : Rabs (c' * w') <= 2 * (Rabs S * Rabs W) + 2 * (Rabs S * (A * P))).
  { pose proof (Rabs_triang (c' * w' - S * W) (S * W)) as T. replace (c' * w' - S * W + S * W) with (c' * w') in T by lra. rewrite SW in T.
    assert (0 <= Rabs S * Rabs W) by (apply Rmult_le_pos; lra). unfold eps in *. lra. }
  assert (W150 : Rabs W <= 2 * 10 ^ 150). { unfold W. apply Rabs_le. assert (1 <= 10 ^ 150) by (apply pow_R1_Rle; lra). lra. }
  assert (M300 : Rabs (c' * w') <= 10 ^ 240).
  { eapply Rle_trans; [exact Mc|]. apply Rle_trans with (10 ^ 50 * (6 * 10 ^ 150)).
    - assert (AP : A * P <= 10 ^ 150) by nra. assert (Rabs S * Rabs W <= 10 ^ 50 * (2 * 10 ^ 150)) by (apply Rmult_le_compat; lra).
      assert (Rabs S * (A * P) <= 10 ^ 50 * 10 ^ 150) by (apply Rmult_le_compat; lra). lra.
    - rewrite !pow_IZR, <- !mult_IZR. apply IZR_le. vm_compute. discriminate. }
  assert (T240 : 10 ^ 240 <= 10 ^ 300) by (apply Rle_pow; [lra|lia]).
  destruct (op_abs _ _ Nz Vz ltac:(lra)) as (Fz & _ & Rz). split; [exact Fz|]. split; [apply (small_result _ _ Rz); lra|].
  rewrite Q, SW. set (z' := B2R64 (b64_mult c w)) in *.
  pose proof (Rabs_triang (z' - c' * w') (c' * w' - S * W)) as T. replace (z' - c' * w' + (c' * w' - S * W)) with (z' - S * W) in T by lra.
  assert (Mc2 : eps * Rabs (c' * w') <= 11 / 10 * eps * (Rabs S * Rabs W) + 1 / 10 ^ 10 * (Rabs S * (A * P))).
  { pose proof (Rabs_triang (c' * w' - S * W) (S * W)) as T3. replace (c' * w' - S * W + S * W) with (c' * w') in T3 by lra. rewrite SW in T3.
    assert (0 <= Rabs S * Rabs W) by (apply Rmult_le_pos; lra). unfold eps in *. lra. }
  assert (F1 : Rabs (z' - S * W) <= (1 + 2 / 10 ^ 9) * (Rabs S * (A * P)) + 37 / 10 ^ 17 * (Rabs S * Rabs W) + / 10 ^ 59).
  { assert (0 <= Rabs S * Rabs W) by (apply Rmult_le_pos; lra). unfold eps in *. lra. }
  eapply Rle_trans; [exact F1|].
  assert (F2 : (1 + 2 / 10 ^ 9) * (Rabs S * (A * P)) <= sigma * P * (1015 / 1000 * K + 45 / 10 ^ 17 * (1 + Rabs (ln rho)) + 315 / 10 ^ 17 / Rabs gamma)); [|lra].
  rewrite AS. replace ((1 + 2 / 10 ^ 9) * (sigma / Rabs gamma * (A * P))) with (sigma * P * ((1 + 2 / 10 ^ 9) * (A / Rabs gamma))) by (unfold Rdiv; ring).
  apply Rmult_le_compat_l; [apply Rmult_le_pos; lra|].
  apply Rmult_le_reg_r with (Rabs gamma); [lra|].
  replace ((1 + 2 / 10 ^ 9) * (A / Rabs gamma) * Rabs gamma) with ((1 + 2 / 10 ^ 9) * A) by (field; lra).
  replace ((1015 / 1000 * K + 45 / 10 ^ 17 * (1 + Rabs (ln rho)) + 315 / 10 ^ 17 / Rabs gamma) * Rabs gamma)
    with (1015 / 1000 * (Rabs gamma * K) + 45 / 10 ^ 17 * (Rabs gamma + Rabs gamma * Rabs (ln rho)) + 315 / 10 ^ 17) by (field; lra).
  unfold A, E. rewrite (Rabs_mult gamma) in *. set (g := Rabs gamma) in *. set (gL := g * Rabs (ln rho)) in *.
  replace (g * (K + 21 / 10 * eps + / 10 ^ 20)) with (g * K + (21 / 10 * eps + / 10 ^ 20) * g) by lra.
  assert (0 <= g * K) by (apply Rmult_le_pos; lra). set (gK := g * K) in *. unfold eps. lra.
Qed.
End Quantile.

(** ** The threshold *)
Lemma signed_sum (et ud z : b64) dir Z : finite64 et = true -> finite64 z = true -> Rabs (B2R64 et) <= 10 ^ 200 -> Rabs (B2R64 z) <= 10 ^ 250 ->
  (ud = b64_ofZ 1 /\ dir = 1) \/ (ud = b64_ofZ (-1) /\ dir = -1) ->
  finite64 (b64_plus et (b64_mult ud z)) = true /\
  Rabs (B2R64 (b64_plus et (b64_mult ud z)) - (B2R64 et + dir * Z)) <= (1 + eps) * Rabs (B2R64 z - Z) + eps * Rabs (B2R64 et + dir * Z) + / 10 ^ 59.
Proof.
  intros Fe Fz He Hz Hd.
  assert (X : exists y, b64_mult ud z = y /\ finite64 y = true /\ B2R64 y = dir * B2R64 z /\ (dir = 1 \/ dir = -1)).
  { destruct Hd as [(-> & ->)|(-> & ->)].
    - rewrite mult_1_l. exists z. repeat split; auto; lra.
    - rewrite mult_m1_l. exists (b64_opp z). rewrite finite_opp. repeat split; auto. unfold b64_opp. rewrite B2R_Bopp. lra. }
  destruct X as (y & -> & Fy & Ey & Hdir). destruct (plus_xval et y Fe Fy) as (N & V). rewrite Ey in V.
  set (e := B2R64 et) in *. set (z' := B2R64 z) in *.
  assert (Ad : Rabs dir = 1) by (destruct Hdir as [->| ->]; [apply Rabs_R1|rewrite Rabs_left; lra]).
  assert (B : Rabs (e + dir * z') <= 10 ^ 300).
  { eapply Rle_trans; [apply Rabs_triang|]. rewrite Rabs_mult, Ad.
    assert (10 ^ 200 + 10 ^ 250 <= 10 ^ 300). { rewrite !pow_IZR, <- plus_IZR. apply IZR_le. vm_compute. discriminate. } lra. }
  destruct (op_abs _ _ N V B) as (Fv & _ & Rv). split; [exact Fv|]. set (v := B2R64 (b64_plus et y)) in *.
  assert (D : Rabs (e + dir * z' - (e + dir * Z)) = Rabs (z' - Z)).
  { replace (e + dir * z' - (e + dir * Z)) with (dir * (z' - Z)) by lra. rewrite Rabs_mult, Ad. lra. }
  pose proof (Rabs_triang (v - (e + dir * z')) (e + dir * z' - (e + dir * Z))) as T.
  replace (v - (e + dir * z') + (e + dir * z' - (e + dir * Z))) with (v - (e + dir * Z)) in T by lra. rewrite D in T.
  pose proof (Rabs_triang (e + dir * z' - (e + dir * Z)) (e + dir * Z)) as T2.
  replace (e + dir * z' - (e + dir * Z) + (e + dir * Z)) with (e + dir * z') in T2 by lra. rewrite D in T2.
  pose proof eps_pos. nra.
Qed.

Lemma quantile_accuracy (s : spot B64) et dir sigma gamma (q : b64) :
  finite_detector s et dir sigma gamma -> finite64 q = true -> usual_range s et sigma gamma (B2R64 q) ->
  let rho := relative_risk s (B2R64 q) in let ideal := et + dir * gpd_quantile gamma sigma rho in
  exists v : b64, spot_quantile (c_math musl_utils) s q = Ret v /\ finite64 v = true /\
    Rabs (B2R64 v - ideal) <= quantile_error gamma sigma rho + 2 / 10 ^ 16 * Rabs ideal + 1 / 10 ^ 58.
Proof.
  intros (Fe & Ee & Hd & Fs & Es & Ps & Fg & Eg & HN & Hn) Fq (He & Hs & Hg & Hq & HL) rho ideal.
  assert (A : exists z : b64, tail_quantile (c_math musl_utils) (s_tail s) (b64_div (b64_ofZ (s_Nt s)) (b64_ofZ (s_n s))) q = Ret z /\ finite64 z = true /\
     Rabs (B2R64 z) <= 10 ^ 250 /\ (1 + eps) * Rabs (B2R64 z - gpd_quantile gamma sigma rho) <= quantile_error gamma sigma rho + 2 * / 10 ^ 59).
  { pose proof (log_error_pos (1 / 5) (3 / 5) rho) as K0. pose proof (Rabs_pos (ln rho)) as L0. pose proof (Rabs_pos (gpd_quantile gamma sigma rho)) as Q0.
    assert (P0 : 0 < Rpower rho (- gamma)) by apply exp_pos. pose proof inv59_pos as I0.
    destruct Hg as [G0|Hg].
    - destruct (quantile_zero_shape (s_tail s) q (s_Nt s) (s_n s) Fs Fg Fq Hq HN Hn ltac:(rewrite Es; exact Hs) ltac:(rewrite Eg; exact G0)) as (z & E & Fz & Bz & R).
      exists z. split; [exact E|]. split; [exact Fz|]. split; [exact Bz|]. rewrite Es, Eg in R. change (B2R64 q / (IZR (s_Nt s) / IZR (s_n s))) with rho in R.
      unfold quantile_error. destruct (Req_EM_T gamma 0); [|contradiction]. rewrite Rplus_0_r. set (SP := sigma * Rpower rho (- gamma)) in *.
      assert (SP0 : 0 < SP) by (apply Rmult_lt_0_compat; lra).
      apply Rle_trans with ((1 + eps) * (SP * (1015 / 1000 * log_error (1 / 5) (3 / 5) rho + 45 / 10 ^ 17 * (1 + Rabs (ln rho))) + / 10 ^ 59)); [apply Rmult_le_compat_l; [unfold eps; lra|exact R]|].
      set (K := log_error (1 / 5) (3 / 5) rho) in *.
      assert ((1 + eps) * (1015 / 1000 * K + 45 / 10 ^ 17 * (1 + Rabs (ln rho))) <= 102 / 100 * K + 5 / 10 ^ 16 * (1 + Rabs (ln rho))) as F by (unfold eps; lra).
      apply (Rmult_le_compat_l SP) in F; [|lra]. unfold eps in *. lra.
    - destruct (quantile_shape (s_tail s) q (s_Nt s) (s_n s) Fs Fg Fq Hq HN Hn ltac:(rewrite Es; exact Hs) ltac:(rewrite Eg; exact Hg) ltac:(rewrite Eg; exact HL)) as (z & E & Fz & Bz & R).
      exists z. split; [exact E|]. split; [exact Fz|]. split; [exact Bz|]. rewrite Es, Eg in R. change (B2R64 q / (IZR (s_Nt s) / IZR (s_n s))) with rho in R.
      assert (P20 : 0 < / 10 ^ 20) by (apply Rinv_0_lt_compat, pow_lt; lra).
      assert (G0 : gamma <> 0) by (intros X; rewrite X, Rabs_R0 in Hg; lra).
      unfold quantile_error. destruct (Req_EM_T gamma 0); [contradiction|]. set (SP := sigma * Rpower rho (- gamma)) in *.
      assert (SP0 : 0 < SP) by (apply Rmult_lt_0_compat; lra). set (K := log_error (1 / 5) (3 / 5) rho) in *. set (Q := Rabs (gpd_quantile gamma sigma rho)) in *.
      assert (IG : 0 < / Rabs gamma) by (apply Rinv_0_lt_compat; lra).
      eapply Rle_trans; [apply Rmult_le_compat_l; [unfold eps; lra|exact R]|]. unfold Rdiv in *.
      assert ((1 + eps) * (1015 * / 1000 * K + 45 * / 10 ^ 17 * (1 + Rabs (ln rho)) + 315 * / 10 ^ 17 * / Rabs gamma) <= 102 * / 100 * K + 5 * / 10 ^ 16 * (1 + Rabs (ln rho)) + 32 * / 10 ^ 16 * / Rabs gamma) as F by (unfold eps; lra).
      apply (Rmult_le_compat_l SP) in F; [|lra]. unfold eps in *. lra. }
  destruct A as (z & E & Fz & Bz & R). exists (b64_plus (s_et s) (b64_mult (s_updown s) z)).
  split. { unfold spot_quantile. match goal with |- context [tail_quantile ?m ?a ?b ?c] => change (tail_quantile m a b c) with (tail_quantile (c_math musl_utils) (s_tail s) (b64_div (b64_ofZ (s_Nt s)) (b64_ofZ (s_n s))) q) end. rewrite E. reflexivity. }
  destruct (signed_sum (s_et s) (s_updown s) z dir (gpd_quantile gamma sigma rho) Fe Fz ltac:(rewrite Ee; exact He) Bz Hd) as (Fv & Rv).
  split; [exact Fv|]. rewrite Ee in Rv. change (et + dir * gpd_quantile gamma sigma rho) with ideal in Rv.
  assert (1 / 10 ^ 58 = 10 * / 10 ^ 59) by (simpl; field). pose proof inv59_pos.
  pose proof (Rabs_pos ideal). unfold eps in *. lra.
Qed.
