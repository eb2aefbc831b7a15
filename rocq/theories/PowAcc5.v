(** * Lemmas: accuracy of the tail probability (C57) *)
From Coq Require Import ZArith List Bool Reals Lra Lia Psatz.
From Flocq Require Import Core.Core IEEE754.BinarySingleNaN.
From Flocq Require Plus_error Relative.
From Verif Require Import Num XMath B64 RNum B64Facts FloatErr FloatUtilsLemmas LogExact LogAcc ExpExact ExpB64 ExpAcc
  Ubend Peaks Brent Estimator Tail Spot CastLemmas AccSpec PowAcc PowAcc2 PowAcc3.
Open Scope R_scope.

(** a difference of doubles suffers no underflow *)
Lemma minus_rel (a b : b64) : finite64 a = true -> finite64 b = true -> Rabs (B2R64 a - B2R64 b) <= 10 ^ 300 ->
  Nr (b64_minus a b) (B2R64 a - B2R64 b) eps.
Proof.
  intros Fa Fb H. destruct (minus_xval a b Fa Fb) as (N & V). destruct (op_abs _ _ N V H) as (F & E & _). split; [exact F|].
  destruct (Plus_error.FLT_plus_error_N_ex radix2 (-1074) 53 (fun z => negb (Z.even z)) (B2R64 a) (- B2R64 b)) as (e & He & R).
  - apply generic_format_B2R.
  - apply generic_format_opp, generic_format_B2R.
  - rewrite E. change (rnd (B2R64 a - B2R64 b)) with (round radix2 (FLT_exp (-1074) 53) (Znearest (fun z => negb (Z.even z))) (B2R64 a + - B2R64 b)).
    rewrite R. replace ((B2R64 a + - B2R64 b) * (1 + e) - (B2R64 a - B2R64 b)) with (e * (B2R64 a - B2R64 b)) by lra. rewrite Rabs_mult.
    apply Rmult_le_compat_r; [apply Rabs_pos|]. eapply Rle_trans; [exact He|].
    unfold Relative.u_ro. replace (bpow radix2 (- (53) + 1)) with (/ 4503599627370496) by (simpl; lra). unfold eps. 
    apply Rmult_le_reg_r with (1 + / 2 * / 4503599627370496); [lra|]. unfold Rdiv at 1. rewrite Rmult_assoc, Rinv_l by lra. lra.
Qed.

Lemma exp_600 : exp 600 <= 10 ^ 290.
Proof.
  replace 600 with (INR 600 * 1) by (rewrite INR_IZR_INZ; simpl; lra).
  assert (H : forall n, exp (INR n * 1) = exp 1 ^ n).
  { induction n as [|n IH]; [simpl; rewrite Rmult_0_l; apply exp_0|]. rewrite S_INR, Rmult_plus_distr_r, exp_plus, IH, Rmult_1_l. simpl. lra. }
  rewrite H. apply Rle_trans with (3 ^ 600).
  - apply pow_incr. split; [left; apply exp_pos|exact exp_le_3].
  - rewrite !pow_IZR. apply IZR_le. vm_compute. discriminate.
Qed.

Section Product.
Variables (f v : b64) (F0 Y e : R).
Hypothesis Nf : Nr f F0 eps.
Hypothesis HF : / 9007199254740992 <= F0 <= 1.
Hypothesis Fv : finite64 v = true.
Hypothesis HY : Rabs Y <= 600.
Hypothesis He : 0 <= e <= 1 / 1000.
Hypothesis Hv : Rabs (B2R64 v - exp Y) <= e * exp Y.

Lemma final_product : finite64 (b64_mult f v) = true /\ Rabs (B2R64 (b64_mult f v) - F0 * exp Y) <= (1001 / 1000 * e + 25 / 10 ^ 17) * (F0 * exp Y).
Proof.
  destruct Nf as (Ff & Af). rewrite (Rabs_pos_eq F0) in Af by lra. destruct (mult_xval f v Ff Fv) as (N & V).
  pose proof (exp_pos Y) as PE. apply Rabs_le_inv in HY. 
  assert (EU : exp Y <= 10 ^ 290) by (eapply Rle_trans; [apply exp_le_compat|exact exp_600]; lra).
  assert (EL : exp (- 708) * 10 ^ 20 <= exp Y).
  { apply Rle_trans with (exp (-600)); [|apply exp_le_compat; lra]. replace (-600) with (-708 + 108) by lra. rewrite exp_plus.
    apply Rmult_le_compat_l; [left; apply exp_pos|]. replace 108 with (INR 108 * 1) by (rewrite INR_IZR_INZ; simpl; lra).
    assert (H : forall n, exp (INR n * 1) = exp 1 ^ n).
    { induction n as [|n IH]; [simpl; rewrite Rmult_0_l; apply exp_0|]. rewrite S_INR, Rmult_plus_distr_r, exp_plus, IH, Rmult_1_l. simpl. lra. }
    rewrite H. apply Rle_trans with (2 ^ 108).
    - rewrite !pow_IZR. apply IZR_le. vm_compute. discriminate.
    - apply pow_incr. pose proof (exp_ineq1_le 1). lra. }
  pose proof (Rabs_le_inv _ _ Af) as Af'. pose proof (Rabs_le_inv _ _ Hv) as Hv'.
  assert (eE : e * exp Y <= 1 / 1000 * exp Y) by (apply Rmult_le_compat_r; lra).
  assert (Pv : 999 / 1000 * exp Y <= B2R64 v <= 1001 / 1000 * exp Y) by lra.
  assert (Pf : (1 - eps) * F0 <= B2R64 f <= (1 + eps) * F0) by lra.
  assert (FE : 0 < F0 * exp Y) by (apply Rmult_lt_0_compat; lra).
  assert (PR : Rabs (B2R64 f * B2R64 v - F0 * exp Y) <= (e + 1002 / 1000 * eps) * (F0 * exp Y)).
  { replace (B2R64 f * B2R64 v - F0 * exp Y) with ((B2R64 f - F0) * B2R64 v + F0 * (B2R64 v - exp Y)) by lra.
    eapply Rle_trans; [apply Rabs_triang|]. rewrite !Rabs_mult, (Rabs_pos_eq F0), (Rabs_pos_eq (B2R64 v)) by lra.
    assert (Rabs (B2R64 f - F0) * B2R64 v <= eps * F0 * (1001 / 1000 * exp Y)) by (apply Rmult_le_compat; try lra; apply Rabs_pos).
    assert (F0 * Rabs (B2R64 v - exp Y) <= F0 * (e * exp Y)) by (apply Rmult_le_compat_l; lra).
    assert (0 <= eps * (F0 * exp Y)) by (apply Rmult_le_pos; [unfold eps; lra|lra]). lra. }
  pose proof (Rabs_le_inv _ _ PR) as PR'.
  assert (K1 : (e + 1002 / 1000 * eps) * (F0 * exp Y) <= 2 / 1000 * (F0 * exp Y)) by (apply Rmult_le_compat_r; [lra|unfold eps; lra]).
  assert (LOW : bpow radix2 (-1022) <= Rabs (B2R64 f * B2R64 v)).
  { rewrite Rabs_pos_eq by (apply Rmult_le_pos; [|lra]; unfold eps in Pf; lra).
    apply Rle_trans with (998 / 1000 * (F0 * exp Y)); [|lra]. pose proof exp_m708 as E7. pose proof (bpow_gt_0 radix2 (-1022)).
    apply Rle_trans with (998 / 1000 * (/ 9007199254740992 * (exp (-708) * 10 ^ 20))); [lra|].
    apply Rmult_le_compat_l; [lra|]. pose proof (exp_pos (-708)). apply Rmult_le_compat; lra. }
  assert (UP : Rabs (B2R64 f * B2R64 v) <= 10 ^ 300).
  { rewrite Rabs_pos_eq by (apply Rmult_le_pos; [|lra]; unfold eps in Pf; lra).
    assert (F0 * exp Y <= 1 * 10 ^ 290) by (apply Rmult_le_compat; lra).
    assert (2 * 10 ^ 290 <= 10 ^ 300). { rewrite !pow_IZR, <- mult_IZR. apply IZR_le. vm_compute. discriminate. } lra. }
  destruct (op_abs _ _ N V UP) as (Fm & Em & _). split; [exact Fm|].
  pose proof (rnd_rel _ LOW) as RR. rewrite <- Em in RR.
  assert (RB : eps * Rabs (B2R64 f * B2R64 v) <= eps * (1002 / 1000 * (F0 * exp Y))).
  { apply Rmult_le_compat_l; [unfold eps; lra|]. rewrite Rabs_pos_eq by (apply Rmult_le_pos; [|lra]; unfold eps in Pf; lra). lra. }
  pose proof (Rabs_triang (B2R64 (b64_mult f v) - B2R64 f * B2R64 v) (B2R64 f * B2R64 v - F0 * exp Y)) as T.
  replace (B2R64 (b64_mult f v) - B2R64 f * B2R64 v + (B2R64 f * B2R64 v - F0 * exp Y)) with (B2R64 (b64_mult f v) - F0 * exp Y) in T by lra.
  eapply Rle_trans; [exact T|]. eapply Rle_trans; [apply Rplus_le_compat; [eapply Rle_trans; [exact RR|exact RB]|exact PR]|].
  replace (eps * (1002 / 1000 * (F0 * exp Y)) + (e + 1002 / 1000 * eps) * (F0 * exp Y)) with ((e + 2004 / 1000 * eps) * (F0 * exp Y)) by lra.
  apply Rmult_le_compat_r; [lra|]. unfold eps. lra.
Qed.
End Product.

Lemma signed_distance (et ud z : b64) dir : finite64 et = true -> finite64 z = true -> Rabs (B2R64 et) <= 10 ^ 200 -> Rabs (B2R64 z) <= 10 ^ 200 ->
  (ud = b64_ofZ 1 /\ dir = 1) \/ (ud = b64_ofZ (-1) /\ dir = -1) ->
  Nr (b64_mult ud (b64_minus z et)) (dir * (B2R64 z - B2R64 et)) eps /\ Rabs (dir * (B2R64 z - B2R64 et)) <= 2 * 10 ^ 200.
Proof.
  intros Fe Fz He Hz Hd. assert (B : Rabs (B2R64 z - B2R64 et) <= 2 * 10 ^ 200).
  { pose proof (Rabs_triang (B2R64 z) (- B2R64 et)) as T. rewrite Rabs_Ropp in T. replace (B2R64 z + - B2R64 et) with (B2R64 z - B2R64 et) in T by lra. lra. }
  assert (B3 : 2 * 10 ^ 200 <= 10 ^ 300). { rewrite !pow_IZR, <- mult_IZR. apply IZR_le. vm_compute. discriminate. }
  pose proof (minus_rel z et Fz Fe ltac:(lra)) as M. destruct Hd as [(-> & ->)|(-> & ->)].
  - rewrite mult_1_l, Rmult_1_l. auto.
  - rewrite mult_m1_l. replace (-1 * (B2R64 z - B2R64 et)) with (- (B2R64 z - B2R64 et)) by lra. rewrite Rabs_Ropp. split; [apply Nr_opp; exact M|exact B].
Qed.

Section Probability.
Variables (t : tail B64) (d f : b64) (D F0 : R).
Hypothesis Fs : finite64 (t_sigma t) = true.
Hypothesis Fg : finite64 (t_gamma t) = true.
Let sigma := B2R64 (t_sigma t).
Let gamma := B2R64 (t_gamma t).
Hypothesis Hs : / 10 ^ 30 <= sigma <= 10 ^ 30.
Hypothesis Nd : Nr d D eps.
Hypothesis HD : Rabs D <= 2 * 10 ^ 200.
Hypothesis Nf : Nr f F0 eps.
Hypothesis HF : / 9007199254740992 <= F0 <= 1.

Lemma P30 : 0 < / 10 ^ 30.
Proof. apply Rinv_0_lt_compat, pow_lt. lra. Qed.

Lemma probability_zero_shape : gamma = 0 -> Rabs (D / sigma) <= 600 ->
  exists v : b64, tail_probability (c_math musl_utils) t (f : num B64) (d : num B64) = Ret v /\ finite64 v = true /\
    Rabs (B2R64 v - F0 * gpd_survival gamma sigma D) <= probability_error gamma sigma D * (F0 * gpd_survival gamma sigma D).
Proof.
  intros G0 HW. pose proof P30 as P3. destruct Nd as (Fd & Ad).
  assert (Fo : finite64 (b64_opp d) = true) by (rewrite finite_opp; exact Fd).
  destruct (div_xval (b64_opp d) _ Fo Fs ltac:(fold sigma; lra)) as (N & V). unfold b64_opp in V at 2. rewrite B2R_Bopp in V. fold sigma in V.
  set (W := D / sigma) in *. 
  assert (B : Rabs (- B2R64 d / sigma - - W) <= eps * Rabs W).
  { unfold W. replace (- B2R64 d / sigma - - (D / sigma)) with (- ((B2R64 d - D) * / sigma)) by (field; lra). unfold Rdiv. rewrite Rabs_Ropp, !Rabs_mult, <- Rmult_assoc.
    apply Rmult_le_compat_r; [apply Rabs_pos|exact Ad]. }
  assert (B2 : Rabs (- B2R64 d / sigma) <= 601).
  { pose proof (Rabs_triang (- B2R64 d / sigma - - W) (- W)) as T. rewrite Rabs_Ropp in T. replace (- B2R64 d / sigma - - W + - W) with (- B2R64 d / sigma) in T by lra. unfold eps in B. lra. }
  assert (T3 : 10 ^ 3 <= 10 ^ 300) by (apply Rle_pow; [lra|lia]).
  destruct (op_abs _ _ N V ltac:(lra)) as (Fy & _ & Ry). set (y := b64_div (b64_opp d) (t_sigma t)) in *. pose proof inv59_le as I59.
  pose proof (Rabs_pos W) as W0.
  assert (Dy : Rabs (B2R64 y - - W) <= 21 / 10 * eps * Rabs W + / 10 ^ 59).
  { pose proof (Rabs_triang (B2R64 y - - B2R64 d / sigma) (- B2R64 d / sigma - - W)) as T.
    replace (B2R64 y - - B2R64 d / sigma + (- B2R64 d / sigma - - W)) with (B2R64 y - - W) in T by lra.
    pose proof (Rabs_triang (- B2R64 d / sigma - - W) (- W)) as T2. rewrite Rabs_Ropp in T2. replace (- B2R64 d / sigma - - W + - W) with (- B2R64 d / sigma) in T2 by lra.
    assert (eps * Rabs (- B2R64 d / sigma) <= eps * ((1 + eps) * Rabs W)) by (apply Rmult_le_compat_l; [unfold eps; lra|lra]).
    assert (eps * eps <= eps / 10) by (unfold eps; lra). nra. }
  destruct (xexp_error y (- W) _ Fy Dy) as (p & Ep & Fp & Ap); [unfold eps; lra|rewrite Rabs_Ropp; lra|]. rewrite Rabs_Ropp in Ap.
  set (e := 1001 / 1000 * (21 / 10 * eps * Rabs W + / 10 ^ 59) + 1501 / 10 ^ 19 * Rabs W + 301 / 10 ^ 17) in *.
  assert (He : 0 <= e <= 1 / 1000). { unfold e, eps. pose proof inv59_pos. lra. }
  destruct (final_product f p F0 (- W) e Nf HF Fp ltac:(rewrite Rabs_Ropp; exact HW) He Ap) as (Fm & Am).
  exists (b64_mult f p). split.
  - unfold tail_probability. change (@neq B64 (t_gamma t) (nofZ 0)) with (b64_eqb (t_gamma t) (b64_ofZ 0)).
    rewrite eqb_xval, xval_zero, xval_finite by (try apply finite_not_nan; assumption || reflexivity). rewrite Req_bool_true by exact G0.
    cbn [m_exp c_math]. match goal with |- context [xexp ?u ?a] => change (xexp u a) with (xexp (N := B64) musl_utils (y : num B64)) end. rewrite Ep. reflexivity.
  - split; [exact Fm|]. unfold gpd_survival, probability_error. destruct (Req_EM_T gamma 0) as [_|X]; [|contradiction].
    replace (- D / sigma) with (- W) by (unfold W; field; lra). fold W. eapply Rle_trans; [exact Am|].
    apply Rmult_le_compat_r; [apply Rmult_le_pos; [lra|left; apply exp_pos]|]. unfold e, eps. lra.
Qed.

Lemma probability_shape : / 10 ^ 5 <= Rabs gamma <= 10 ^ 6 -> 1 / 1000 <= 1 + gamma * D / sigma <= 10 ^ 200 -> Rabs (ln (1 + gamma * D / sigma) / gamma) <= 600 ->
  exists v : b64, tail_probability (c_math musl_utils) t (f : num B64) (d : num B64) = Ret v /\ finite64 v = true /\
    Rabs (B2R64 v - F0 * gpd_survival gamma sigma D) <= probability_error gamma sigma D * (F0 * gpd_survival gamma sigma D).
Proof.
  intros Hg Ha HW. pose proof P30 as P3. destruct Nd as (Fd & Ad).
  assert (P5 : / 10 ^ 5 = 1 / 10 ^ 5) by lra.
  assert (G0 : gamma <> 0) by (intros X; rewrite X, Rabs_R0 in Hg; lra).
  set (u := gamma * D / sigma) in *. set (a := 1 + u) in *. set (L := ln a) in *.
  (* gamma / sigma *)
  assert (Ng : Nr (b64_div (t_gamma t) (t_sigma t)) (gamma / sigma) (101 / 100 * eps)).
  { apply (Nr_div _ _ _ _ 0 0); try (apply Nr_self; assumption); try (unfold eps; lra). fold gamma sigma.
    unfold mid, Rdiv. rewrite Rabs_mult, Rabs_inv, (Rabs_pos_eq sigma) by lra. 
    assert (I1 : / 10 ^ 30 <= / sigma) by (apply Rinv_le; lra).
    assert (I2 : / sigma <= 10 ^ 30). { rewrite <- (Rinv_inv (10 ^ 30)). apply Rinv_le; [apply Rinv_0_lt_compat, pow_lt; lra|lra]. }
    split.
    - apply Rle_trans with (/ 10 ^ 5 * / 10 ^ 30); [rewrite <- Rinv_mult, <- pow_add; apply Rinv_le; [apply pow_lt; lra|apply Rle_pow; [lra|lia]]|].
      apply Rmult_le_compat; lra.
    - apply Rle_trans with (10 ^ 6 * 10 ^ 30); [apply Rmult_le_compat; try lra; apply Rabs_pos|]. rewrite <- pow_add. apply Rle_pow; [lra|lia]. }
  destruct Ng as (Fgs & Ags). set (gs := b64_div (t_gamma t) (t_sigma t)) in *. fold gamma sigma in Ags.
  (* the product *)
  destruct (mult_xval d gs Fd Fgs) as (Nr' & Vr).
  assert (UE : u = D * (gamma / sigma)) by (unfold u; field; lra).
  assert (PR : Rabs (B2R64 d * B2R64 gs - u) <= 202 / 100 * eps * Rabs u).
  { rewrite UE. replace (B2R64 d * B2R64 gs - D * (gamma / sigma)) with ((B2R64 d - D) * B2R64 gs + D * (B2R64 gs - gamma / sigma)) by lra.
    eapply Rle_trans; [apply Rabs_triang|]. rewrite !Rabs_mult.
    assert (GB : Rabs (B2R64 gs) <= (1 + 101 / 100 * eps) * Rabs (gamma / sigma)).
    { pose proof (Rabs_triang (B2R64 gs - gamma / sigma) (gamma / sigma)) as T. replace (B2R64 gs - gamma / sigma + gamma / sigma) with (B2R64 gs) in T by lra. lra. }
    assert (A1 : Rabs (B2R64 d - D) * Rabs (B2R64 gs) <= (eps * Rabs D) * ((1 + 101 / 100 * eps) * Rabs (gamma / sigma))) by (apply Rmult_le_compat; try apply Rabs_pos; assumption).
    assert (A2 : Rabs D * Rabs (B2R64 gs - gamma / sigma) <= Rabs D * (101 / 100 * eps * Rabs (gamma / sigma))) by (apply Rmult_le_compat_l; [apply Rabs_pos|exact Ags]).
    pose proof (Rmult_le_pos _ _ (Rabs_pos D) (Rabs_pos (gamma / sigma))) as DP. set (DG := Rabs D * Rabs (gamma / sigma)) in *.
    assert (A1' : (eps * Rabs D) * ((1 + 101 / 100 * eps) * Rabs (gamma / sigma)) = eps * (1 + 101 / 100 * eps) * DG) by (unfold DG; ring).
    assert (A2' : Rabs D * (101 / 100 * eps * Rabs (gamma / sigma)) = 101 / 100 * eps * DG) by (unfold DG; ring).
    assert (eps * (1 + 101 / 100 * eps) * DG <= 101 / 100 * eps * DG) by (apply Rmult_le_compat_r; [exact DP|unfold eps; lra]). lra. }
  assert (UB : Rabs u <= 2 * 10 ^ 200). { assert (1 <= 10 ^ 200) by (apply pow_R1_Rle; lra). unfold a in Ha. apply Rabs_le. lra. }
  pose proof (Rabs_pos u) as U0.
  assert (PB : Rabs (B2R64 d * B2R64 gs) <= (1 + 202 / 100 * eps) * Rabs u).
  { pose proof (Rabs_triang (B2R64 d * B2R64 gs - u) u) as T. replace (B2R64 d * B2R64 gs - u + u) with (B2R64 d * B2R64 gs) in T by lra. lra. }
  assert (B3 : 5 * 10 ^ 200 + 10 <= 10 ^ 300). { rewrite !pow_IZR, <- mult_IZR, <- plus_IZR. apply IZR_le. vm_compute. discriminate. }
  destruct (op_abs _ _ Nr' Vr) as (Frr & _ & Rr).
  { eapply Rle_trans; [exact PB|]. assert (202 / 100 * eps * Rabs u <= 1 * Rabs u) by (apply Rmult_le_compat_r; [exact U0|unfold eps; lra]). lra. }
  set (r := b64_mult d gs) in *. pose proof inv59_le as I59. pose proof inv59_pos as I59'.
  assert (Dr : Rabs (B2R64 r - u) <= 303 / 100 * eps * Rabs u + / 10 ^ 59).
  { pose proof (Rabs_triang (B2R64 r - B2R64 d * B2R64 gs) (B2R64 d * B2R64 gs - u)) as T.
    replace (B2R64 r - B2R64 d * B2R64 gs + (B2R64 d * B2R64 gs - u)) with (B2R64 r - u) in T by lra.
    assert (eps * Rabs (B2R64 d * B2R64 gs) <= eps * ((1 + 202 / 100 * eps) * Rabs u)) by (apply Rmult_le_compat_l; [unfold eps; lra|exact PB]).
    assert (eps * ((1 + 202 / 100 * eps) * Rabs u) <= 101 / 100 * eps * Rabs u) by (rewrite <- Rmult_assoc; apply Rmult_le_compat_r; [exact U0|unfold eps; lra]). lra. }
  (* 1 + r *)
  destruct (ofZ_exact 1 ltac:(lia)) as (F1 & E1). destruct (plus_xval (b64_ofZ 1) r F1 Frr) as (Na & Va). rewrite E1 in Va.
  assert (UA : Rabs u <= a + 1). { unfold a. apply Rabs_le. unfold a in Ha. lra. }
  assert (R1 : Rabs (1 + B2R64 r - a) <= 303 / 100 * eps * (a + 1) + / 10 ^ 59).
  { replace (1 + B2R64 r - a) with (B2R64 r - u) by (unfold a; lra). eapply Rle_trans; [exact Dr|].
    apply Rplus_le_compat_r. apply Rmult_le_compat_l; [unfold eps; lra|exact UA]. }
  assert (R1b : Rabs (1 + B2R64 r) <= 101 / 100 * a).
  { pose proof (Rabs_triang (1 + B2R64 r - a) a) as T. replace (1 + B2R64 r - a + a) with (1 + B2R64 r) in T by lra. rewrite (Rabs_pos_eq a) in T by lra. unfold eps in R1. lra. }
  destruct (op_abs _ _ Na Va ltac:(lra)) as (Fa & _ & Ra). set (a' := b64_plus (b64_ofZ 1) r) in *.
  set (ea := eps * (42 / 10 + 31 / 10 / a)).
  assert (Ia : 0 < / a <= 1000). { split; [apply Rinv_0_lt_compat; lra|]. apply Rle_trans with (/ (1 / 1000)); [apply Rinv_le; lra|lra]. }
  assert (EA : ea * a = eps * (42 / 10 * a + 31 / 10)) by (unfold ea; field; lra).
  assert (Hea : 0 <= ea <= 1 / 10 ^ 12) by (unfold ea, Rdiv, eps; lra).
  assert (Nra : Nr a' a ea).
  { split; [exact Fa|]. rewrite (Rabs_pos_eq a) by lra. rewrite EA. pose proof (Rabs_triang (B2R64 a' - (1 + B2R64 r)) (1 + B2R64 r - a)) as T.
    replace (B2R64 a' - (1 + B2R64 r) + (1 + B2R64 r - a)) with (B2R64 a' - a) in T by lra. unfold eps in *. lra. }
  destruct (xlog_near a' a ea Nra ltac:(lra) Hea) as (Fl & Pa & El). set (l := xlog (N := B64) musl_utils a' : b64) in *. fold L in El.
  set (E := log_error (1 / 5) (3 / 5) a + ea + / 10 ^ 20) in *.
  (* the exponent *)
  assert (IG : / 10 ^ 6 <= / Rabs gamma <= 10 ^ 5).
  { split; [apply Rinv_le; lra|]. rewrite <- (Rinv_inv (10 ^ 5)). apply Rinv_le; [lra|apply Hg]. }
  assert (AX : Rabs (-1 / gamma) = / Rabs gamma).
  { unfold Rdiv. rewrite Rabs_mult, Rabs_inv, (Rabs_left (-1)) by lra. lra. }
  assert (Nx : Nr (b64_div (b64_ofZ (-1)) (t_gamma t)) (-1 / gamma) (101 / 100 * eps)).
  { apply (Nr_div _ _ _ _ 0 0); try exact G0; try (apply (Nr_ofZ (-1)); lia); try (apply Nr_self; assumption); try (unfold eps; lra). fold gamma.
    apply (mid_of _ (/ 10 ^ 6) (10 ^ 5)); [rewrite AX; exact IG|apply Rinv_le; [apply pow_lt; lra|apply Rle_pow; [lra|lia]]|apply Rle_pow; [lra|lia]]. }
  destruct Nx as (Fx & Ax). rewrite AX in Ax. set (x := b64_div (b64_ofZ (-1)) (t_gamma t)) in *.
  set (ig := / Rabs gamma) in *.
  assert (XB : Rabs (B2R64 x) <= (1 + 101 / 100 * eps) * ig).
  { pose proof (Rabs_triang (B2R64 x - -1 / gamma) (-1 / gamma)) as T. replace (B2R64 x - -1 / gamma + -1 / gamma) with (B2R64 x) in T by lra. rewrite AX in T. lra. }
  assert (XB2 : Rabs (B2R64 x) <= 1001 / 1000 * ig). { eapply Rle_trans; [exact XB|]. apply Rmult_le_compat_r; [lra|unfold eps; lra]. }
  set (Y := -1 / gamma * L).
  assert (YA : Rabs Y = Rabs (L / gamma)). { unfold Y. replace (-1 / gamma * L) with (- (L / gamma)) by (field; exact G0). apply Rabs_Ropp. }
  assert (XL : Rabs (B2R64 x * L - Y) <= 101 / 100 * eps * Rabs Y).
  { unfold Y. rewrite <- Rmult_minus_distr_r, !Rabs_mult, AX. apply (Rmult_le_compat_r (Rabs L)) in Ax; [lra|apply Rabs_pos]. }
  rewrite YA in XL. set (W := Rabs (L / gamma)) in *. assert (W0 : 0 <= W) by apply Rabs_pos.
  assert (XLB : Rabs (B2R64 x * L) <= (1 + 101 / 100 * eps) * W).
  { pose proof (Rabs_triang (B2R64 x * L - Y) Y) as T. replace (B2R64 x * L - Y + Y) with (B2R64 x * L) in T by lra. rewrite YA in T. fold W in T. lra. }
  (* |ln a| <= W |gamma| *)
  assert (Wg : Rabs L * ig = W) by (unfold W, ig, Rdiv; rewrite Rabs_mult, Rabs_inv; reflexivity).
  pose proof (log_error_pos (1 / 5) (3 / 5) a) as LE0. set (le := log_error (1 / 5) (3 / 5) a) in *.
  assert (LEI : le * ig <= 11 / 10 ^ 6).
  { unfold le, log_error. fold L. destruct Rle_dec; [destruct Rlt_dec|]; lra. }
  assert (I20 : / 10 ^ 20 = 1 / 10 ^ 20) by lra.
  assert (LEP : 0 <= le * ig) by (apply Rmult_le_pos; lra).
  assert (EP : 0 <= ea * ig <= 1 / 10 ^ 7). { split; [apply Rmult_le_pos; lra|]. apply Rle_trans with (1 / 10 ^ 12 * 10 ^ 5); [apply Rmult_le_compat; lra|lra]. }
  assert (E0 : 0 <= E) by (unfold E; lra).
  assert (XE : Rabs (B2R64 x) * E <= 1001 / 1000 * (le * ig + ea * ig) + 2 / 10 ^ 20 * ig).
  { apply Rle_trans with (1001 / 1000 * ig * E); [apply Rmult_le_compat_r; [exact E0|exact XB2]|]. unfold E. lra. }
  destruct (exponent_error x l L E Fx Fl El) as (Fy & Ey).
  { lra. } { unfold eps in XLB. lra. } { lra. }
  set (y := b64_mult x l) in *.
  assert (Dy : Rabs (B2R64 y - Y) <= 1002 / 1000 * (le * ig + ea * ig) + 3 / 10 ^ 20 * ig + 203 / 100 * eps * W + / 10 ^ 59).
  { pose proof (Rabs_triang (B2R64 y - B2R64 x * L) (B2R64 x * L - Y)) as T.
    replace (B2R64 y - B2R64 x * L + (B2R64 x * L - Y)) with (B2R64 y - Y) in T by lra. unfold eps in *. lra. }
  set (Dt := 1002 / 1000 * (le * ig + ea * ig) + 3 / 10 ^ 20 * ig + 203 / 100 * eps * W + / 10 ^ 59) in *.
  destruct (xexp_error y Y Dt Fy Dy) as (p & Ep & Fp & Ap); [unfold Dt, eps; lra|rewrite YA; fold W; lra|]. rewrite YA in Ap. fold W in Ap.
  set (e := 1001 / 1000 * Dt + 1501 / 10 ^ 19 * W + 301 / 10 ^ 17) in *.
  assert (He : 0 <= e <= 1 / 1000) by (unfold e, Dt, eps; lra).
  destruct (final_product f p F0 Y e Nf HF Fp ltac:(rewrite YA; exact HW) He Ap) as (Fm & Am).
  exists (b64_mult f p). split.
  - unfold tail_probability. change (@neq B64 (t_gamma t) (nofZ 0)) with (b64_eqb (t_gamma t) (b64_ofZ 0)).
    rewrite eqb_xval, xval_zero, xval_finite by (try apply finite_not_nan; assumption || reflexivity). rewrite Req_bool_false by exact G0.
    cbn [m_pow c_math]. assert (Ep' : xpow (N := B64) musl_utils (a' : num B64) (x : num B64) = Ret p) by exact Ep.
    match goal with |- context [xpow ?u ?b ?c] => change (xpow u b c) with (xpow (N := B64) musl_utils (a' : num B64) (x : num B64)) end.
    rewrite Ep'. reflexivity.
  - split; [exact Fm|]. unfold gpd_survival, probability_error. destruct (Req_EM_T gamma 0) as [X|_]; [contradiction|].
    cbv zeta. fold u. fold a. fold L. fold W. fold le. unfold Rpower. fold L. fold Y.
    eapply Rle_trans; [exact Am|]. apply Rmult_le_compat_r; [apply Rmult_le_pos; [lra|left; apply exp_pos]|].
    assert (EI : ea * ig <= (48 / 10 ^ 17 + 36 / 10 ^ 17 / a) * ig).
    { apply Rmult_le_compat_r; [lra|]. unfold ea, eps, Rdiv. lra. }
    replace ((102 / 100 * le + 6 / 10 ^ 16 + 5 / 10 ^ 16 / a) / Rabs gamma) with (102 / 100 * (le * ig) + 6 / 10 ^ 16 * ig + 5 / 10 ^ 16 * (/ a * ig)) by (unfold ig; field; split; first [lra|apply Rabs_no_R0; exact G0]).
    replace ((48 / 10 ^ 17 + 36 / 10 ^ 17 / a) * ig) with (48 / 10 ^ 17 * ig + 36 / 10 ^ 17 * (/ a * ig)) in EI by (field; lra).
    assert (0 <= / a * ig) by (apply Rmult_le_pos; lra). unfold e, Dt, eps. lra.
Qed.
End Probability.

Lemma probability_accuracy (s : spot B64) et dir sigma gamma (z : b64) :
  finite_detector s et dir sigma gamma -> finite64 z = true ->
  let D := dir * (B2R64 z - et) in probability_range et (B2R64 z) sigma gamma D ->
  let ideal := IZR (s_Nt s) / IZR (s_n s) * gpd_survival gamma sigma D in
  exists v : b64, spot_probability (c_math musl_utils) s z = Ret v /\ finite64 v = true /\
    Rabs (B2R64 v - ideal) <= probability_error gamma sigma D * ideal.
Proof.
  intros (Fe & Ee & Hd & Fs & Es & Ps & Fg & Eg & HN & Hn) Fz D (He & Hz & Hs & HC) ideal.
  destruct (signed_distance (s_et s) (s_updown s) z dir Fe Fz ltac:(rewrite Ee; exact He) Hz Hd) as (Nd & BD). rewrite Ee in Nd, BD. fold D in Nd, BD.
  pose proof (counter_ratio _ _ HN Hn) as HF. set (F0 := IZR (s_Nt s) / IZR (s_n s)) in *.
  assert (Nf : Nr (b64_div (b64_ofZ (s_Nt s)) (b64_ofZ (s_n s))) F0 eps).
  { assert (P40 : 0 < / 10 ^ 40) by (apply Rinv_0_lt_compat, pow_lt; lra).
    apply (Nr_div _ _ _ _ 0 0); try (unfold eps; lra); try (apply Nr_ofZ; lia).
    - apply not_0_IZR. lia.
    - apply mid_bounds. fold F0. split; [|apply Rle_trans with 1; [apply HF|apply pow_R1_Rle; lra]].
      eapply Rle_trans; [|apply HF]. apply Rinv_le; [lra|]. apply Rle_trans with (10 ^ 20); [lra|]. apply Rle_pow; [lra|lia]. }
  assert (K : exists v : b64, tail_probability (c_math musl_utils) (s_tail s) (b64_div (b64_ofZ (s_Nt s)) (b64_ofZ (s_n s)) : num B64) (b64_mult (s_updown s) (b64_minus z (s_et s)) : num B64) = Ret v /\ finite64 v = true /\
    Rabs (B2R64 v - F0 * gpd_survival gamma sigma D) <= probability_error gamma sigma D * (F0 * gpd_survival gamma sigma D)).
  { rewrite <- Es, <- Eg in HC |- *. rewrite <- Es in Hs. destruct HC as [(G0 & HW)|(Hg & Ha & HW)].
    - apply probability_zero_shape; assumption.
    - apply probability_shape; assumption. }
  destruct K as (v & Ev & K). exists v. split; [exact Ev|exact K].
Qed.
