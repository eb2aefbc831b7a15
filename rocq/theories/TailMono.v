(** * TailMono: quantile and tail probability preserve the order in binary64 (C86, C87) *)
From Coq Require Import ZArith List Bool Reals Lra Lia Psatz.
From Flocq Require Import Core.Core IEEE754.BinarySingleNaN.
From Verif Require Import Num XMath Ubend Session Peaks Brent Estimator Tail P2 Spot B64 RNum B64Facts FloatErr LogAcc AccSpec ExpAcc PowAcc PowAcc2 PowAcc4 PowAcc5 LogMono ProbBounds ExpMono MonoSpec.
Open Scope R_scope.

Lemma leb_of (a b : b64) : finite64 a = true -> finite64 b = true -> B2R64 a <= B2R64 b -> b64_leb a b = true.
Proof. intros Fa Fb H. rewrite leb_xval, !xval_finite by (try apply finite_not_nan; assumption). apply Rle_bool_true. exact H. Qed.
Lemma two48 : bpow radix2 (-48) = / 281474976710656.
Proof. reflexivity. Qed.

(** values of finite results *)
Lemma mult_val a b : finite64 a = true -> finite64 b = true -> finite64 (b64_mult a b) = true -> B2R64 (b64_mult a b) = rndc (B2R64 a * B2R64 b).
Proof. intros Fa Fb F. destruct (mult_xval a b Fa Fb) as (_ & V). rewrite xval_finite in V by exact F. exact V. Qed.
Lemma minus_val a b : finite64 a = true -> finite64 b = true -> finite64 (b64_minus a b) = true -> B2R64 (b64_minus a b) = rndc (B2R64 a - B2R64 b).
Proof. intros Fa Fb F. destruct (minus_xval a b Fa Fb) as (_ & V). rewrite xval_finite in V by exact F. exact V. Qed.
Lemma plus_val a b : finite64 a = true -> finite64 b = true -> finite64 (b64_plus a b) = true -> B2R64 (b64_plus a b) = rndc (B2R64 a + B2R64 b).
Proof. intros Fa Fb F. destruct (plus_xval a b Fa Fb) as (_ & V). rewrite xval_finite in V by exact F. exact V. Qed.
Lemma div_val a b : finite64 a = true -> finite64 b = true -> B2R64 b <> 0 -> finite64 (b64_div a b) = true -> B2R64 (b64_div a b) = rndc (B2R64 a / B2R64 b).
Proof. intros Fa Fb P F. destruct (div_xval a b Fa Fb P) as (_ & V). rewrite xval_finite in V by exact F. exact V. Qed.
(** the operands of a finite sum are finite *)
Lemma plus_finite_inv a b : finite64 (b64_plus a b) = true -> finite64 a = true /\ finite64 b = true.
Proof. destruct a as [s|[|]| |s m e H], b as [s'|[|]| |s' m' e' H']; cbn; auto; intros X; discriminate X. Qed.

(** ** The probability *)
Section Prob.
Variables (t : tail B64) (f : b64).
Let gamma := B2R64 (t_gamma t).
Let sigma := B2R64 (t_sigma t).
Hypothesis Fg : finite64 (t_gamma t) = true.
Hypothesis Fs : finite64 (t_sigma t) = true.
Hypothesis Ff : finite64 f = true.
Hypothesis Pf : 0 < B2R64 f <= 1.
Hypothesis Hs : / 10 ^ 30 <= sigma <= 10 ^ 30.

Definition parg (d : b64) : b64 := b64_plus (b64_ofZ 1) (b64_mult d (b64_div (t_gamma t) (t_sigma t))).
Definition pexpo (d : b64) : b64 := b64_mult (b64_div (b64_ofZ (-1)) (t_gamma t)) (xlog (N := B64) musl_utils (parg d)).

Lemma prob_steps (d : b64) D : Nr d D (101 / 100 * eps) -> / 10 ^ 5 <= Rabs gamma <= 10 ^ 6 -> 1 / 1000 <= 1 + gamma * D / sigma <= 31 -> Rabs (ln (1 + gamma * D / sigma) / gamma) <= 32 ->
  finite64 (b64_mult d (b64_div (t_gamma t) (t_sigma t))) = true /\ finite64 (parg d) = true /\ bpow radix2 (-48) <= B2R64 (parg d) < 32 /\
  finite64 (xlog (N := B64) musl_utils (parg d)) = true /\ finite64 (b64_div (b64_ofZ (-1)) (t_gamma t)) = true /\ finite64 (pexpo d) = true /\ Rabs (B2R64 (pexpo d)) <= 33 /\
  tail_probability (c_math musl_utils) t (f : num B64) (d : num B64) = (p <- xexp (N := B64) musl_utils (pexpo d : num B64) ;; Ret (b64_mult f p : num B64)).
Proof.
  intros Nd Hg Ha HW. assert (P30 : 0 < / 10 ^ 30) by (apply Rinv_0_lt_compat, pow_lt; lra).
  assert (G0 : gamma <> 0) by (intros X; rewrite X, Rabs_R0 in Hg; lra).
  set (u := gamma * D / sigma) in *. set (a := 1 + u) in *. set (L := ln a) in *.
  assert (UA : Rabs u <= 31) by (apply Rabs_le; unfold a in Ha; lra).
  assert (T2 : 31 <= 2 * 10 ^ 200) by (assert (10 ^ 2 <= 10 ^ 200) by (apply Rle_pow; [lra|lia]); lra).
  destruct (argument t d D Fg Fs Nd Hs ltac:(fold gamma; lra) ltac:(fold gamma sigma u; lra)) as (Frr & Dr & _).
  fold gamma sigma u in Dr. set (r := b64_mult d (b64_div (t_gamma t) (t_sigma t))) in *. unfold parg. fold r. unfold pexpo, parg. fold r.
  destruct (ofZ_exact 1 ltac:(lia)) as (F1 & E1). destruct (plus_xval (b64_ofZ 1) r F1 Frr) as (Na & Va). rewrite E1 in Va. pose proof inv59_le as I59. pose proof inv59_pos as I59'.
  assert (UA' : Rabs u <= a + 1) by (unfold a; apply Rabs_le; unfold a in Ha; lra).
  assert (Dr' : Rabs (B2R64 r - u) <= 32 / 10 * eps * (a + 1)).
  { assert (31 / 10 * eps * Rabs u <= 31 / 10 * eps * (a + 1)) by (apply Rmult_le_compat_l; [unfold eps; lra|exact UA']). unfold eps in *. lra. }
  assert (R1b : Rabs (1 + B2R64 r) <= 32) by (apply Rabs_le_inv in Dr'; apply Rabs_le; unfold a, eps in *; lra).
  assert (T3 : 10 ^ 3 <= 10 ^ 300) by (apply Rle_pow; [lra|lia]).
  destruct (op_abs _ _ Na Va ltac:(lra)) as (Fa & _ & Ra). set (a' := b64_plus (b64_ofZ 1) r) in *.
  assert (Nra : Nr a' a (1 / 10 ^ 12)).
  { split; [exact Fa|]. rewrite (Rabs_pos_eq a) by lra. pose proof (Rabs_triang (B2R64 a' - (1 + B2R64 r)) (B2R64 r - u)) as T.
    replace (B2R64 a' - (1 + B2R64 r) + (B2R64 r - u)) with (B2R64 a' - a) in T by (unfold a; lra).
    assert (B1 : Rabs (1 + B2R64 r) <= 2 * (a + 1)). { pose proof (Rabs_triang (B2R64 r - u) a) as T'. replace (B2R64 r - u + a) with (1 + B2R64 r) in T' by (unfold a; lra). rewrite (Rabs_pos_eq a) in T' by lra. unfold eps in *. lra. }
    assert (eps * Rabs (1 + B2R64 r) <= eps * (2 * (a + 1))) by (apply Rmult_le_compat_l; [unfold eps; lra|exact B1]). unfold eps in *. lra. }
  split; [exact Frr|]. split; [exact Fa|]. split.
  { destruct Nra as (_ & Aa). rewrite (Rabs_pos_eq a) in Aa by lra. rewrite two48; apply Rabs_le_inv in Aa. lra. }
  destruct (xlog_near a' a _ Nra ltac:(lra) ltac:(lra)) as (Fl & Pa & El). fold L in El. set (l := xlog (N := B64) musl_utils a' : b64) in *. split; [exact Fl|].
  assert (IG : / 10 ^ 6 <= / Rabs gamma <= 10 ^ 5).
  { split; [apply Rinv_le; lra|]. rewrite <- (Rinv_inv (10 ^ 5)). apply Rinv_le; [lra|apply Hg]. }
  assert (AX : Rabs (-1 / gamma) = / Rabs gamma).
  { unfold Rdiv. rewrite Rabs_mult, Rabs_inv, (Rabs_left (-1)) by lra. lra. }
  assert (Nx : Nr (b64_div (b64_ofZ (-1)) (t_gamma t)) (-1 / gamma) (101 / 100 * eps)).
  { apply (Nr_div _ _ _ _ 0 0); try exact G0; try (apply (Nr_ofZ (-1)); lia); try (apply Nr_self; assumption); try (unfold eps; lra). fold gamma.
    apply (mid_of _ (/ 10 ^ 6) (10 ^ 5)); [rewrite AX; exact IG|apply Rinv_le; [apply pow_lt; lra|apply Rle_pow; [lra|lia]]|apply Rle_pow; [lra|lia]]. }
  destruct Nx as (Fx & Ax). rewrite AX in Ax. set (x := b64_div (b64_ofZ (-1)) (t_gamma t)) in *. split; [exact Fx|].
  set (ig := / Rabs gamma) in *.
  assert (XB2 : Rabs (B2R64 x) <= 1001 / 1000 * ig).
  { pose proof (Rabs_triang (B2R64 x - -1 / gamma) (-1 / gamma)) as T. replace (B2R64 x - -1 / gamma + -1 / gamma) with (B2R64 x) in T by lra. rewrite AX in T.
    assert (101 / 100 * eps * ig <= 1 / 1000 * ig) by (apply Rmult_le_compat_r; [lra|unfold eps; lra]). lra. }
  assert (XL : Rabs (B2R64 x * L - -1 / gamma * L) <= 1 / 1000 * Rabs (L / gamma)).
  { rewrite <- Rmult_minus_distr_r, Rabs_mult. unfold Rdiv at 3. rewrite Rabs_mult, Rabs_inv. fold ig. pose proof (Rabs_pos L).
    apply (Rmult_le_compat_r (Rabs L)) in Ax; [|assumption]. assert (101 / 100 * eps * ig * Rabs L <= 1 / 1000 * ig * Rabs L) by (repeat apply Rmult_le_compat_r; try lra; unfold eps; lra). lra. }
  assert (YA : Rabs (-1 / gamma * L) = Rabs (L / gamma)). { replace (-1 / gamma * L) with (- (L / gamma)) by (field; exact G0). apply Rabs_Ropp. }
  assert (XLB : Rabs (B2R64 x * L) <= 321 / 10).
  { pose proof (Rabs_triang (B2R64 x * L - -1 / gamma * L) (-1 / gamma * L)) as T. replace (B2R64 x * L - -1 / gamma * L + -1 / gamma * L) with (B2R64 x * L) in T by lra. lra. }
  assert (Wg : Rabs L * ig = Rabs (L / gamma)) by (unfold ig, Rdiv; rewrite Rabs_mult, Rabs_inv; reflexivity).
  pose proof (log_error_pos (1 / 5) (3 / 5) a) as LE0. set (le := log_error (1 / 5) (3 / 5) a) in *.
  assert (LEI : le * ig <= 11 / 10 ^ 6). { unfold le, log_error. fold L. destruct Rle_dec; [destruct Rlt_dec|]; lra. }
  assert (I20 : / 10 ^ 20 = 1 / 10 ^ 20) by lra.
  set (E := le + 1 / 10 ^ 12 + / 10 ^ 20) in *.
  assert (XE : Rabs (B2R64 x) * E <= 5 / 10 ^ 5).
  { apply Rle_trans with (1001 / 1000 * ig * E); [apply Rmult_le_compat_r; [unfold E; lra|exact XB2]|]. unfold E. lra. }
  destruct (exponent_error x l L E Fx Fl El) as (Fy & Ey); [lra|lra|lra|]. split; [exact Fy|]. split.
  { pose proof (Rabs_triang (B2R64 (b64_mult x l) - B2R64 x * L) (B2R64 x * L)) as T. replace (B2R64 (b64_mult x l) - B2R64 x * L + B2R64 x * L) with (B2R64 (b64_mult x l)) in T by lra.
    unfold eps in Ey. lra. }
  unfold tail_probability. change (@neq B64 (t_gamma t) (nofZ 0)) with (b64_eqb (t_gamma t) (b64_ofZ 0)).
  rewrite eqb_xval, xval_zero, xval_finite by (try apply finite_not_nan; assumption || reflexivity). rewrite Req_bool_false by exact G0.
  cbn [m_pow c_math]. match goal with |- context [xpow ?u ?b ?c] => change (xpow u b c) with (xexp (N := B64) musl_utils (b64_mult x l : num B64)) end. reflexivity.
Qed.

Lemma prob_order_shape (d d' : b64) D D' : Nr d D (101 / 100 * eps) -> Nr d' D' (101 / 100 * eps) -> B2R64 d <= B2R64 d' -> / 10 ^ 5 <= Rabs gamma <= 10 ^ 6 ->
  1 / 1000 <= 1 + gamma * D / sigma <= 31 -> Rabs (ln (1 + gamma * D / sigma) / gamma) <= 32 -> 1 / 1000 <= 1 + gamma * D' / sigma <= 31 -> Rabs (ln (1 + gamma * D' / sigma) / gamma) <= 32 ->
  exists v v' : b64, tail_probability (c_math musl_utils) t (f : num B64) (d : num B64) = Ret (v : num B64) /\ tail_probability (c_math musl_utils) t (f : num B64) (d' : num B64) = Ret (v' : num B64) /\ b64_leb v' v = true.
Proof.
  intros Nd Nd' H Hg A W A' W'. assert (P30 : 0 < / 10 ^ 30) by (apply Rinv_0_lt_compat, pow_lt; lra).
  assert (G0 : gamma <> 0) by (intros X; rewrite X, Rabs_R0 in Hg; lra).
  destruct (prob_steps d D Nd Hg A W) as (Fr & Fa & Ra & Fl & Fx & Fy & By & E). destruct (prob_steps d' D' Nd' Hg A' W') as (Fr' & Fa' & Ra' & Fl' & _ & Fy' & By' & E').
  rewrite E, E'. clear E E' A W A' W'. destruct (ofZ_exact 1 ltac:(lia)) as (F1 & E1). destruct (ofZ_exact (-1) ltac:(lia)) as (Fm & Em).
  destruct Nd as (Fd & _). destruct Nd' as (Fd' & _).
  assert (Fgs : finite64 (b64_div (t_gamma t) (t_sigma t)) = true).
  { destruct (div_xval (t_gamma t) (t_sigma t) Fg Fs ltac:(fold sigma; lra)) as (N & _). destruct (b64_div (t_gamma t) (t_sigma t)) as [s|s| |s m e X]; try discriminate; try reflexivity. exfalso.
    destruct d as [s'|s'| |s' m' e' X']; try discriminate; discriminate Fr. }
  pose proof (div_val _ _ Fg Fs ltac:(fold sigma; lra) Fgs) as Vg. fold gamma sigma in Vg.
  pose proof (div_val _ _ Fm Fg ltac:(fold gamma; lra) Fx) as Vx. rewrite Em in Vx. fold gamma in Vx.
  pose proof (mult_val _ _ Fd Fgs Fr) as Vr. pose proof (mult_val _ _ Fd' Fgs Fr') as Vr'.
  pose proof (plus_val _ _ F1 Fr Fa) as Va. pose proof (plus_val _ _ F1 Fr' Fa') as Va'. rewrite E1 in Va, Va'. fold (parg d) in Va. fold (parg d') in Va'.
  pose proof (mult_val _ _ Fx Fl Fy) as Vy. pose proof (mult_val _ _ Fx Fl' Fy') as Vy'. fold (pexpo d) in Vy. fold (pexpo d') in Vy'.
  set (gs := b64_div (t_gamma t) (t_sigma t)) in *. set (x := b64_div (b64_ofZ (-1)) (t_gamma t)) in *.
  rewrite two48 in Ra, Ra'. assert (Is : 0 < / sigma) by (apply Rinv_0_lt_compat; lra).
  assert (Lg : forall p q : b64, finite64 p = true -> finite64 q = true -> / 281474976710656 <= B2R64 p -> B2R64 p <= B2R64 q -> B2R64 q < 32 ->
    finite64 (xlog (N := B64) musl_utils p) = true -> finite64 (xlog (N := B64) musl_utils q) = true -> B2R64 (xlog (N := B64) musl_utils p) <= B2R64 (xlog (N := B64) musl_utils q)).
  { intros p q Fp Fq B1 B2 B3 L1 L2. rewrite <- !xval_finite by assumption. apply xlog_order; try assumption; [lra|]. right. left. rewrite two48. lra. }
  assert (Y : B2R64 (pexpo d') <= B2R64 (pexpo d)).
  { rewrite Vy, Vy'. apply rndc_mono. destruct (Rlt_le_dec 0 gamma) as [C|C].
    - assert (Pg : 0 <= B2R64 gs). { rewrite Vg. apply Rle_trans with (rndc 0); [rewrite rndc_0; lra|]. apply rndc_mono. apply Rmult_le_pos; lra. }
      assert (Px : B2R64 x <= 0). { rewrite Vx. apply Rle_trans with (rndc 0); [|rewrite rndc_0; lra]. apply rndc_mono. unfold Rdiv. assert (0 < / gamma) by (apply Rinv_0_lt_compat; exact C). lra. }
      assert (Ar : B2R64 (parg d) <= B2R64 (parg d')).
      { rewrite Va, Va'. apply rndc_mono, Rplus_le_compat_l. rewrite Vr, Vr'. apply rndc_mono. apply Rmult_le_compat_r; assumption. }
      pose proof (Lg _ _ Fa Fa' ltac:(lra) Ar ltac:(lra) Fl Fl') as LL. apply Rmult_le_compat_neg_l; assumption.
    - assert (C' : gamma < 0) by lra. assert (Pg : B2R64 gs <= 0). { rewrite Vg. apply Rle_trans with (rndc 0); [|rewrite rndc_0; lra]. apply rndc_mono. unfold Rdiv. pose proof (Rmult_le_compat_r (/ sigma) gamma 0 ltac:(lra) ltac:(lra)). lra. }
      assert (Px : 0 <= B2R64 x). { rewrite Vx. apply Rle_trans with (rndc 0); [rewrite rndc_0; lra|]. apply rndc_mono. unfold Rdiv. assert (/ gamma < 0) by (apply Rinv_lt_0_compat; exact C'). lra. }
      assert (Ar : B2R64 (parg d') <= B2R64 (parg d)).
      { rewrite Va, Va'. apply rndc_mono, Rplus_le_compat_l. rewrite Vr, Vr'. apply rndc_mono. rewrite (Rmult_comm (B2R64 d')), (Rmult_comm (B2R64 d)). apply Rmult_le_compat_neg_l; assumption. }
      pose proof (Lg _ _ Fa' Fa ltac:(lra) Ar ltac:(lra) Fl' Fl) as LL. apply Rmult_le_compat_l; assumption. }
  apply Rabs_le_inv in By, By'.
  destruct (xexp_mono (pexpo d') (pexpo d) Fy' Fy ltac:(lra) Y ltac:(lra)) as (p' & p & Ep' & Ep & Fp' & Fp & P0 & P1).
  rewrite Ep, Ep'. exists (b64_mult f p), (b64_mult f p'). split; [reflexivity|]. split; [reflexivity|].
  destruct (mult_xval f p Ff Fp) as (N1 & V1). destruct (mult_xval f p' Ff Fp') as (N2 & V2). rewrite leb_xval, V1, V2 by assumption.
  apply Rle_bool_true, rndc_mono. apply Rmult_le_compat_l; [lra|exact P1].
Qed.
Lemma prob_order_zero (d d' : b64) : finite64 d = true -> finite64 d' = true -> B2R64 d <= B2R64 d' -> gamma = 0 -> Rabs (B2R64 d / sigma) <= 32 -> Rabs (B2R64 d' / sigma) <= 32 ->
  exists v v' : b64, tail_probability (c_math musl_utils) t (f : num B64) (d : num B64) = Ret (v : num B64) /\ tail_probability (c_math musl_utils) t (f : num B64) (d' : num B64) = Ret (v' : num B64) /\ b64_leb v' v = true.
Proof.
  intros Fd Fd' H G0 W W'. assert (P30 : 0 < / 10 ^ 30) by (apply Rinv_0_lt_compat, pow_lt; lra). assert (Is : 0 < / sigma) by (apply Rinv_0_lt_compat; lra).
  assert (St : forall e : b64, finite64 e = true -> Rabs (B2R64 e / sigma) <= 32 -> exists y : b64, finite64 y = true /\ B2R64 y = rndc (- B2R64 e / sigma) /\ Rabs (B2R64 y) <= 33 /\
     tail_probability (c_math musl_utils) t (f : num B64) (e : num B64) = (p <- xexp (N := B64) musl_utils (y : num B64) ;; Ret (b64_mult f p : num B64))).
  { intros e Fe We. assert (Fo : finite64 (b64_opp e) = true) by (rewrite finite_opp; exact Fe). destruct (div_xval (b64_opp e) (t_sigma t) Fo Fs ltac:(fold sigma; lra)) as (N & V).
    unfold b64_opp in V at 2. rewrite B2R_Bopp in V. fold sigma in V. assert (We' : Rabs (- B2R64 e / sigma) <= 32) by (replace (- B2R64 e / sigma) with (- (B2R64 e / sigma)) by (unfold Rdiv; ring); rewrite Rabs_Ropp; exact We).
    assert (T3 : 10 ^ 3 <= 10 ^ 300) by (apply Rle_pow; [lra|lia]). destruct (op_abs _ _ N V ltac:(lra)) as (Fy & _ & Ry). exists (b64_div (b64_opp e) (t_sigma t)). pose proof inv59_le.
    split; [exact Fy|]. split; [rewrite <- V, xval_finite by exact Fy; reflexivity|]. split.
    { pose proof (Rabs_triang (B2R64 (b64_div (b64_opp e) (t_sigma t)) - - B2R64 e / sigma) (- B2R64 e / sigma)) as T. replace (B2R64 (b64_div (b64_opp e) (t_sigma t)) - - B2R64 e / sigma + - B2R64 e / sigma) with (B2R64 (b64_div (b64_opp e) (t_sigma t))) in T by lra. unfold eps in Ry. lra. }
    unfold tail_probability. change (@neq B64 (t_gamma t) (nofZ 0)) with (b64_eqb (t_gamma t) (b64_ofZ 0)).
    rewrite eqb_xval, xval_zero, xval_finite by (try apply finite_not_nan; assumption || reflexivity). rewrite Req_bool_true by exact G0.
    cbn [m_exp c_math]. match goal with |- context [xexp ?u ?a] => change (xexp u a) with (xexp (N := B64) musl_utils (b64_div (b64_opp e) (t_sigma t) : num B64)) end. reflexivity. }
  destruct (St d Fd W) as (y & Fy & Vy & By & E). destruct (St d' Fd' W') as (y' & Fy' & Vy' & By' & E'). rewrite E, E'.
  assert (Y : B2R64 y' <= B2R64 y). { rewrite Vy, Vy'. apply rndc_mono. apply Rmult_le_compat_r; lra. }
  apply Rabs_le_inv in By, By'.
  destruct (xexp_mono y' y Fy' Fy ltac:(lra) Y ltac:(lra)) as (p' & p & Ep' & Ep & Fp' & Fp & P0 & P1).
  rewrite Ep, Ep'. exists (b64_mult f p), (b64_mult f p'). split; [reflexivity|]. split; [reflexivity|].
  destruct (mult_xval f p Ff Fp) as (N1 & V1). destruct (mult_xval f p' Ff Fp') as (N2 & V2). rewrite leb_xval, V1, V2 by assumption.
  apply Rle_bool_true, rndc_mono. apply Rmult_le_compat_l; [lra|exact P1].
Qed.
End Prob.

Lemma mult_finite_inv a b : finite64 (b64_mult a b) = true -> finite64 a = true /\ finite64 b = true.
Proof. destruct a as [s|s| |s m e H], b as [s'|s'| |s' m' e' H']; intros X; try (discriminate X); split; reflexivity. Qed.

Lemma ret_inj (a b : b64) : Ret (a : num B64) = Ret (b : num B64) -> a = b.
Proof. intros H. change (match Ret (a : num B64) with Ret x => x | Undef _ => a end = b). rewrite H. reflexivity. Qed.

Lemma probability_order (s : spot B64) et dir sigma gamma (z z' : b64) :
  finite_detector s et dir sigma gamma -> finite64 z = true -> finite64 z' = true -> dir * B2R64 z <= dir * B2R64 z' ->
  probability_order_range et (B2R64 z) sigma gamma (dir * (B2R64 z - et)) -> probability_order_range et (B2R64 z') sigma gamma (dir * (B2R64 z' - et)) ->
  exists v v' : b64, spot_probability (c_math musl_utils) s z = Ret v /\ spot_probability (c_math musl_utils) s z' = Ret v' /\ b64_leb v' v = true.
Proof.
  intros (Fe & Ee & Hd & Fs & Es & Ps & Fg & Eg & HN & Hn) Fz Fz' H (He & Hz & Hs & HC) (_ & Hz' & _ & HC').
  destruct (signed_distance (s_et s) (s_updown s) z dir Fe Fz ltac:(rewrite Ee; exact He) Hz Hd) as (Nd & BD).
  destruct (signed_distance (s_et s) (s_updown s) z' dir Fe Fz' ltac:(rewrite Ee; exact He) Hz' Hd) as (Nd' & BD'). rewrite Ee in Nd, Nd'.
  apply (Nr_weaken _ _ _ (101 / 100 * eps)) in Nd, Nd'; try (unfold eps; lra).
  destruct (frequency_value _ _ HN Hn) as (Ff & Pf & Pf1). set (f := b64_div (b64_ofZ (s_Nt s)) (b64_ofZ (s_n s))) in *.
  assert (O : B2R64 (b64_mult (s_updown s) (b64_minus z (s_et s))) <= B2R64 (b64_mult (s_updown s) (b64_minus z' (s_et s)))).
  { pose proof (proj1 Nd) as F1. pose proof (proj1 Nd') as F2. apply mult_finite_inv in F1 as (_ & F1). apply mult_finite_inv in F2 as (_ & F2).
    pose proof (minus_val _ _ Fz Fe F1) as V1. pose proof (minus_val _ _ Fz' Fe F2) as V2.
    destruct Hd as [(-> & ->)|(-> & ->)].
    - rewrite !mult_1_l, V1, V2. apply rndc_mono. lra.
    - rewrite !mult_m1_l. unfold b64_opp. rewrite !B2R_Bopp. apply Ropp_le_contravar. fold B2R64. rewrite V1, V2. apply rndc_mono. lra. }
  assert (K : exists v v' : b64, tail_probability (c_math musl_utils) (s_tail s) (f : num B64) (b64_mult (s_updown s) (b64_minus z (s_et s)) : num B64) = Ret (v : num B64) /\
    tail_probability (c_math musl_utils) (s_tail s) (f : num B64) (b64_mult (s_updown s) (b64_minus z' (s_et s)) : num B64) = Ret (v' : num B64) /\ b64_leb v' v = true).
  { rewrite <- Es, <- Eg in HC, HC'. rewrite <- Es in Hs. assert (P30 : 0 < / 10 ^ 30) by (apply Rinv_0_lt_compat, pow_lt; lra).
    assert (P5 : 0 < / 10 ^ 5) by (apply Rinv_0_lt_compat, pow_lt; lra).
    destruct HC as [(G0 & HW)|(Hg & Ha & HW)], HC' as [(G0' & HW')|(Hg' & Ha' & HW')]; try (exfalso; rewrite G0, Rabs_R0 in Hg'; lra); try (exfalso; rewrite G0', Rabs_R0 in Hg; lra).
    - assert (Sm : forall (e : b64) D, Nr e D (101 / 100 * eps) -> Rabs (D / B2R64 (t_sigma (s_tail s))) <= 31 -> Rabs (B2R64 e / B2R64 (t_sigma (s_tail s))) <= 32).
      { intros e D (_ & A) B. set (sg := B2R64 (t_sigma (s_tail s))) in *. unfold Rdiv in *. rewrite Rabs_mult in *. assert (0 < Rabs (/ sg)) by (apply Rabs_pos_lt, Rinv_neq_0_compat; lra).
        pose proof (Rabs_triang (B2R64 e - D) D) as T. replace (B2R64 e - D + D) with (B2R64 e) in T by lra.
        assert (Rabs (B2R64 e) <= 32 / 31 * Rabs D) by (pose proof (Rabs_pos D); unfold eps in A; lra). apply (Rmult_le_compat_r (Rabs (/ sg))) in H1; lra. }
      apply (prob_order_zero (s_tail s) f); try assumption; try (split; assumption); try apply Nd; try apply Nd'; [apply (Sm _ _ Nd HW)|apply (Sm _ _ Nd' HW')].
    - apply (prob_order_shape (s_tail s) f Fg Fs Ff (conj Pf Pf1) Hs _ _ _ _ Nd Nd' O Hg Ha HW Ha' HW'). }
  destruct K as (v & v' & E & E' & K). exists v, v'. split; [exact E|]. split; [exact E'|exact K].
Qed.

(** ** The quantile *)
Section Quant.
Variables (t : tail B64) (Nt n : Z).
Hypothesis Fs : finite64 (t_sigma t) = true.
Hypothesis Fg : finite64 (t_gamma t) = true.
Hypothesis HN : (0 < Nt <= n)%Z.
Hypothesis Hn : (n <= 2 ^ 53)%Z.
Let sigma := B2R64 (t_sigma t).
Let gamma := B2R64 (t_gamma t).
Let f := b64_div (b64_ofZ Nt) (b64_ofZ n).
Hypothesis Hs : / 10 ^ 30 <= sigma <= 10 ^ 30.
Let rho (q : b64) := B2R64 q / (IZR Nt / IZR n).
Let rr (q : b64) : b64 := b64_div q f.
Let lg (q : b64) : b64 := xlog (N := B64) musl_utils (rr q).
Let ex (q : b64) : b64 := b64_mult (b64_opp (t_gamma t)) (lg q).

Lemma quant_log (q : b64) : finite64 q = true -> / 10 ^ 40 <= B2R64 q <= 1 -> / 10 ^ 14 <= rho q <= 31 ->
  finite64 (rr q) = true /\ bpow radix2 (-48) <= B2R64 (rr q) < 32 /\ finite64 (lg q) = true /\
  Rabs (B2R64 (lg q) - ln (rho q)) <= log_error (1 / 5) (3 / 5) (rho q) + 21 / 10 * eps + / 10 ^ 20.
Proof.
  intros Fq Hq Hr. destruct (risk_near q Nt n Fq Hq HN Hn) as (Nx & B). fold f (rho q) in Nx, B. fold (rr q) in Nx.
  assert (P14 : 0 < / 10 ^ 14) by (apply Rinv_0_lt_compat, pow_lt; lra).
  destruct (xlog_near (rr q) (rho q) _ Nx ltac:(lra) ltac:(unfold eps; lra)) as (Fl & _ & El).
  destruct Nx as (Fr & Ar). split; [exact Fr|]. split; [|split; [exact Fl|exact El]].
  rewrite (Rabs_pos_eq (rho q)) in Ar by lra. rewrite two48. apply Rabs_le_inv in Ar. unfold eps in Ar. lra.
Qed.
Lemma quant_log_order (q q' : b64) : finite64 q = true -> finite64 q' = true -> / 10 ^ 40 <= B2R64 q <= 1 -> / 10 ^ 40 <= B2R64 q' <= 1 -> / 10 ^ 14 <= rho q <= 31 -> / 10 ^ 14 <= rho q' <= 31 ->
  B2R64 q <= B2R64 q' -> B2R64 (lg q) <= B2R64 (lg q').
Proof.
  intros Fq Fq' Hq Hq' Hr Hr' H. destruct (quant_log q Fq Hq Hr) as (F1 & B1 & L1 & _). destruct (quant_log q' Fq' Hq' Hr') as (F2 & B2 & L2 & _).
  destruct (frequency_value _ _ HN Hn) as (Ff & Pf & _). fold f in Ff, Pf. rewrite two48 in B1, B2.
  assert (R : B2R64 (rr q) <= B2R64 (rr q')).
  { unfold rr in *. rewrite !div_val by (assumption || lra). apply rndc_mono. apply Rmult_le_compat_r; [|exact H]. left. apply Rinv_0_lt_compat. exact Pf. }
  rewrite <- !xval_finite by assumption. apply xlog_order; try assumption; [lra|]. right. left. rewrite two48. lra.
Qed.
Lemma quant_exponent (q : b64) : finite64 q = true -> / 10 ^ 40 <= B2R64 q <= 1 -> / 10 ^ 14 <= rho q <= 31 -> / 10 ^ 20 <= Rabs gamma <= 10 ^ 6 -> Rabs (gamma * ln (rho q)) <= 32 ->
  finite64 (ex q) = true /\ Rabs (B2R64 (ex q)) <= 33 /\
  tail_quantile (c_math musl_utils) t (f : num B64) (q : num B64) = (p <- xexp (N := B64) musl_utils (ex q : num B64) ;; Ret (b64_mult (b64_div (t_sigma t) (t_gamma t)) (b64_minus p (b64_ofZ 1)) : num B64)).
Proof.
  intros Fq Hq Hr Hg HL. destruct (quant_log q Fq Hq Hr) as (F1 & B1 & L1 & El).
  assert (P20 : 0 < / 10 ^ 20) by (apply Rinv_0_lt_compat, pow_lt; lra).
  assert (G0 : gamma <> 0) by (intros X; rewrite X, Rabs_R0 in Hg; lra).
  set (L := ln (rho q)) in *. set (K := log_error (1 / 5) (3 / 5) (rho q)) in *. assert (K0 : 1 / 10 ^ 15 <= K) by apply log_error_pos. set (E := K + 21 / 10 * eps + / 10 ^ 20) in *.
  set (e := b64_opp (t_gamma t) : b64). assert (Fe : finite64 e = true) by (unfold e; rewrite finite_opp; exact Fg).
  assert (Ve : B2R64 e = - gamma) by (unfold e, b64_opp; rewrite B2R_Bopp; reflexivity).
  assert (Ae : Rabs (B2R64 e) = Rabs gamma) by (rewrite Ve; apply Rabs_Ropp).
  assert (AeL : Rabs (B2R64 e * L) = Rabs (gamma * L)) by (rewrite Ve, <- Ropp_mult_distr_l; apply Rabs_Ropp).
  assert (GK : Rabs gamma * K <= 105 / 10 ^ 6).
  { unfold K, log_error. fold L. assert (Rabs gamma * Rabs L <= 32) by (rewrite <- Rabs_mult; exact HL). destruct Rle_dec; [destruct Rlt_dec|]; lra. }
  assert (GE : Rabs gamma * E <= 11 / 10 ^ 5). { unfold E, eps. lra. }
  destruct (exponent_error e (lg q) L E Fe L1 El ltac:(rewrite Ae; lra) ltac:(rewrite AeL; lra) ltac:(rewrite Ae; exact GE)) as (Fy & Ey).
  rewrite Ae, AeL in Ey. pose proof inv59_le as I1. change (b64_mult e (lg q)) with (ex q) in Fy, Ey. split; [exact Fy|]. split.
  { pose proof (Rabs_triang (B2R64 (ex q) - B2R64 e * L) (B2R64 e * L)) as T. replace (B2R64 (ex q) - B2R64 e * L + B2R64 e * L) with (B2R64 (ex q)) in T by lra. rewrite AeL in T. unfold eps in Ey. lra. }
  unfold tail_quantile. change (@neq B64 (t_gamma t) (nofZ 0)) with (b64_eqb (t_gamma t) (b64_ofZ 0)).
  rewrite eqb_xval, xval_zero, xval_finite by (try apply finite_not_nan; assumption || reflexivity). rewrite Req_bool_false by exact G0.
  cbn [m_pow c_math]. match goal with |- context [xpow ?u ?a ?b] => change (xpow u a b) with (xexp (N := B64) musl_utils (ex q : num B64)) end. reflexivity.
Qed.

Lemma quant_order (q q' z z' : b64) : finite64 q = true -> finite64 q' = true -> / 10 ^ 40 <= B2R64 q <= 1 -> / 10 ^ 40 <= B2R64 q' <= 1 -> / 10 ^ 14 <= rho q <= 31 -> / 10 ^ 14 <= rho q' <= 31 ->
  B2R64 q <= B2R64 q' -> gamma = 0 \/ / 10 ^ 20 <= Rabs gamma <= 10 ^ 6 -> Rabs (gamma * ln (rho q)) <= 32 -> Rabs (gamma * ln (rho q')) <= 32 ->
  tail_quantile (c_math musl_utils) t (f : num B64) (q : num B64) = Ret (z : num B64) -> tail_quantile (c_math musl_utils) t (f : num B64) (q' : num B64) = Ret (z' : num B64) -> finite64 z = true -> finite64 z' = true ->
  B2R64 z' <= B2R64 z.
Proof.
  intros Fq Fq' Hq Hq' Hr Hr' H Hg HL HL' E E' Fz Fz'. assert (P20 : 0 < / 10 ^ 20) by (apply Rinv_0_lt_compat, pow_lt; lra). assert (P30 : 0 < / 10 ^ 30) by (apply Rinv_0_lt_compat, pow_lt; lra).
  pose proof (quant_log_order q q' Fq Fq' Hq Hq' Hr Hr' H) as LL. destruct (quant_log q Fq Hq Hr) as (_ & _ & L1 & _). destruct (quant_log q' Fq' Hq' Hr') as (_ & _ & L2 & _).
  destruct Hg as [G0|Hg].
  - assert (Q : forall r : b64, tail_quantile (c_math musl_utils) t (f : num B64) (r : num B64) = Ret (b64_mult (b64_opp (t_sigma t)) (lg r) : num B64)).
    { intros r. unfold tail_quantile. change (@neq B64 (t_gamma t) (nofZ 0)) with (b64_eqb (t_gamma t) (b64_ofZ 0)).
      rewrite eqb_xval, xval_zero, xval_finite by (try apply finite_not_nan; assumption || reflexivity). rewrite Req_bool_true by exact G0. reflexivity. }
    rewrite Q in E, E'. apply ret_inj in E. apply ret_inj in E'. subst z z'.
    assert (Fo : finite64 (b64_opp (t_sigma t)) = true) by (rewrite finite_opp; exact Fs). assert (Eo : B2R64 (b64_opp (t_sigma t)) = - sigma) by (unfold b64_opp; rewrite B2R_Bopp; reflexivity).
    rewrite (mult_val _ _ Fo L1 Fz), (mult_val _ _ Fo L2 Fz'), Eo. apply rndc_mono. apply Rmult_le_compat_neg_l; [lra|exact LL].
  - assert (G0 : gamma <> 0) by (intros X; rewrite X, Rabs_R0 in Hg; lra).
    destruct (quant_exponent q Fq Hq Hr Hg HL) as (Fy & By & Q). destruct (quant_exponent q' Fq' Hq' Hr' Hg HL') as (Fy' & By' & Q'). rewrite Q in E. rewrite Q' in E'. clear Q Q'.
    assert (Fo : finite64 (b64_opp (t_gamma t)) = true) by (rewrite finite_opp; exact Fg). assert (Eo : B2R64 (b64_opp (t_gamma t)) = - gamma) by (unfold b64_opp; rewrite B2R_Bopp; reflexivity).
    pose proof (mult_val _ _ Fo L1 Fy) as Vy. pose proof (mult_val _ _ Fo L2 Fy') as Vy'. fold (ex q) in Vy. fold (ex q') in Vy'. rewrite Eo in Vy, Vy'.
    apply Rabs_le_inv in By, By'. destruct (ofZ_exact 1 ltac:(lia)) as (F1 & E1).
    assert (Z : forall (y : b64) (p z0 : b64), xexp (N := B64) musl_utils (y : num B64) = Ret (p : num B64) -> finite64 p = true -> finite64 z0 = true ->
      (p0 <- xexp (N := B64) musl_utils (y : num B64) ;; Ret (b64_mult (b64_div (t_sigma t) (t_gamma t)) (b64_minus p0 (b64_ofZ 1)) : num B64)) = Ret (z0 : num B64) ->
      finite64 (b64_div (t_sigma t) (t_gamma t)) = true /\ B2R64 z0 = rndc (B2R64 (b64_div (t_sigma t) (t_gamma t)) * rndc (B2R64 p - 1))).
    { intros y p z0 Ep Fp F0 X. rewrite Ep in X. apply ret_inj in X. subst z0. destruct (mult_finite_inv _ _ F0) as (Fc & Fw). split; [exact Fc|].
      rewrite (mult_val _ _ Fc Fw F0), (minus_val _ _ Fp F1 Fw), E1. reflexivity. }
    assert (Is : 0 < sigma) by lra.
    destruct (Rlt_le_dec 0 gamma) as [C|C].
    + assert (Y : B2R64 (ex q') <= B2R64 (ex q)). { rewrite Vy, Vy'. apply rndc_mono. apply Rmult_le_compat_neg_l; [lra|exact LL]. }
      destruct (xexp_mono _ _ Fy' Fy ltac:(lra) Y ltac:(lra)) as (p' & p & Ep' & Ep & Fp' & Fp & P0 & P1).
      destruct (Z _ _ _ Ep Fp Fz E) as (Fc & ->). destruct (Z _ _ _ Ep' Fp' Fz' E') as (_ & ->).
      apply rndc_mono. apply Rmult_le_compat_l; [|apply rndc_mono; lra].
      rewrite (div_val _ _ Fs Fg ltac:(fold gamma; lra) Fc). apply Rle_trans with (rndc 0); [rewrite rndc_0; lra|]. apply rndc_mono. fold sigma gamma. apply Rmult_le_pos; [lra|left; apply Rinv_0_lt_compat; exact C].
    + assert (C' : gamma < 0) by lra. assert (Y : B2R64 (ex q) <= B2R64 (ex q')). { rewrite Vy, Vy'. apply rndc_mono. apply Rmult_le_compat_l; [lra|exact LL]. }
      destruct (xexp_mono _ _ Fy Fy' ltac:(lra) Y ltac:(lra)) as (p & p' & Ep & Ep' & Fp & Fp' & P0 & P1).
      destruct (Z _ _ _ Ep Fp Fz E) as (Fc & ->). destruct (Z _ _ _ Ep' Fp' Fz' E') as (_ & ->).
      apply rndc_mono. apply Rmult_le_compat_neg_l; [|apply rndc_mono; lra].
      rewrite (div_val _ _ Fs Fg ltac:(fold gamma; lra) Fc). apply Rle_trans with (rndc 0); [|rewrite rndc_0; lra]. apply rndc_mono. fold sigma gamma. assert (/ gamma < 0) by (apply Rinv_lt_0_compat; exact C').
      unfold Rdiv. pose proof (Rmult_le_compat_l sigma (/ gamma) 0 ltac:(lra) ltac:(lra)). lra.
Qed.
End Quant.

Lemma quantile_order (s : spot B64) et dir sigma gamma (q q' : b64) :
  finite_detector s et dir sigma gamma -> finite64 q = true -> finite64 q' = true -> B2R64 q <= B2R64 q' ->
  quantile_order_range s et sigma gamma (B2R64 q) -> quantile_order_range s et sigma gamma (B2R64 q') ->
  exists v v' : b64, spot_quantile (c_math musl_utils) s q = Ret v /\ spot_quantile (c_math musl_utils) s q' = Ret v' /\ finite64 v = true /\ finite64 v' = true /\
    dir * B2R64 v' <= dir * B2R64 v.
Proof.
  intros FD Fq Fq' H (U & Hr & HL) (U' & Hr' & HL').
  pose proof FD as (Fe & Ee & Hd & Fs & Es & Ps & Fg & Eg & HN & Hn). pose proof U as (He & Hs & Hg & Hq & _). pose proof U' as (_ & _ & _ & Hq' & _).
  destruct (quantile_accuracy s et dir sigma gamma q FD Fq U) as (v & Ev & Fv & _). destruct (quantile_accuracy s et dir sigma gamma q' FD Fq' U') as (v' & Ev' & Fv' & _).
  exists v, v'. split; [exact Ev|]. split; [exact Ev'|]. split; [exact Fv|]. split; [exact Fv'|].
  assert (Inv : forall p w : b64, spot_quantile (c_math musl_utils) s p = Ret w -> exists z : b64, tail_quantile (c_math musl_utils) (s_tail s) (b64_div (b64_ofZ (s_Nt s)) (b64_ofZ (s_n s)) : num B64) (p : num B64) = Ret (z : num B64) /\ w = b64_plus (s_et s) (b64_mult (s_updown s) z)).
  { intros p w X. unfold spot_quantile in X. match type of X with context [tail_quantile ?m ?a ?b ?c] => change (tail_quantile m a b c) with (tail_quantile (c_math musl_utils) (s_tail s) (b64_div (b64_ofZ (s_Nt s)) (b64_ofZ (s_n s)) : num B64) (p : num B64)) in X end.
    destruct (tail_quantile (c_math musl_utils) (s_tail s) (b64_div (b64_ofZ (s_Nt s)) (b64_ofZ (s_n s)) : num B64) (p : num B64)) as [z|]; [|discriminate X]. exists z. split; [reflexivity|]. inversion X. reflexivity. }
  destruct (Inv _ _ Ev) as (z & Ez & V). destruct (Inv _ _ Ev') as (z' & Ez' & V'). rewrite V in Fv |- *. rewrite V' in Fv' |- *. clear V V' Ev Ev' Inv.
  destruct (plus_finite_inv _ _ Fv) as (_ & Fm). destruct (plus_finite_inv _ _ Fv') as (_ & Fm'). destruct (mult_finite_inv _ _ Fm) as (_ & Fz). destruct (mult_finite_inv _ _ Fm') as (_ & Fz').
  assert (O : B2R64 z' <= B2R64 z).
  { unfold relative_risk in *. rewrite <- Eg in HL, HL', Hg. rewrite <- Es in Hs. apply (quant_order (s_tail s) (s_Nt s) (s_n s) Fs Fg HN Hn Hs q q'); assumption. }
  rewrite (plus_val _ _ Fe Fm Fv), (plus_val _ _ Fe Fm' Fv').
  destruct Hd as [(U1 & ->)|(U1 & ->)]; rewrite U1.
  - rewrite !mult_1_l, !Rmult_1_l. apply rndc_mono. lra.
  - rewrite !mult_m1_l. unfold b64_opp. rewrite !B2R_Bopp. fold B2R64. apply Rmult_le_compat_neg_l; [lra|]. apply rndc_mono. lra.
Qed.
