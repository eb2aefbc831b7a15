(** * ProbBounds: the rounded tail probability is on the right side of the frequency of the excesses (C84) *)
From Coq Require Import ZArith List Bool Reals Lra Lia Psatz.
From Flocq Require Import Core.Core IEEE754.BinarySingleNaN.
From Verif Require Import Num XMath B64 RNum B64Facts FloatErr FloatUtilsLemmas LogExact LogAcc ExpExact ExpB64 ExpAcc
  Ubend Peaks Brent Estimator Tail Spot CastLemmas AccSpec PowAcc PowAcc2 PowAcc3 PowAcc4 PowAcc5 LogMono.
Open Scope R_scope.

Lemma Nr_sign v r : Nr v r (101 / 100 * eps) -> (0 <= r -> 0 <= B2R64 v) /\ (r <= 0 -> B2R64 v <= 0) /\ Rabs (B2R64 v) <= 101 / 100 * Rabs r.
Proof.
  intros (F & A). pose proof (Rabs_pos r). split; [|split].
  - intros H0. rewrite (Rabs_pos_eq r) in A by exact H0. apply Rabs_le_inv in A. unfold eps in A. lra.
  - intros H0. rewrite (Rabs_left1 r) in A by exact H0. apply Rabs_le_inv in A. unfold eps in A. lra.
  - pose proof (Rabs_triang (B2R64 v - r) r) as T. replace (B2R64 v - r + r) with (B2R64 v) in T by lra. unfold eps in A. lra.
Qed.
Lemma Nr_weaken v r e e' : Nr v r e -> e <= e' -> Nr v r e'.
Proof. intros (F & A) H. split; [exact F|]. eapply Rle_trans; [exact A|]. apply Rmult_le_compat_r; [apply Rabs_pos|exact H]. Qed.

Lemma sg1 a g : 0 < a -> 0 <= a * g -> 0 <= g. Proof. intros. nra. Qed.
Lemma sg2 a g : 0 < a -> a * g <= 0 -> g <= 0. Proof. intros. nra. Qed.
Lemma sg3 a g : a < 0 -> 0 <= a * g -> g <= 0. Proof. intros. nra. Qed.
Lemma sg4 a g : a < 0 -> a * g <= 0 -> 0 <= g. Proof. intros. nra. Qed.
Lemma sgn g i : g <= 0 -> 0 < i -> g * i <= 0. Proof. intros. nra. Qed.
Lemma spp a b : 0 <= a -> b <= 0 -> a * b <= 0. Proof. intros. nra. Qed.
Lemma snn a b : a <= 0 -> b <= 0 -> 0 <= a * b. Proof. intros. nra. Qed.
Lemma snp a b : a <= 0 -> 0 <= b -> a * b <= 0. Proof. intros. nra. Qed.

(** the frequency times a factor at most one, or at least one *)
Lemma scaled_below f p : finite64 f = true -> 0 < B2R64 f -> finite64 p = true -> 0 <= B2R64 p <= 1 ->
  nan64 (b64_mult f p) = false /\ 0 <= xval (b64_mult f p) <= B2R64 f.
Proof.
  intros Ff Pf Fp Hp. destruct (mult_xval f p Ff Fp) as (N & V). split; [exact N|]. rewrite V. split.
  - rewrite <- rndc_0. apply rndc_mono. nra.
  - apply Rle_trans with (rndc (B2R64 f)); [apply rndc_mono; nra|rewrite rndc_format; lra].
Qed.
Lemma scaled_above f p : finite64 f = true -> 0 < B2R64 f -> nan64 p = false -> 1 <= xval p ->
  nan64 (b64_mult f p) = false /\ B2R64 f <= xval (b64_mult f p).
Proof.
  intros Ff Pf Np Hp. destruct (finite64 p) eqn:Fp.
  - rewrite xval_finite in Hp by exact Fp. destruct (mult_xval f p Ff Fp) as (N & V). split; [exact N|]. rewrite V. apply Rle_trans with (rndc (B2R64 f)); [rewrite rndc_format; lra|apply rndc_mono; nra].
  - destruct p as [s|s| |s m e X]; try discriminate. pose proof TOP_pos as T. destruct s; [change (xval (B754_infinity true)) with (- TOP) in Hp; lra|].
    destruct f as [s|s| |s m e X]; try discriminate; [cbn in Pf; lra|]. destruct s.
    { exfalso. assert (E : B2R64 (B754_finite true m e X) = IZR (Z.neg m) * bpow radix2 e) by reflexivity. rewrite E in Pf. pose proof (IZR_lt (Z.neg m) 0 ltac:(lia)). pose proof (bpow_gt_0 radix2 e). nra. }
    split; [reflexivity|]. pose proof (B2R_bounds (B754_finite false m e X)). change (xval (b64_mult (B754_finite false m e X) (B754_infinity false))) with TOP. lra.
Qed.

Section Bounds.
Variables (t : tail B64) (f d : b64) (D : R).
Let gamma := B2R64 (t_gamma t).
Let sigma := B2R64 (t_sigma t).
Hypothesis Fg : finite64 (t_gamma t) = true.
Hypothesis Fs : finite64 (t_sigma t) = true.
Hypothesis Ff : finite64 f = true.
Hypothesis Pf : 0 < B2R64 f.
Hypothesis Nd : Nr d D (101 / 100 * eps).
Hypothesis Hs : / 10 ^ 30 <= sigma <= 10 ^ 30.

Lemma sided y : (0 <= D -> B2R64 y <= 0) -> (D <= 0 -> 0 <= B2R64 y) -> finite64 y = true -> Rabs (B2R64 y) <= 1488522235 ->
  exists p, xexp (N := B64) musl_utils y = Ret (p : num B64) /\ nan64 (b64_mult f p) = false /\
    (0 <= D -> 0 <= xval (b64_mult f p) <= B2R64 f) /\ (D <= 0 -> B2R64 f <= xval (b64_mult f p)).
Proof.
  intros H1 H2 Fy By. destruct (xexp_side y Fy By) as (p & Ep & Np & P1 & P2). exists p. split; [exact Ep|].
  destruct (Rle_lt_dec 0 D) as [C|C].
  - destruct (P2 (H1 C)) as (Fp & Hp). destruct (scaled_below f p Ff Pf Fp Hp) as (N & B). split; [exact N|]. split; [intros _; exact B|].
    intros C'. pose proof (P1 (H2 C')) as Q. destruct (scaled_above f p Ff Pf Np Q) as (_ & B'). exact B'.
  - destruct (scaled_above f p Ff Pf Np (P1 (H2 ltac:(lra)))) as (N & B). split; [exact N|]. split; [intros; lra|intros _; exact B].
Qed.

Lemma bounds_zero : gamma = 0 -> Rabs (D / sigma) <= 10 ^ 9 ->
  exists v : b64, tail_probability (c_math musl_utils) t (f : num B64) (d : num B64) = Ret v /\ nan64 v = false /\
    (0 <= D -> 0 <= xval v <= B2R64 f) /\ (D <= 0 -> B2R64 f <= xval v).
Proof.
  intros G0 HW. assert (P30 : 0 < / 10 ^ 30) by (apply Rinv_0_lt_compat, pow_lt; lra). pose proof Nd as (Fd & _). destruct (Nr_sign d D Nd) as (S1 & S2 & S3).
  assert (Fo : finite64 (b64_opp d) = true) by (rewrite finite_opp; exact Fd).
  destruct (div_xval (b64_opp d) (t_sigma t) Fo Fs ltac:(fold sigma; lra)) as (N & V). fold sigma in V.
  assert (Vo : B2R64 (b64_opp d) = - B2R64 d) by (unfold b64_opp; apply B2R_Bopp). rewrite Vo in V.
  assert (Is : 0 < / sigma) by (apply Rinv_0_lt_compat; lra).
  assert (B : Rabs (- B2R64 d / sigma) <= 101 / 100 * 10 ^ 9).
  { unfold Rdiv in *. rewrite Rabs_mult, Rabs_Ropp. rewrite Rabs_mult in HW. pose proof (Rabs_pos (/ sigma)) as I0.
    apply (Rmult_le_compat_r _ _ _ I0) in S3. lra. }
  assert (10 ^ 10 <= 10 ^ 300) by (apply Rle_pow; [lra|lia]). pose proof inv59_le.
  destruct (op_abs _ _ N V ltac:(lra)) as (Fy & Ey & Ay). set (y := b64_div (b64_opp d) (t_sigma t)) in *.
  destruct (sided y) as (p & Ep & Np & P); try exact Fy.
  - intros C. rewrite <- xval_finite by exact Fy. rewrite V, <- rndc_0. apply rndc_mono. apply S1 in C. unfold Rdiv. nra.
  - intros C. rewrite <- xval_finite by exact Fy. rewrite V, <- rndc_0. apply rndc_mono. apply S2 in C. unfold Rdiv. nra.
  - pose proof (Rabs_triang (B2R64 y - - B2R64 d / sigma) (- B2R64 d / sigma)) as T. replace (B2R64 y - - B2R64 d / sigma + - B2R64 d / sigma) with (B2R64 y) in T by lra. unfold eps in Ay. lra.
  - exists (b64_mult f p). split; [|split; [exact Np|exact P]].
    unfold tail_probability. change (@neq B64 (t_gamma t) (nofZ 0)) with (b64_eqb (t_gamma t) (b64_ofZ 0)).
    rewrite eqb_xval, xval_zero, xval_finite by (try apply finite_not_nan; assumption || reflexivity). rewrite Req_bool_true by exact G0.
    cbn [m_exp c_math]. match goal with |- context [xexp ?u ?a] => change (xexp u a) with (xexp (N := B64) musl_utils (y : num B64)) end. rewrite Ep. reflexivity.
Qed.

Lemma argument : / 10 ^ 6 <= Rabs gamma <= 10 ^ 6 -> Rabs (gamma * D / sigma) <= 2 * 10 ^ 200 ->
  let r := b64_mult d (b64_div (t_gamma t) (t_sigma t)) in
  finite64 r = true /\ Rabs (B2R64 r - gamma * D / sigma) <= 31 / 10 * eps * Rabs (gamma * D / sigma) + / 10 ^ 59 /\
  (0 <= D * gamma -> 0 <= B2R64 r) /\ (D * gamma <= 0 -> B2R64 r <= 0).
Proof.
  intros Hg UB. assert (P3 : 0 < / 10 ^ 30) by (apply Rinv_0_lt_compat, pow_lt; lra). pose proof Nd as (Fd & Ad). destruct (Nr_sign d D Nd) as (S1 & S2 & S3).
  assert (P6 : / 10 ^ 6 = 1 / 10 ^ 6) by lra. assert (Is : 0 < / sigma) by (apply Rinv_0_lt_compat; lra).
  assert (G0 : gamma <> 0) by (intros X; rewrite X, Rabs_R0 in Hg; lra).
  set (u := gamma * D / sigma) in *.
  assert (Ng : Nr (b64_div (t_gamma t) (t_sigma t)) (gamma / sigma) (101 / 100 * eps)).
  { apply (Nr_div _ _ _ _ 0 0); try (apply Nr_self; assumption); try (unfold eps; lra). fold gamma sigma.
    unfold mid, Rdiv. rewrite Rabs_mult, Rabs_inv, (Rabs_pos_eq sigma) by lra.
    assert (I1 : / 10 ^ 30 <= / sigma) by (apply Rinv_le; lra).
    assert (I2 : / sigma <= 10 ^ 30). { rewrite <- (Rinv_inv (10 ^ 30)). apply Rinv_le; [apply Rinv_0_lt_compat, pow_lt; lra|lra]. }
    split.
    - apply Rle_trans with (/ 10 ^ 6 * / 10 ^ 30); [rewrite <- Rinv_mult, <- pow_add; apply Rinv_le; [apply pow_lt; lra|apply Rle_pow; [lra|lia]]|].
      apply Rmult_le_compat; lra.
    - apply Rle_trans with (10 ^ 6 * 10 ^ 30); [apply Rmult_le_compat; try lra; apply Rabs_pos|]. rewrite <- pow_add. apply Rle_pow; [lra|lia]. }
  destruct (Nr_sign _ _ Ng) as (T1 & T2 & T3). destruct Ng as (Fgs & Ags). set (gs := b64_div (t_gamma t) (t_sigma t)) in *. fold gamma sigma in Ags.
  intros r. destruct (mult_xval d gs Fd Fgs) as (Nr' & Vr).
  assert (UE : u = D * (gamma / sigma)) by (unfold u; field; lra).
  assert (PR : Rabs (B2R64 d * B2R64 gs - u) <= 205 / 100 * eps * Rabs u).
  { rewrite UE. replace (B2R64 d * B2R64 gs - D * (gamma / sigma)) with ((B2R64 d - D) * B2R64 gs + D * (B2R64 gs - gamma / sigma)) by lra.
    eapply Rle_trans; [apply Rabs_triang|]. rewrite !Rabs_mult.
    assert (GB : Rabs (B2R64 gs) <= (1 + 101 / 100 * eps) * Rabs (gamma / sigma)).
    { pose proof (Rabs_triang (B2R64 gs - gamma / sigma) (gamma / sigma)) as T. replace (B2R64 gs - gamma / sigma + gamma / sigma) with (B2R64 gs) in T by lra. lra. }
    assert (A1 : Rabs (B2R64 d - D) * Rabs (B2R64 gs) <= (101 / 100 * eps * Rabs D) * ((1 + 101 / 100 * eps) * Rabs (gamma / sigma))) by (apply Rmult_le_compat; try apply Rabs_pos; assumption).
    assert (A2 : Rabs D * Rabs (B2R64 gs - gamma / sigma) <= Rabs D * (101 / 100 * eps * Rabs (gamma / sigma))) by (apply Rmult_le_compat_l; [apply Rabs_pos|exact Ags]).
    pose proof (Rmult_le_pos _ _ (Rabs_pos D) (Rabs_pos (gamma / sigma))) as DP. set (DG := Rabs D * Rabs (gamma / sigma)) in *.
    assert (A1' : (101 / 100 * eps * Rabs D) * ((1 + 101 / 100 * eps) * Rabs (gamma / sigma)) = 101 / 100 * eps * (1 + 101 / 100 * eps) * DG) by (unfold DG; ring).
    assert (A2' : Rabs D * (101 / 100 * eps * Rabs (gamma / sigma)) = 101 / 100 * eps * DG) by (unfold DG; ring).
    assert (101 / 100 * eps * (1 + 101 / 100 * eps) * DG <= 103 / 100 * eps * DG) by (apply Rmult_le_compat_r; [exact DP|unfold eps; lra]). assert (0 <= eps * DG) by (apply Rmult_le_pos; [unfold eps; lra|exact DP]). lra. }
  pose proof (Rabs_pos u) as U0.
  assert (PB : Rabs (B2R64 d * B2R64 gs) <= (1 + 205 / 100 * eps) * Rabs u).
  { pose proof (Rabs_triang (B2R64 d * B2R64 gs - u) u) as T. replace (B2R64 d * B2R64 gs - u + u) with (B2R64 d * B2R64 gs) in T by lra. lra. }
  assert (B3 : 5 * 10 ^ 200 + 10 <= 10 ^ 300). { rewrite !pow_IZR, <- mult_IZR, <- plus_IZR. apply IZR_le. vm_compute. discriminate. }
  destruct (op_abs _ _ Nr' Vr) as (Frr & _ & Rr).
  { eapply Rle_trans; [exact PB|]. assert (205 / 100 * eps * Rabs u <= 1 * Rabs u) by (apply Rmult_le_compat_r; [exact U0|unfold eps; lra]). lra. }
  fold r in Vr, Frr, Rr. pose proof inv59_le as I59. pose proof inv59_pos as I59'.
  assert (Dr : Rabs (B2R64 r - u) <= 31 / 10 * eps * Rabs u + / 10 ^ 59).
  { pose proof (Rabs_triang (B2R64 r - B2R64 d * B2R64 gs) (B2R64 d * B2R64 gs - u)) as T.
    replace (B2R64 r - B2R64 d * B2R64 gs + (B2R64 d * B2R64 gs - u)) with (B2R64 r - u) in T by lra.
    assert (eps * Rabs (B2R64 d * B2R64 gs) <= eps * ((1 + 205 / 100 * eps) * Rabs u)) by (apply Rmult_le_compat_l; [unfold eps; lra|exact PB]).
    assert (eps * ((1 + 205 / 100 * eps) * Rabs u) <= 101 / 100 * eps * Rabs u) by (rewrite <- Rmult_assoc; apply Rmult_le_compat_r; [exact U0|unfold eps; lra]). assert (0 <= eps * Rabs u) by (apply Rmult_le_pos; [unfold eps; lra|exact U0]). lra. }
  (* sign of the product, and the argument of the power *)
  assert (SR : (0 <= D * gamma -> 0 <= B2R64 r) /\ (D * gamma <= 0 -> B2R64 r <= 0)).
  { rewrite <- xval_finite by exact Frr. rewrite Vr. unfold Rdiv in T1, T2. split; intros C; rewrite <- rndc_0; apply rndc_mono.
    - destruct (Rle_lt_dec 0 D) as [E|E].
      + destruct (Req_dec D 0) as [D0|E0]; [rewrite D0 in S1, S2; pose proof (S1 (Rle_refl 0)); pose proof (S2 (Rle_refl 0)); replace (B2R64 d) with 0 by lra; lra|].
        assert (PD : 0 < D) by (destruct E as [E|E]; [exact E|congruence]). apply Rmult_le_pos; [apply S1; lra|apply T1; apply Rmult_le_pos; [apply (sg1 D); assumption|lra]].
      + apply snn; [apply S2; lra|apply T2, sgn; [apply (sg3 D); assumption|exact Is]].
    - destruct (Rle_lt_dec 0 D) as [E|E].
      + destruct (Req_dec D 0) as [D0|E0]; [rewrite D0 in S1, S2; pose proof (S1 (Rle_refl 0)); pose proof (S2 (Rle_refl 0)); replace (B2R64 d) with 0 by lra; lra|].
        assert (PD : 0 < D) by (destruct E as [E|E]; [exact E|congruence]). apply spp; [apply S1; lra|apply T2, sgn; [apply (sg2 D); assumption|exact Is]].
      + apply snp; [apply S2; lra|apply T1; apply Rmult_le_pos; [apply (sg4 D); assumption|lra]]. }
  split; [exact Frr|]. split; [exact Dr|exact SR].
Qed.
Lemma bounds_shape : / 10 ^ 6 <= Rabs gamma <= 10 ^ 6 -> 1 / 10 ^ 14 <= 1 + gamma * D / sigma <= 10 ^ 200 ->
  exists v : b64, tail_probability (c_math musl_utils) t (f : num B64) (d : num B64) = Ret v /\ nan64 v = false /\
    (0 <= D -> 0 <= xval v <= B2R64 f) /\ (D <= 0 -> B2R64 f <= xval v).
Proof.
  intros Hg Ha. assert (P3 : 0 < / 10 ^ 30) by (apply Rinv_0_lt_compat, pow_lt; lra). assert (Is : 0 < / sigma) by (apply Rinv_0_lt_compat; lra).
  assert (P6 : / 10 ^ 6 = 1 / 10 ^ 6) by lra. assert (G0 : gamma <> 0) by (intros X; rewrite X, Rabs_R0 in Hg; lra).
  assert (UB : Rabs (gamma * D / sigma) <= 2 * 10 ^ 200). { assert (1 <= 10 ^ 200) by (apply pow_R1_Rle; lra). apply Rabs_le. lra. }
  destruct (argument Hg UB) as (Frr & Dr & SR). set (r := b64_mult d (b64_div (t_gamma t) (t_sigma t))) in *. set (u := gamma * D / sigma) in *. pose proof (Rabs_pos u) as U0.
  pose proof inv59_le as I59. pose proof inv59_pos as I59'.
  assert (B3 : 5 * 10 ^ 200 + 10 <= 10 ^ 300). { rewrite !pow_IZR, <- mult_IZR, <- plus_IZR. apply IZR_le. vm_compute. discriminate. }
  destruct (ofZ_exact 1 ltac:(lia)) as (F1 & E1). destruct (plus_xval (b64_ofZ 1) r F1 Frr) as (Na & Va). rewrite E1 in Va.
  assert (RB : Rabs (1 + B2R64 r) <= 3 * 10 ^ 200 + 3).
  { pose proof (Rabs_triang 1 (B2R64 r)) as T. rewrite Rabs_R1 in T. pose proof (Rabs_triang (B2R64 r - u) u) as T'. replace (B2R64 r - u + u) with (B2R64 r) in T' by lra. unfold eps in Dr. lra. }
  destruct (op_abs _ _ Na Va ltac:(lra)) as (Fa & _ & Ra). set (a' := b64_plus (b64_ofZ 1) r) in *.
  assert (SA : (0 <= D * gamma -> 1 <= B2R64 a') /\ (D * gamma <= 0 -> 0 < B2R64 a' <= 1)).
  { split; intros C.
    - rewrite <- xval_finite by exact Fa. rewrite Va. apply Rle_trans with (rndc 1); [rewrite rndc_1; lra|]. apply rndc_mono. apply SR in C. lra.
    - split; [|rewrite <- xval_finite by exact Fa; rewrite Va; apply Rle_trans with (rndc 1); [apply rndc_mono; apply SR in C; lra|rewrite rndc_1; lra]].
      assert (U1 : u <= 0) by (unfold u, Rdiv; nra). rewrite (Rabs_left1 u) in Dr by exact U1. apply SR in C. apply Rabs_le_inv in Dr.
      assert (0 < 1 + B2R64 r) by (unfold eps in Dr; lra). rewrite (Rabs_pos_eq (1 + B2R64 r)) in Ra by lra. apply Rabs_le_inv in Ra. unfold eps in *. lra. }
  (* the exponent *)
  clear RB B3 UB Dr Ra Ha Hs.
  assert (Fm : finite64 (b64_ofZ (-1)) = true /\ B2R64 (b64_ofZ (-1)) = -1) by (apply ofZ_exact; lia). destruct Fm as (Fm & Em).
  destruct (div_xval (b64_ofZ (-1)) (t_gamma t) Fm Fg G0) as (Nx & Vx). fold gamma in Vx. rewrite Em in Vx.
  assert (BX : Rabs (-1 / gamma) <= 10 ^ 6).
  { unfold Rdiv. rewrite Rabs_mult, Rabs_inv, (Rabs_left (-1)) by lra. assert (/ Rabs gamma <= 10 ^ 6) by (rewrite <- (Rinv_inv (10 ^ 6)); apply Rinv_le; lra). lra. }
  destruct (op_abs _ _ Nx Vx) as (Fx & _ & Ax). { eapply Rle_trans; [exact BX|]. apply Rle_pow; [lra|lia]. }
  set (x := b64_div (b64_ofZ (-1)) (t_gamma t)) in *.
  assert (BX2 : Rabs (B2R64 x) <= 1001 / 1000 * 10 ^ 6).
  { pose proof (Rabs_triang (B2R64 x - -1 / gamma) (-1 / gamma)) as T. replace (B2R64 x - -1 / gamma + -1 / gamma) with (B2R64 x) in T by lra. unfold eps in Ax. lra. }
  assert (SX : (0 < gamma -> B2R64 x <= 0) /\ (gamma < 0 -> 0 <= B2R64 x)).
  { rewrite <- xval_finite by exact Fx. rewrite Vx. split; intros C; rewrite <- rndc_0; apply rndc_mono.
    - assert (0 < / gamma) by (apply Rinv_0_lt_compat; exact C). unfold Rdiv. lra.
    - assert (/ gamma < 0) by (apply Rinv_lt_0_compat; exact C). unfold Rdiv. lra. }
  assert (PA : 0 < B2R64 a'). { destruct (Rle_lt_dec 0 (D * gamma)) as [C|C]; [apply SA in C; lra|apply SA; lra]. }
  destruct (xlog_accuracy a' Fa PA) as (Fl & _).
  assert (Bl : Rabs (B2R64 (xlog (N := B64) musl_utils a')) <= 746).
  { destruct (xlog_range a') as [Nn|[(s0 & Z0)|(_ & B)]]; [apply finite_not_nan in Fl; congruence|rewrite Z0 in PA; cbn in PA; lra|exact B]. }
  assert (SL : (0 <= D * gamma -> 0 <= B2R64 (xlog (N := B64) musl_utils a')) /\ (D * gamma <= 0 -> B2R64 (xlog (N := B64) musl_utils a') <= 0)).
  { split; intros C; apply SA in C; [apply (xlog_sign a' Fa C)|apply (xlog_nonpos a' Fa C)]. }
  set (l := xlog (N := B64) musl_utils a' : b64) in *.
  destruct (mult_xval x l Fx Fl) as (Ny & Vy).
  assert (BY : Rabs (B2R64 x * B2R64 l) <= 1001 / 1000 * 10 ^ 6 * 746) by (rewrite Rabs_mult; apply Rmult_le_compat; try apply Rabs_pos; assumption).
  assert (TE : 1001 / 1000 * 10 ^ 6 * 746 <= 10 ^ 300) by (apply Rle_trans with (10 ^ 10); [lra|apply Rle_pow; [lra|lia]]).
  destruct (op_abs _ _ Ny Vy (Rle_trans _ _ _ BY TE)) as (Fy & _ & Ay). set (y := b64_mult x l) in *. clear TE.
  destruct (sided y) as (p & Ep & Np & P); try exact Fy.
  - intros C. rewrite <- xval_finite by exact Fy. rewrite Vy, <- rndc_0. apply rndc_mono.
    destruct (Rlt_le_dec gamma 0) as [E|E].
    + apply spp; [apply SX, E|apply SL, spp; [exact C|left; exact E]].
    + assert (G1 : 0 < gamma) by (destruct E as [E|E]; [exact E|congruence]). apply snp; [apply SX, G1|apply SL; apply Rmult_le_pos; assumption].
  - intros C. rewrite <- xval_finite by exact Fy. rewrite Vy, <- rndc_0. apply rndc_mono.
    destruct (Rlt_le_dec gamma 0) as [E|E].
    + apply Rmult_le_pos; [apply SX, E|apply SL, snn; [exact C|left; exact E]].
    + assert (G1 : 0 < gamma) by (destruct E as [E|E]; [exact E|congruence]). apply snn; [apply SX, G1|apply SL, snp; assumption].
  - pose proof (Rabs_triang (B2R64 y - B2R64 x * B2R64 l) (B2R64 x * B2R64 l)) as T. replace (B2R64 y - B2R64 x * B2R64 l + B2R64 x * B2R64 l) with (B2R64 y) in T by lra. unfold eps in Ay. lra.
  - exists (b64_mult f p). split; [|split; [exact Np|exact P]].
    unfold tail_probability. change (@neq B64 (t_gamma t) (nofZ 0)) with (b64_eqb (t_gamma t) (b64_ofZ 0)).
    rewrite eqb_xval, xval_zero, xval_finite by (try apply finite_not_nan; assumption || reflexivity). rewrite Req_bool_false by exact G0.
    assert (Ep' : xpow (N := B64) musl_utils (a' : num B64) (x : num B64) = Ret p) by exact Ep.
    cbn [m_pow c_math]. match goal with |- context [xpow ?w ?a ?b] => change (xpow w a b) with (xpow (N := B64) musl_utils (a' : num B64) (x : num B64)) end. rewrite Ep'. reflexivity.
Qed.

(** beyond the end of the support of a light tail *)
Lemma bounds_nan : / 10 ^ 6 <= Rabs gamma <= 10 ^ 6 -> - 10 ^ 200 <= 1 + gamma * D / sigma <= - (1 / 10 ^ 14) ->
  exists v : b64, tail_probability (c_math musl_utils) t (f : num B64) (d : num B64) = Ret v /\ nan64 v = true.
Proof.
  intros Hg Ha. assert (P6 : / 10 ^ 6 = 1 / 10 ^ 6) by lra. assert (G0 : gamma <> 0) by (intros X; rewrite X, Rabs_R0 in Hg; lra).
  assert (UB : Rabs (gamma * D / sigma) <= 2 * 10 ^ 200). { assert (1 <= 10 ^ 200) by (apply pow_R1_Rle; lra). apply Rabs_le. lra. }
  destruct (argument Hg UB) as (Frr & Dr & _). set (r := b64_mult d (b64_div (t_gamma t) (t_sigma t))) in *. set (u := gamma * D / sigma) in *.
  pose proof inv59_le as I59. pose proof inv59_pos as I59'.
  assert (B3 : 5 * 10 ^ 200 + 10 <= 10 ^ 300). { rewrite !pow_IZR, <- mult_IZR, <- plus_IZR. apply IZR_le. vm_compute. discriminate. }
  assert (U1 : u <= 0) by lra. rewrite (Rabs_left1 u) in Dr by exact U1. apply Rabs_le_inv in Dr. unfold eps in Dr.
  destruct (ofZ_exact 1 ltac:(lia)) as (F1 & E1). destruct (plus_xval (b64_ofZ 1) r F1 Frr) as (Na & Va). rewrite E1 in Va.
  assert (RB : Rabs (1 + B2R64 r) <= 10 ^ 300) by (apply Rabs_le; lra). destruct (op_abs _ _ Na Va RB) as (Fa & _ & Ra). set (a' := b64_plus (b64_ofZ 1) r) in *.
  assert (A0 : B2R64 a' < 0). { assert (1 + B2R64 r < 0) by lra. rewrite (Rabs_left (1 + B2R64 r)) in Ra by assumption. apply Rabs_le_inv in Ra. unfold eps in Ra. lra. }
  assert (L0 : b64_ltb a' (b64_ofZ 0) = true).
  { rewrite ltb_xval, xval_zero, xval_finite by (try apply finite_not_nan; assumption || reflexivity). apply Rlt_bool_true. exact A0. }
  exists B754_nan. split; [|reflexivity]. unfold tail_probability. change (@neq B64 (t_gamma t) (nofZ 0)) with (b64_eqb (t_gamma t) (b64_ofZ 0)).
  rewrite eqb_xval, xval_zero, xval_finite by (try apply finite_not_nan; assumption || reflexivity). rewrite Req_bool_false by exact G0.
  set (x := b64_div (b64_ofZ (-1)) (t_gamma t)).
  assert (EL : xlog (N := B64) musl_utils a' = B754_nan) by (apply xlog_nan_or_negative; right; exact L0).
  assert (Ep' : xpow (N := B64) musl_utils (a' : num B64) (x : num B64) = Ret (B754_nan : b64)).
  { unfold xpow. rewrite EL. change (@nmul B64 x (B754_nan : b64)) with (b64_mult x B754_nan). replace (b64_mult x B754_nan) with (B754_nan : b64) by (destruct x; reflexivity). reflexivity. }
  cbn [m_pow c_math]. match goal with |- context [xpow ?w ?a ?b] => change (xpow w a b) with (xpow (N := B64) musl_utils (a' : num B64) (x : num B64)) end. rewrite Ep'. cbn [bind]. f_equal. change (@nmul B64 f (B754_nan : b64)) with (b64_mult f B754_nan). destruct f; reflexivity.
Qed.
End Bounds.

Lemma frequency_value Nt n : (0 < Nt <= n)%Z -> (n <= 2 ^ 53)%Z ->
  let f := b64_div (b64_ofZ Nt) (b64_ofZ n) in finite64 f = true /\ 0 < B2R64 f <= 1.
Proof.
  intros HN Hn. pose proof (counter_ratio _ _ HN Hn) as HF. set (F0 := IZR Nt / IZR n) in *. cbv zeta.
  assert (Nf : Nr (b64_div (b64_ofZ Nt) (b64_ofZ n)) F0 eps).
  { assert (P40 : 0 < / 10 ^ 40) by (apply Rinv_0_lt_compat, pow_lt; lra).
    apply (Nr_div _ _ _ _ 0 0); try (unfold eps; lra); try (apply Nr_ofZ; lia).
    - apply not_0_IZR. lia.
    - apply mid_bounds. fold F0. split; [|apply Rle_trans with 1; [apply HF|apply pow_R1_Rle; lra]].
      eapply Rle_trans; [|apply HF]. apply Rinv_le; [lra|]. apply Rle_trans with (10 ^ 20); [lra|]. apply Rle_pow; [lra|lia]. }
  destruct Nf as (Ff & Af). split; [exact Ff|]. rewrite (Rabs_pos_eq F0) in Af by lra. split; [apply Rabs_le_inv in Af; unfold eps in Af; lra|].
  rewrite <- xval_finite by exact Ff. destruct (ofZ_exact Nt ltac:(lia)) as (FN & EN). destruct (ofZ_exact n ltac:(lia)) as (Fn & En).
  destruct (div_xval _ (b64_ofZ n) FN Fn) as (_ & V). { rewrite En. apply not_0_IZR. lia. } rewrite V, <- rndc_1, EN, En. apply rndc_mono. apply HF.
Qed.

Lemma probability_bounds (s : spot B64) et dir sigma gamma (z : b64) :
  finite_detector s et dir sigma gamma -> finite64 z = true ->
  let D := dir * (B2R64 z - et) in
  Rabs et <= 10 ^ 200 -> Rabs (B2R64 z) <= 10 ^ 200 -> / 10 ^ 30 <= sigma <= 10 ^ 30 ->
  gamma = 0 /\ Rabs (D / sigma) <= 10 ^ 9 \/ / 10 ^ 6 <= Rabs gamma <= 10 ^ 6 /\ 1 / 10 ^ 14 <= 1 + gamma * D / sigma <= 10 ^ 200 ->
  let frequency := b64_div (b64_ofZ (s_Nt s)) (b64_ofZ (s_n s)) in
  exists v : b64, spot_probability (c_math musl_utils) s z = Ret v /\
    (0 <= D -> b64_leb (b64_ofZ 0) v = true /\ b64_leb v frequency = true) /\ (D <= 0 -> b64_leb frequency v = true).
Proof.
  intros (Fe & Ee & Hd & Fs & Es & Ps & Fg & Eg & HN & Hn) Fz D He Hz Hs HC frequency.
  destruct (signed_distance (s_et s) (s_updown s) z dir Fe Fz ltac:(rewrite Ee; exact He) Hz Hd) as (Nd & BD). rewrite Ee in Nd, BD. fold D in Nd, BD.
  apply (Nr_weaken _ _ _ (101 / 100 * eps)) in Nd; [|unfold eps; lra].
  destruct (frequency_value _ _ HN Hn) as (Ff & Pf & Pf1). fold frequency in Ff, Pf, Pf1.
  assert (K : exists v : b64, tail_probability (c_math musl_utils) (s_tail s) (frequency : num B64) (b64_mult (s_updown s) (b64_minus z (s_et s)) : num B64) = Ret v /\ nan64 v = false /\
    (0 <= D -> 0 <= xval v <= B2R64 frequency) /\ (D <= 0 -> B2R64 frequency <= xval v)).
  { rewrite <- Es, <- Eg in HC. rewrite <- Es in Hs. destruct HC as [(G0 & HW)|(Hg & Ha)].
    - apply bounds_zero; assumption.
    - apply bounds_shape; assumption. }
  destruct K as (v & Ev & Nv & K1 & K2). exists v. split; [exact Ev|]. pose proof (finite_not_nan _ Ff) as Nf. split; intros C.
  - specialize (K1 C). rewrite !leb_xval by (assumption || reflexivity). rewrite xval_zero, (xval_finite frequency) by exact Ff. split; apply Rle_bool_true; lra.
  - specialize (K2 C). rewrite !leb_xval by (assumption || reflexivity). rewrite (xval_finite frequency) by exact Ff. apply Rle_bool_true; lra.
Qed.

Lemma probability_nan (s : spot B64) et dir sigma gamma (z : b64) :
  finite_detector s et dir sigma gamma -> finite64 z = true ->
  let D := dir * (B2R64 z - et) in
  Rabs et <= 10 ^ 200 -> Rabs (B2R64 z) <= 10 ^ 200 -> / 10 ^ 30 <= sigma <= 10 ^ 30 -> / 10 ^ 6 <= Rabs gamma <= 10 ^ 6 ->
  - 10 ^ 200 <= 1 + gamma * D / sigma <= - (1 / 10 ^ 14) ->
  exists v : b64, spot_probability (c_math musl_utils) s z = Ret v /\ nan64 v = true.
Proof.
  intros (Fe & Ee & Hd & Fs & Es & Ps & Fg & Eg & HN & Hn) Fz D He Hz Hs Hg Ha.
  destruct (signed_distance (s_et s) (s_updown s) z dir Fe Fz ltac:(rewrite Ee; exact He) Hz Hd) as (Nd & BD). rewrite Ee in Nd, BD. fold D in Nd, BD.
  apply (Nr_weaken _ _ _ (101 / 100 * eps)) in Nd; [|unfold eps; lra].
  rewrite <- Es, <- Eg in Ha. rewrite <- Es in Hs. rewrite <- Eg in Hg.
  destruct (frequency_value _ _ HN Hn) as (Ff & Pf & _).
  apply (bounds_nan (s_tail s) (b64_div (b64_ofZ (s_Nt s)) (b64_ofZ (s_n s))) (b64_mult (s_updown s) (b64_minus z (s_et s))) D); assumption.
Qed.
