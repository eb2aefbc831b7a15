(** * Lemmas: which calls reach the undefined conversion of xexp (C45) *)
From Coq Require Import ZArith List Bool Reals Lra Lia Psatz.
From Flocq Require Import Core.Core IEEE754.BinarySingleNaN.
From Verif Require Import Num XMath B64 RNum B64Facts FloatErr FloatUtilsLemmas LogExact LogAcc ExpExact ExpB64 ExpAcc Ubend Peaks Brent Estimator Tail Spot.
Open Scope R_scope.

(** ** Range of xlog *)
Lemma xlog_range (x : b64) : let l := xlog (N := B64) musl_utils x : b64 in
  nan64 l = true \/ (exists s, x = B754_zero s) \/ (finite64 l = true /\ Rabs (B2R64 l) <= 746).
Proof.
  cbv zeta. destruct (nan64 x) eqn:Nx.
  { left. rewrite xlog_nan_or_negative by (left; assumption). reflexivity. }
  destruct (b64_ltb x (b64_ofZ 0)) eqn:L0.
  { left. rewrite xlog_nan_or_negative by (right; assumption). reflexivity. }
  destruct (finite64 x) eqn:F.
  - destruct (Req_dec (B2R64 x) 0) as [Z|Z].
    + right. left. destruct x as [s|s| |s m e X]; try discriminate; [exists s; reflexivity|].
      exfalso. apply (F2R_neq_0 radix2) in Z; [assumption|]. destruct s; discriminate.
    + right. right.
      assert (P : 0 < B2R64 x).
      { rewrite ltb_xval, xval_zero, xval_finite in L0 by (assumption || reflexivity). apply Rlt_bool_false_inv in L0. lra. }
      destruct (xlog_accuracy x F P) as (Fl & A & B & C). split; [exact Fl|].
      assert (Lr : Rabs (ln (B2R64 x)) <= 745).
      { pose proof ln2_bounds as L2. apply Rabs_le. split.
        - apply Rle_trans with (ln (bpow radix2 (-1074))).
          + rewrite pow2_exp, ln_exp. lra.
          + assert (G : bpow radix2 (-1074) <= B2R64 x).
            { pose proof (abs_B2R_ge_emin 53 1024 x) as G. rewrite Rabs_pos_eq in G by lra. apply G.
              apply is_finite_strict_B2R. lra. }
            destruct (Req_dec (bpow radix2 (-1074)) (B2R64 x)) as [<-|]; [lra|]. left. apply ln_increasing; [apply bpow_gt_0|lra].
        - apply Rle_trans with (ln (bpow radix2 1024)).
          + left. apply ln_increasing; [assumption|]. pose proof (B2R_bounds x). unfold TOP in *. lra.
          + rewrite pow2_exp, ln_exp. lra. }
      assert (E : Rabs (B2R64 (xlog (N := B64) musl_utils x) - ln (B2R64 x)) <= 1 / 10 ^ 9).
      { destruct (Rlt_le_dec (B2R64 x) (1 / 4)) as [D|D]; [specialize (C ltac:(lra)); lra|].
        destruct (Rlt_le_dec (B2R64 x) (1 / 2)) as [D2|D2]; [specialize (B ltac:(lra)); lra|].
        destruct (Rlt_le_dec (B2R64 x) 1) as [D3|D3]; [specialize (A ltac:(lra)); lra|specialize (C ltac:(lra)); lra]. }
      pose proof (Rabs_triang (B2R64 (xlog (N := B64) musl_utils x) - ln (B2R64 x)) (ln (B2R64 x))) as T.
      replace (B2R64 (xlog (N := B64) musl_utils x) - ln (B2R64 x) + ln (B2R64 x)) with (B2R64 (xlog (N := B64) musl_utils x)) in T by lra. lra.
  - destruct x as [s|s| |s m e X]; try discriminate F; try discriminate Nx. left. destruct s; [discriminate L0|]. rewrite xlog_infinity. reflexivity.
Qed.

Lemma mult_nan_r (x y : b64) : nan64 y = true -> nan64 (b64_mult x y) = true.
Proof. destruct y; try discriminate. intros _. destruct x; reflexivity. Qed.
Lemma mult_nan_l (x y : b64) : nan64 x = true -> nan64 (b64_mult x y) = true.
Proof. destruct x; try discriminate. reflexivity. Qed.

Lemma xpow_defined (a e : b64) : (forall s, a <> B754_zero s) -> nan64 e = true \/ (finite64 e = true /\ Rabs (B2R64 e) <= 39 * 10 ^ 5) ->
  exists v, xpow (N := B64) musl_utils a e = Ret v.
Proof.
  intros Ha He. unfold xpow. change (@nmul B64 e (xlog musl_utils a)) with (b64_mult e (xlog (N := B64) musl_utils a)).
  apply (proj1 (xexp_domain musl_utils (b64_mult e (xlog (N := B64) musl_utils a)))).
  destruct He as [He|(Fe & He)]; [left; apply mult_nan_l; assumption|].
  destruct (xlog_range a) as [Nl|[(s & E)|(Fl & Hl)]].
  - left. apply mult_nan_r. assumption.
  - exfalso. exact (Ha s E).
  - right. set (l := xlog (N := B64) musl_utils a : b64) in *. destruct (mult_xval e l Fe Fl) as (Nm & Em).
    set (t := B2R64 e * B2R64 l) in *.
    assert (Ht : Rabs t <= 39 * 10 ^ 5 * 746) by (unfold t; rewrite Rabs_mult; apply Rmult_le_compat; try apply Rabs_pos; lra).
    pose proof (rnd_abs t) as Rt.
    assert (Er : Rabs (rnd t) <= 2977044471).
    { pose proof (Rabs_triang (rnd t - t) t) as X. replace (rnd t - t + t) with (rnd t) in X by lra. unfold eps in Rt. lra. }
    pose proof bpow_1024. unfold rndc in Em. rewrite clamp_id in Em by lra.
    assert (Fm : finite64 (b64_mult e l) = true) by (apply finite_of_xval; [assumption|rewrite Em; lra]).
    rewrite xval_finite in Em by assumption. split; [exact Fm|]. rewrite Em. exact Er.
Qed.

Lemma xpow_zero_undefined fu (a e : b64) : (exists s, a = B754_zero s) -> finite64 e = true -> b64_eqb e (b64_ofZ 0) = false ->
  xpow (N := B64) fu a e = Undef CastRange.
Proof.
  intros (s & ->) Fe He. unfold xpow. rewrite xlog_zero.
  apply (proj2 (xexp_domain fu (b64_mult e (B754_infinity true)))). left.
  destruct e as [se|se| |se m k X]; [destruct se; discriminate He|discriminate Fe|discriminate Fe|]. eexists. reflexivity.
Qed.

(** ** Quantile *)
Lemma quantile_zero_undefined fu (t : tail B64) (s q : b64) : finite64 (t_gamma t) = true -> b64_eqb (t_gamma t) (b64_ofZ 0) = false ->
  (exists z, b64_div q s = B754_zero z) -> tail_quantile (c_math fu) t s q = Undef CastRange.
Proof.
  intros Fg Hg Hz. unfold tail_quantile. cbn [m_pow c_math]. change (@neq B64 (t_gamma t) (nofZ 0)) with (b64_eqb (t_gamma t) (b64_ofZ 0)). rewrite Hg.
  change (@ndiv B64 q s) with (b64_div q s). change (@nopp B64 (t_gamma t)) with (b64_opp (t_gamma t)).
  rewrite (xpow_zero_undefined fu (b64_div q s) (b64_opp (t_gamma t)) Hz); [reflexivity|rewrite finite_opp; assumption|].
  destruct (t_gamma t : b64) as [sg|sg| |sg m k X]; [destruct sg; discriminate Hg|discriminate Fg|discriminate Fg|]. destruct sg; reflexivity.
Qed.
Lemma quantile_defined (t : tail B64) (s q : b64) : nan64 (t_gamma t) = true \/ (finite64 (t_gamma t) = true /\ Rabs (B2R64 (t_gamma t)) <= 39 * 10 ^ 5) ->
  (forall z, b64_div q s <> B754_zero z) -> exists v, tail_quantile (c_math musl_utils) t s q = Ret v.
Proof.
  intros Hg Hz. unfold tail_quantile. cbn [m_pow c_math]. destruct (@neq B64 (t_gamma t) (nofZ 0)); [eexists; reflexivity|].
  destruct (xpow_defined (b64_div q s) (b64_opp (t_gamma t)) Hz) as (v & E).
  - rewrite nan_opp, finite_opp. unfold b64_opp at 1. rewrite B2R_Bopp, Rabs_Ropp. exact Hg.
  - change (@ndiv B64 q s) with (b64_div q s). change (@nopp B64 (t_gamma t)) with (b64_opp (t_gamma t)). rewrite E. eexists. reflexivity.
Qed.

(** ** Probability *)
Lemma probability_end_undefined fu (t : tail B64) (s d : b64) : finite64 (t_gamma t) = true -> b64_eqb (t_gamma t) (b64_ofZ 0) = false ->
  (exists z, b64_plus (b64_ofZ 1) (b64_mult d (b64_div (t_gamma t) (t_sigma t))) = B754_zero z) ->
  tail_probability (c_math fu) t s d = Undef CastRange.
Proof.
  intros Fg Hg Hz. unfold tail_probability. cbn [m_pow c_math]. change (@neq B64 (t_gamma t) (nofZ 0)) with (b64_eqb (t_gamma t) (b64_ofZ 0)). rewrite Hg.
  change (@nadd B64 (nofZ 1) (@nmul B64 d (@ndiv B64 (t_gamma t) (t_sigma t)))) with (b64_plus (b64_ofZ 1) (b64_mult d (b64_div (t_gamma t) (t_sigma t)))).
  set (a := b64_plus _ _) in *. set (g := t_gamma t : b64) in *.
  unfold xpow. destruct Hz as (z & ->). rewrite xlog_zero.
  change (@nmul B64 (@ndiv B64 (nofZ (-1)) g) (B754_infinity true)) with (b64_mult (b64_div (b64_ofZ (-1)) g) (B754_infinity true)).
  assert (Q : exists z, b64_mult (b64_div (b64_ofZ (-1)) g) (B754_infinity true) = B754_infinity z).
  { assert (Zg : B2R64 g <> 0).
    { intros E. rewrite eqb_xval, xval_zero, xval_finite, E, Req_bool_true in Hg by (try apply finite_not_nan; try assumption; reflexivity). discriminate. }
    destruct (ofZ_exact (-1) ltac:(lia)) as (F1 & E1).
    destruct (div_xval (b64_ofZ (-1)) g F1 Fg Zg) as (Nq & Eq).
    set (v := b64_div (b64_ofZ (-1)) g) in *.
    assert (V0 : xval v <> 0).
    { rewrite Eq, E1. unfold rndc. intros C.
      assert (Bg : Rabs (B2R64 g) < TOP) by apply abs_B2R_TOP.
      assert (R1 : bpow radix2 (-1024) <= Rabs (rnd (-1 / B2R64 g))).
      { apply abs_round_ge_generic; [apply FLT_exp_valid; reflexivity|apply valid_rnd_N|apply generic_format_bpow; vm_compute; discriminate|].
        unfold Rdiv. rewrite Rabs_mult, Rabs_inv. replace (Rabs (-1)) with 1 by (rewrite Rabs_left; lra). rewrite Rmult_1_l.
        change (-1024)%Z with (- (1024))%Z. rewrite bpow_opp. apply Rinv_le_contravar; [apply Rabs_pos_lt; assumption|]. unfold TOP in Bg. lra. }
      pose proof (bpow_gt_0 radix2 (-1024)). pose proof TOP_pos.
      destruct (Rle_lt_dec (Rabs (rnd (-1 / B2R64 g))) TOP) as [I|I].
      - rewrite clamp_id in C by assumption. rewrite C, Rabs_R0 in R1. lra.
      - destruct (Rle_lt_dec TOP (rnd (-1 / B2R64 g))) as [J|J]; [rewrite clamp_hi in C by assumption; lra|].
        rewrite clamp_lo in C; [lra|]. destruct (Rle_lt_dec 0 (rnd (-1 / B2R64 g))); [rewrite Rabs_pos_eq in I by assumption; lra|rewrite Rabs_left in I by assumption; lra]. }
    destruct v as [sv|sv| |sv m k X]; try discriminate Nq; [exfalso; apply V0; reflexivity|eexists; reflexivity|eexists; reflexivity]. }
  destruct Q as (z' & ->). rewrite (proj2 (xexp_domain fu (B754_infinity z'))) by (left; eexists; reflexivity). reflexivity.
Qed.

Lemma probability_defined (t : tail B64) (s d : b64) : finite64 (t_gamma t) = true -> 3 / 10 ^ 7 <= Rabs (B2R64 (t_gamma t)) ->
  (forall z, b64_plus (b64_ofZ 1) (b64_mult d (b64_div (t_gamma t) (t_sigma t))) <> B754_zero z) ->
  exists v, tail_probability (c_math musl_utils) t s d = Ret v.
Proof.
  intros Fg Hg Hz. unfold tail_probability. cbn [m_pow m_exp c_math]. set (g := t_gamma t : b64) in *.
  assert (Eg : b64_eqb g (b64_ofZ 0) = false).
  { rewrite eqb_xval, xval_zero, xval_finite by (try apply finite_not_nan; try assumption; reflexivity). apply Req_bool_false. intros E. rewrite E, Rabs_R0 in Hg. lra. }
  change (@neq B64 g (nofZ 0)) with (b64_eqb g (b64_ofZ 0)). rewrite Eg.
  destruct (xpow_defined (b64_plus (b64_ofZ 1) (b64_mult d (b64_div g (t_sigma t)))) (b64_div (b64_ofZ (-1)) g) Hz) as (v & E).
  - right. assert (Zg : B2R64 g <> 0) by (intros E; rewrite E, Rabs_R0 in Hg; lra).
    destruct (ofZ_exact (-1) ltac:(lia)) as (F1 & E1).
    destruct (div_xval (b64_ofZ (-1)) g F1 Fg Zg) as (Nq & Eq). rewrite E1 in Eq.
    assert (Ht : Rabs (-1 / B2R64 g) <= 10 ^ 7 / 3).
    { unfold Rdiv. rewrite Rabs_mult, Rabs_inv. replace (Rabs (-1)) with 1 by (rewrite Rabs_left; lra). rewrite Rmult_1_l.
      replace (10 ^ 7 * / 3) with (/ (3 / 10 ^ 7)) by field. apply Rinv_le_contravar; lra. }
    set (w := -1 / B2R64 g) in *. pose proof (rnd_abs w) as Rt.
    assert (Er : Rabs (rnd w) <= 39 * 10 ^ 5).
    { pose proof (Rabs_triang (rnd w - w) w) as X. replace (rnd w - w + w) with (rnd w) in X by lra. unfold eps in Rt. lra. }
    pose proof bpow_1024. unfold rndc in Eq. rewrite clamp_id in Eq by lra.
    assert (Fm : finite64 (b64_div (b64_ofZ (-1)) g) = true) by (apply finite_of_xval; [assumption|rewrite Eq; lra]).
    rewrite xval_finite in Eq by assumption. split; [exact Fm|]. rewrite Eq. exact Er.
  - change (@nadd B64 (nofZ 1) (@nmul B64 d (@ndiv B64 g (t_sigma t)))) with (b64_plus (b64_ofZ 1) (b64_mult d (b64_div g (t_sigma t)))).
    change (@ndiv B64 (nofZ (-1)) g) with (b64_div (b64_ofZ (-1)) g). rewrite E. eexists. reflexivity.
Qed.

Lemma probability_gamma_zero fu (t : tail B64) (s d : b64) : b64_eqb (t_gamma t) (b64_ofZ 0) = true ->
  let z := b64_div (b64_opp d) (t_sigma t) in
  (nan64 z = true \/ (finite64 z = true /\ Rabs (B2R64 z) <= 2977044471) -> exists v, tail_probability (c_math fu) t s d = Ret v) /\
  ((exists s, z = B754_infinity s) \/ (finite64 z = true /\ 2977044472 <= Rabs (B2R64 z)) -> tail_probability (c_math fu) t s d = Undef CastRange).
Proof.
  intros Hg z. unfold tail_probability. cbn [m_pow m_exp c_math]. change (@neq B64 (t_gamma t) (nofZ 0)) with (b64_eqb (t_gamma t) (b64_ofZ 0)). rewrite Hg.
  change (@ndiv B64 (@nopp B64 d) (t_sigma t)) with z. destruct (xexp_domain fu z) as (A & B). split; intros H.
  - destruct (A H) as (v & ->). eexists. reflexivity.
  - rewrite (B H). reflexivity.
Qed.

(** ** The ratio Nt/n *)
Lemma ofZ_counter z : (1 <= z < 2 ^ 64)%Z -> finite64 (b64_ofZ z) = true /\ B2R64 (b64_ofZ z) = rnd (IZR z) /\ 1 <= B2R64 (b64_ofZ z) <= bpow radix2 64.
Proof.
  intros H. unfold b64_ofZ.
  pose proof (binary_normalize_correct 53 1024 Hprec64 Hmax64 mode_NE z 0 false) as HC.
  cbv zeta in HC. simpl round_mode in HC.
  replace (F2R (Float radix2 z 0)) with (IZR z) in HC by (unfold F2R; simpl; ring).
  change (round radix2 (SpecFloat.fexp 53 1024) ZnearestE (IZR z)) with (rnd (IZR z)) in HC.
  assert (B : 1 <= rnd (IZR z) <= bpow radix2 64).
  { split.
    - replace 1 with (rnd 1).
      + apply round_le; auto with typeclass_instances. apply IZR_le. lia.
      + apply round_generic; auto with typeclass_instances. apply (format_IZR 1). simpl. lia.
    - replace (bpow radix2 64) with (rnd (bpow radix2 64)).
      + apply round_le; auto with typeclass_instances. change (bpow radix2 64) with (IZR (2 ^ 64)). apply IZR_le. lia.
      + apply round_generic; auto with typeclass_instances. apply generic_format_bpow. vm_compute. discriminate. }
  rewrite Rlt_bool_true in HC.
  - destruct HC as (H1 & H2 & _). split; [assumption|]. split; [exact H1|]. change (1 <= B2R64 (binary_normalize 53 1024 Hprec64 Hmax64 mode_NE z 0 false) <= bpow radix2 64). rewrite H1. exact B.
  - rewrite Rabs_pos_eq by lra. apply Rle_lt_trans with (bpow radix2 64); [apply B|]. apply bpow_lt. reflexivity.
Qed.

Lemma ratio_cases Nt n : (0 <= Nt <= n)%Z -> (n < 2 ^ 64)%Z -> let r := b64_div (b64_ofZ Nt) (b64_ofZ n) in
  (Nt = 0%Z /\ (r = B754_nan \/ r = B754_zero false)) \/ ((1 <= Nt)%Z /\ finite64 r = true /\ 0 < B2R64 r <= 1).
Proof.
  intros H Hn. cbv zeta. destruct (Z.eq_dec n 0) as [->|Zn].
  { left. replace Nt with 0%Z by lia. split; [reflexivity|left; reflexivity]. }
  destruct (ofZ_counter n) as (Fn & En & Bn); [lia|].
  destruct (Z.eq_dec Nt 0) as [->|Z0].
  { left. split; [reflexivity|]. right. change (b64_ofZ 0) with (B754_zero false : b64).
    destruct (b64_ofZ n : b64) as [sg|sg| |sg m k X]; [simpl in Bn; lra|discriminate Fn|discriminate Fn|]. destruct sg; [|reflexivity].
    exfalso. assert (B2R64 (B754_finite true m k X) < 0) by (apply F2R_lt_0; reflexivity). lra. }
  right. split; [lia|]. destruct (ofZ_counter Nt) as (Ft & Et & Bt); [lia|].
  destruct (div_xval (b64_ofZ Nt) (b64_ofZ n) Ft Fn) as (N1 & X1); [lra|].
  assert (L : B2R64 (b64_ofZ Nt) <= B2R64 (b64_ofZ n)).
  { rewrite Et, En. apply round_le; auto with typeclass_instances. apply IZR_le. lia. }
  assert (Q : / bpow radix2 64 <= B2R64 (b64_ofZ Nt) / B2R64 (b64_ofZ n) <= 1).
  { split.
    - apply Rmult_le_reg_r with (B2R64 (b64_ofZ n)); [lra|]. unfold Rdiv. rewrite Rmult_assoc, Rinv_l, Rmult_1_r by lra.
      apply Rle_trans with 1; [|lra]. apply Rmult_le_reg_l with (bpow radix2 64); [apply bpow_gt_0|].
      rewrite <- Rmult_assoc, Rinv_r, Rmult_1_l, Rmult_1_r by (apply Rgt_not_eq, bpow_gt_0). apply Bn.
    - apply Rmult_le_reg_r with (B2R64 (b64_ofZ n)); [lra|]. unfold Rdiv. rewrite Rmult_assoc, Rinv_l by lra. lra. }
  assert (R : bpow radix2 (-64) <= rnd (B2R64 (b64_ofZ Nt) / B2R64 (b64_ofZ n)) <= 1).
  { split.
    - replace (bpow radix2 (-64)) with (rnd (bpow radix2 (-64))).
      + apply round_le; auto with typeclass_instances. replace (bpow radix2 (-64)) with (/ bpow radix2 64) by (symmetry; exact (bpow_opp radix2 64)). apply Q.
      + apply round_generic; auto with typeclass_instances. apply generic_format_bpow. vm_compute. discriminate.
    - apply Rle_trans with (rnd 1).
      + apply round_le; auto with typeclass_instances. apply Q.
      + apply Req_le. apply round_generic; auto with typeclass_instances. apply (format_IZR 1). simpl. lia. }
  pose proof (bpow_gt_0 radix2 (-64)) as P.
  assert (T : 1 < TOP) by (unfold TOP; change 1 with (bpow radix2 0); apply bpow_lt; reflexivity).
  unfold rndc in X1. rewrite clamp_id in X1 by (rewrite Rabs_pos_eq; lra).
  assert (F : finite64 (b64_div (b64_ofZ Nt) (b64_ofZ n)) = true) by (apply finite_of_xval; [assumption|rewrite X1, Rabs_pos_eq; lra]).
  split; [assumption|]. rewrite <- (xval_finite _ F), X1. lra.
Qed.

(** the argument of the power is never zero for the risk of the detector *)
Lemma risk_not_zero (q : b64) Nt n : b64_leb q (b64_ofZ 0) = false -> (0 <= Nt <= n)%Z -> (n < 2 ^ 64)%Z ->
  forall z, b64_div q (b64_div (b64_ofZ Nt) (b64_ofZ n)) <> B754_zero z.
Proof.
  intros Hq H Hn z E. destruct (ratio_cases Nt n H Hn) as [(_ & [R|R])|(_ & Fr & Br)].
  - rewrite R in E. destruct q; discriminate E.
  - rewrite R in E. destruct q as [sq|sq| |sq mq kq Xq]; [discriminate E|discriminate E|discriminate E|discriminate E].
  - destruct (finite64 q) eqn:Fq.
    + rewrite leb_xval, xval_zero, xval_finite in Hq by (try apply finite_not_nan; try assumption; reflexivity).
      destruct (Rle_bool_spec (B2R64 q) 0); [discriminate|].
      destruct (div_xval q _ Fq Fr) as (N1 & X1); [lra|]. rewrite E in X1. simpl in X1.
      assert (B : rndc (B2R64 q) <= rndc (B2R64 q / B2R64 (b64_div (b64_ofZ Nt) (b64_ofZ n)))).
      { apply rndc_mono. apply Rmult_le_reg_r with (B2R64 (b64_div (b64_ofZ Nt) (b64_ofZ n))); [lra|].
        unfold Rdiv. rewrite Rmult_assoc, Rinv_l, Rmult_1_r by lra. rewrite <- (Rmult_1_r (B2R64 q)) at 2.
        apply Rmult_le_compat_l; lra. }
      rewrite rndc_format in B. lra.
    + destruct q; try discriminate Fq; [|discriminate E].
      destruct (b64_div (b64_ofZ Nt) (b64_ofZ n)) as [sg|sg| |sg m k X]; discriminate.
Qed.
(** q = 0 makes it zero, whatever the counters *)
Lemma zero_risk Nt n z : (1 <= Nt <= n)%Z -> (n < 2 ^ 64)%Z ->
  exists z', b64_div (B754_zero z) (b64_div (b64_ofZ Nt) (b64_ofZ n)) = B754_zero z'.
Proof.
  intros H Hn. destruct (ratio_cases Nt n) as [(E & _)|(_ & Fr & Br)]; [lia|assumption|lia|].
  destruct (b64_div (b64_ofZ Nt) (b64_ofZ n) : b64) as [sg|sg| |sg m k X]; [simpl in Br; lra|discriminate Fr|discriminate Fr|].
  eexists. reflexivity.
Qed.

(** ** The calls of the API *)
Definition huge (g : b64) : Prop := (exists z, g = B754_infinity z) \/ (finite64 g = true /\ 39 * 10 ^ 5 < Rabs (B2R64 g)).
Lemma not_huge (g : b64) : huge g \/ (nan64 g = true \/ (finite64 g = true /\ Rabs (B2R64 g) <= 39 * 10 ^ 5)).
Proof.
  unfold huge. destruct (finite64 g) eqn:F.
  - destruct (Rle_dec (Rabs (B2R64 g)) (39 * 10 ^ 5)); [tauto|left; right; split; [reflexivity|lra]].
  - destruct g; try discriminate F; [left; left; eexists; reflexivity|right; left; reflexivity].
Qed.
Lemma spot_quantile_huge (s : spot B64) (q : b64) w : b64_leb q (b64_ofZ 0) = false -> (0 <= s_Nt s <= s_n s)%Z -> (s_n s < 2 ^ 64)%Z ->
  spot_quantile (c_math musl_utils) s q = Undef w -> huge (t_gamma (s_tail s)).
Proof.
  intros Hq H Hn. destruct (not_huge (t_gamma (s_tail s))) as [G|G]; [auto|].
  unfold spot_quantile.
  destruct (quantile_defined (s_tail s) (b64_div (b64_ofZ (s_Nt s)) (b64_ofZ (s_n s))) q G (risk_not_zero q _ _ Hq H Hn)) as (v & E).
  change (@ndiv B64 (nofZ (s_Nt s)) (nofZ (s_n s))) with (b64_div (b64_ofZ (s_Nt s)) (b64_ofZ (s_n s))). rewrite E. discriminate.
Qed.
Lemma spot_quantile_zero fu (s : spot B64) z : finite64 (t_gamma (s_tail s)) = true -> b64_eqb (t_gamma (s_tail s)) (b64_ofZ 0) = false ->
  (1 <= s_Nt s <= s_n s)%Z -> (s_n s < 2 ^ 64)%Z -> spot_quantile (c_math fu) s (B754_zero z : b64) = Undef CastRange.
Proof.
  intros Fg Hg H Hn. unfold spot_quantile.
  change (@ndiv B64 (nofZ (s_Nt s)) (nofZ (s_n s))) with (b64_div (b64_ofZ (s_Nt s)) (b64_ofZ (s_n s))).
  rewrite (quantile_zero_undefined fu (s_tail s) _ (B754_zero z) Fg Hg (zero_risk _ _ z H Hn)). reflexivity.
Qed.
Lemma spot_probability_end fu (s : spot B64) (z : b64) : finite64 (t_gamma (s_tail s)) = true -> b64_eqb (t_gamma (s_tail s)) (b64_ofZ 0) = false ->
  (exists sg, b64_plus (b64_ofZ 1) (b64_mult (b64_mult (s_updown s) (b64_minus z (s_et s))) (b64_div (t_gamma (s_tail s)) (t_sigma (s_tail s)))) = B754_zero sg) ->
  spot_probability (c_math fu) s z = Undef CastRange.
Proof. intros Fg Hg Hz. unfold spot_probability. apply probability_end_undefined; assumption. Qed.
