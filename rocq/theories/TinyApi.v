(** * TinyApi: a detector whose excesses are below 2.7e-9 (C60) *)
From Coq Require Import ZArith List Bool Reals Lra Lia.
From Flocq Require Import Core.Core IEEE754.BinarySingleNaN.
From Verif Require Import Num NumFacts XMath Ubend UbendFacts Session Peaks PeaksFacts Brent BrentB64 Estimator Tail P2 Spot SpotFacts B64 B64Facts LogAcc Spec
  FitLemmas SpotB64 DetectorLemmas PowAcc PowAcc3 PowAcc4 RefitLemmas TinyFit.
Import ListNotations.
Open Scope R_scope.

Notation cm := (c_math musl_utils : MathFns B64).

Lemma mean_finite_inv (e : b64) n : (0 <= n <= 2 ^ 53)%Z -> finite64 (b64_div e (b64_ofZ n)) = true -> 0 < B2R64 (b64_div e (b64_ofZ n)) ->
  (0 < n)%Z /\ finite64 e = true /\ 0 < B2R64 e.
Proof.
  intros Hn F P. assert (n <> 0)%Z.
  { intros ->. change (b64_ofZ 0) with (B754_zero false : b64) in F. destruct e as [s|s| |s m x H]; discriminate. }
  assert (Pn : (0 < n)%Z) by lia. split; [exact Pn|]. destruct (ofZ_exact n ltac:(lia)) as (Fn & En). assert (0 < IZR n) by (apply IZR_lt; lia).
  assert (Fe : finite64 e = true).
  { destruct (pos_int_shape n ltac:(lia)) as (m & x & H' & En'). rewrite En' in F. destruct e as [s|s| |s m' x' H'']; try reflexivity; discriminate. }
  split; [exact Fe|]. destruct (div_xval e _ Fe Fn ltac:(lra)) as (N & V). rewrite xval_finite in V by exact F.
  destruct (Rlt_le_dec 0 (B2R64 e)) as [C|C]; [exact C|exfalso]. assert (rndc (B2R64 e / B2R64 (b64_ofZ n)) <= 0); [|lra].
  rewrite <- rndc_0 at 1. apply rndc_mono. rewrite En. assert (0 < / IZR n) by (apply Rinv_0_lt_compat; lra). unfold Rdiv. nra.
Qed.

Lemma risk_positive (q : b64) Nt n : finite64 q = true -> 0 < B2R64 q <= 1 -> (0 < Nt <= n)%Z -> (n <= 2 ^ 53)%Z ->
  let r := b64_div q (b64_div (b64_ofZ Nt) (b64_ofZ n)) in finite64 r = true /\ 0 < B2R64 r.
Proof.
  intros Fq Hq HN Hn. destruct (ofZ_exact Nt ltac:(lia)) as (FN & EN). destruct (ofZ_exact n ltac:(lia)) as (Fn & En).
  assert (PN : 0 < IZR Nt) by (apply IZR_lt; lia). assert (Pn : 0 < IZR n) by (apply IZR_lt; lia).
  pose proof (counter_ratio Nt n HN Hn) as C. destruct (div_xval _ _ FN Fn ltac:(lra)) as (N1 & V1). rewrite EN, En in V1.
  assert (B : Rabs (IZR Nt / IZR n) <= 10 ^ 300). { rewrite Rabs_pos_eq by lra. pose proof ten300. lra. }
  destruct (op_abs _ _ N1 V1 B) as (F1 & E1 & A1). set (f := b64_div (b64_ofZ Nt) (b64_ofZ n)) in *.
  assert (Hf : / 9007199254740992 / 2 <= B2R64 f <= 1).
  { rewrite xval_finite in V1 by exact F1. split.
    - rewrite (Rabs_pos_eq (IZR Nt / IZR n)) in A1 by lra. apply Rabs_le_inv in A1. pose proof inv59_le. unfold FloatErr.eps in A1. lra.
    - apply Rle_trans with (rndc 1); [rewrite V1; apply rndc_mono; lra|rewrite rndc_1; lra]. }
  destruct (div_xval q f Fq F1 ltac:(lra)) as (N2 & V2).
  assert (B2 : B2R64 q <= B2R64 q / B2R64 f <= 10 ^ 300).
  { split.
    - apply Rmult_le_reg_r with (B2R64 f); [lra|]. unfold Rdiv. rewrite Rmult_assoc, Rinv_l by lra. nra.
    - apply Rmult_le_reg_r with (B2R64 f); [lra|]. unfold Rdiv. rewrite Rmult_assoc, Rinv_l by lra. rewrite Rmult_1_r.
      apply Rle_trans with (10 ^ 20 * B2R64 f); [lra|]. apply Rmult_le_compat_r; [lra|]. apply Rle_pow; [lra|lia]. }
  destruct (op_abs _ _ N2 V2 ltac:(rewrite Rabs_pos_eq; lra)) as (F2 & _ & _). split; [exact F2|].
  rewrite xval_finite in V2 by exact F2. rewrite V2. apply Rlt_le_trans with (rndc (B2R64 q)); [rewrite rndc_format; lra|]. apply rndc_mono. lra.
Qed.

Lemma tiny_api q low discard level cap (s s' : spot B64) :
  detector cm q low discard level cap s -> refit cm s s' -> (cap <= 2 ^ 53)%Z ->
  let p := t_peaks (s_tail s') in
  finite64 (p_max p) = true -> 0 < B2R64 (p_max p) <= 27 / 10 ^ 10 ->
  finite64 (peaks_mean p) = true -> 0 < B2R64 (peaks_mean p) <= 1 ->
  log_likelihood cm p (mom_gamma p) (mom_sigma p) <> Ret (pinf : num B64) ->
  t_gamma (s_tail s') = (B754_zero false : b64) /\ t_sigma (s_tail s') = (B754_zero true : b64) /\
  (finite64 (s_et s') = true -> finite64 q = true -> 0 < B2R64 q <= 1 -> (0 < s_Nt s' <= s_n s')%Z -> (s_n s' <= 2 ^ 53)%Z ->
   finite64 (s_at s') = true /\ B2R64 (s_at s') = B2R64 (s_et s') /\
   (forall x, discard <> 0%Z -> beyond low (s_et s') x = true -> spot_step cm s' x = Ret (s', ANOMALY))).
Proof.
  intros D R HC p FM HM Fm Hm NI. pose proof (refit_detector _ _ _ _ _ _ _ _ D R) as D'.
  destruct (refit_tail _ _ _ R) as (g0 & s0 & ll & TF & SQ).
  destruct (window_content _ _ _ _ _ _ _ D') as (l & w & PW & OF & W0 & WM & _ & WL). fold p in PW, WM, TF.
  assert (SZ : ubend_size (p_cont p) = Z.of_nat (length w)) by (destruct PW as (_ & _ & _ & X); exact X).
  assert (ME : (0 < Z.of_nat (length w))%Z /\ finite64 (p_e p) = true /\ 0 < B2R64 (p_e p)).
  { unfold peaks_mean, peaks_size in Fm, Hm. rewrite SZ in Fm, Hm. apply mean_finite_inv; [lia|exact Fm|exact (proj1 Hm)]. }
  destruct ME as (L0 & Fe & He).
  assert (NE : w <> []) by (intros X; rewrite X in L0; cbn in L0; lia).
  assert (TW : forall y, In y w -> tiny y).
  { intros y Hy. specialize (W0 y Hy). specialize (WM NE y Hy). apply leb_true_iff in W0 as (_ & N1 & W0). apply leb_true_iff in WM as (_ & _ & WM).
    change (d 0) with (b64_ofZ 0) in W0. rewrite xval_zero in W0. rewrite (xval_finite _ FM) in WM.
    assert (Fy : finite64 y = true).
    { apply finite_of_xval; [exact N1|]. rewrite Rabs_pos_eq by exact W0. eapply Rle_lt_trans; [exact WM|apply B2R_bounds]. }
    rewrite (xval_finite _ Fy) in *. split; [exact Fy|]. split; [exact W0|]. eapply Rle_trans; [exact WM|apply HM]. }
  destruct (fit_tiny cap p l w PW TW NE ltac:(lia) FM HM Fe He Fm Hm g0 s0) as (t' & TF' & _ & [(G & S)|X]); [|contradiction].
  rewrite TF in TF'. injection TF' as <- _. split; [exact G|]. split; [exact S|].
  intros Fet Fq Hq HN Hn.
  pose proof (detector_facts _ _ _ _ _ _ _ D') as (QQ & _ & DD & _ & _ & _).
  destruct (risk_positive q _ _ Fq Hq HN Hn) as (Fr & Pr). cbv zeta in *.
  destruct (xlog_accuracy _ Fr Pr) as (Fl & _).
  set (r := b64_div q (b64_div (b64_ofZ (s_Nt s')) (b64_ofZ (s_n s')))) in *.
  unfold spot_quantile, tail_quantile in SQ. rewrite G, S, QQ in SQ.
  change (@neq B64 (B754_zero false : num B64) (nofZ 0)) with true in SQ. cbv iota in SQ. cbn [bind m_log c_math] in SQ.
  assert (Z0 : finite64 (b64_mult (B754_zero false) (xlog (N := B64) musl_utils r)) = true /\ B2R64 (b64_mult (B754_zero false) (xlog (N := B64) musl_utils r)) = 0).
  { destruct (xlog (N := B64) musl_utils r : b64) as [z|z| |z m x H]; try discriminate; split; reflexivity. }
  destruct Z0 as (Fz & Ez).
  assert (Fu : finite64 (s_updown s') = true) by (destruct (detector_sided _ _ _ _ _ _ _ D') as [(_ & ->)|(_ & ->)]; apply ofZ_exact; lia).
  destruct (mult_zero _ _ Fu Fz Ez) as (Fm2 & Vm2). destruct (plus_zero (s_et s') _ Fet Fm2 Vm2) as (Fv & Vv).
  assert (AT : s_at s' = b64_plus (s_et s') (b64_mult (s_updown s') (b64_mult (B754_zero false) (xlog (N := B64) musl_utils r)))) by (injection SQ as SQ; symmetry; exact SQ).
  rewrite AT. split; [exact Fv|]. split; [exact Vv|].
  intros x Hd Hb. assert (NX : is_NaN x = false).
  { rewrite is_NaN_eq. unfold beyond in Hb. destruct (low =? 0)%Z; apply ltb_true_iff in Hb; tauto. }
  apply (C07_lemma _ _ _ _ _ _ _ _ D' NX). split; [exact Hd|].
  assert (EQ : xval (s_at s') = xval (s_et s')).
  { rewrite AT, (xval_finite _ Fv), (xval_finite _ Fet). exact Vv. }
  assert (Fa : finite64 (s_at s') = true) by (rewrite AT; exact Fv).
  unfold beyond in *. destruct (low =? 0)%Z; apply ltb_true_iff in Hb as (B1 & B2 & B3); apply ltb_true_iff; rewrite EQ; auto using finite_not_nan.
Qed.
