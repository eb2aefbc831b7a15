(** * Proofs of C93: the candidate of the method of moments when the computed variance is not positive *)
From Coq Require Import ZArith List Bool Lia Reals Lra.
From Flocq Require Import Core.Core IEEE754.BinarySingleNaN.
From Verif Require Import Num XMath Ubend Session Peaks Brent Estimator Tail P2 Spot B64 RNum B64Facts Spec SpotB64 LogAcc FitLemmas.
Import ListNotations.
Open Scope R_scope.

#[local] Opaque TOP.
Lemma Ret_inj {A} (a b : A) : Ret a = Ret b -> a = b.
Proof. intros H. injection H as ->. reflexivity. Qed.
Notation mm := (c_math (N := B64) musl_utils).

Lemma mult_nan_r (x y : b64) : nan64 y = true -> nan64 (b64_mult x y) = true.
Proof. destruct y; try discriminate. intros _. destruct x; reflexivity. Qed.
Lemma mult_nan_l (x y : b64) : nan64 x = true -> nan64 (b64_mult x y) = true.
Proof. destruct x; try discriminate. intros _. destruct y; reflexivity. Qed.
Lemma plus_nan_r (x y : b64) : nan64 y = true -> nan64 (b64_plus x y) = true.
Proof. destruct y; try discriminate. intros _. destruct x; reflexivity. Qed.
Lemma plus_nan_l (x y : b64) : nan64 x = true -> nan64 (b64_plus x y) = true.
Proof. destruct x; try discriminate. intros _. destruct y; reflexivity. Qed.
Lemma minus_nan_first (x y : b64) : nan64 x = true -> nan64 (b64_minus x y) = true.
Proof. destruct x; try discriminate. intros _. destruct y; reflexivity. Qed.
Lemma div_nan_r (x y : b64) : nan64 y = true -> nan64 (b64_div x y) = true.
Proof. destruct y; try discriminate. intros _. destruct x; reflexivity. Qed.
Lemma div_nan_l (x y : b64) : nan64 x = true -> nan64 (b64_div x y) = true.
Proof. destruct x; try discriminate. intros _. destruct y; reflexivity. Qed.

(** the logarithm of what is not a finite non-negative number is NaN *)
Lemma log_bad (x : b64) : finite64 x = false -> nan64 (m_log mm x) = true.
Proof.
  intros F. change (m_log mm x) with (xlog (N := B64) musl_utils x). destruct (xlog_special musl_utils x) as (A & B & _ & C).
  destruct x as [s|s| |s m e H]; try discriminate.
  - destruct s; [rewrite B by reflexivity; reflexivity|rewrite C by reflexivity; reflexivity].
  - rewrite A by reflexivity. reflexivity.
Qed.
Lemma log_neg (x : b64) : nan64 x = false -> xval x < 0 -> nan64 (m_log mm x) = true.
Proof.
  intros N L. change (m_log mm x) with (xlog (N := B64) musl_utils x). destruct (xlog_special musl_utils x) as (_ & B & _).
  rewrite B; [reflexivity|]. apply ltb_true_iff. rewrite xval_zero. repeat split; auto.
Qed.

Lemma loop_nan (f : Z -> b64 -> res b64) n : (forall i r r', nan64 r = true -> f i r = Ret r' -> nan64 r' = true) ->
  forall i r r', nan64 r = true -> for_from n i f r = Ret r' -> nan64 r' = true.
Proof.
  intros H. induction n as [|n IH]; intros i r r' N; cbn [for_from]; [intros E; injection E as <-; exact N|].
  destruct (f i r) as [r1|] eqn:E; cbn [bind]; [|discriminate]. apply IH. eapply H; eassumption.
Qed.

Lemma times_inf (x v : b64) : finite64 x = false -> finite64 (b64_plus (b64_ofZ 1) (b64_mult x v)) = false.
Proof.
  intros F. destruct x as [s|s| |s m e H]; try discriminate; destruct v as [t|t| |t m' e' H'];
    try destruct s; try destruct t; vm_compute; reflexivity.
Qed.

Lemma likelihood_nan (p : peaks B64) (g s : b64) ll : (1 <= peaks_size p)%Z -> log_likelihood mm p g s = Ret ll ->
  nan64 (m_log mm s) = true \/ (b64_eqb g (b64_ofZ 0) = false /\ finite64 (b64_div g s) = false) -> nan64 ll = true.
Proof.
  intros HN. unfold log_likelihood. change (ubend_size (p_cont p)) with (peaks_size p).
  change (@neq B64 g (nofZ 0)) with (b64_eqb g (b64_ofZ 0)).
  intros E [L|(G & X)].
  - destruct (b64_eqb g (b64_ofZ 0)).
    + apply Ret_inj in E. rewrite <- E. apply minus_nan_first, mult_nan_r. exact L.
    + revert E. unfold for_lt. apply loop_nan; [|apply mult_nan_r; exact L].
      intros i r r' N. destruct (rdcell _ _) as [v|]; cbn [bind]; [|discriminate]. intros E. apply Ret_inj in E. rewrite <- E. apply plus_nan_l. exact N.
  - rewrite G in E. revert E. unfold for_lt. destruct (Z.to_nat (peaks_size p)) as [|n] eqn:Z; [lia|]. cbn [for_from].
    destruct (rdcell (u_data (p_cont p)) 0) as [v|]; cbn [bind]; [|discriminate].
    apply loop_nan.
    + intros i r r' N. destruct (rdcell _ _) as [u|]; cbn [bind]; [|discriminate]. intros E. apply Ret_inj in E. rewrite <- E. apply plus_nan_l. exact N.
    + apply plus_nan_r, mult_nan_r, log_bad. apply times_inf. exact X.
Qed.

(** signs *)
Lemma mult_sign (a b : b64) : nan64 a = false -> nan64 b = false -> 0 <= xval a -> xval b <= 0 ->
  nan64 (b64_mult a b) = true \/ xval (b64_mult a b) <= 0.
Proof.
  intros Na Nb A B. destruct (finite64 a) eqn:Fa, (finite64 b) eqn:Fb.
  - right. destruct (mult_xval a b Fa Fb) as (_ & ->). rewrite xval_finite in A, B by assumption. rewrite <- rndc_0. apply rndc_mono. nra.
  - pose proof TOP_pos. destruct b as [s|s| |s m e H']; try discriminate. destruct s; [|unfold xval in B; lra].
    destruct a as [t|t| |t m' e' H'']; try discriminate; [left; reflexivity|]. destruct t; [|right; cbn; lra].
    rewrite xval_finite in A by reflexivity. cbn [B2R] in A. assert (F2R (Float radix2 (cond_Zopp true (Z.pos m')) e') < 0) by (apply F2R_lt_0; reflexivity). lra.
  - pose proof TOP_pos. destruct a as [s|s| |s m e H']; try discriminate. destruct s; [unfold xval in A; lra|].
    destruct b as [t|t| |t m' e' H'']; try discriminate; [left; reflexivity|]. destruct t; [right; cbn; lra|].
    rewrite xval_finite in B by reflexivity. cbn [B2R] in B. assert (0 < F2R (Float radix2 (cond_Zopp false (Z.pos m')) e')) by (apply F2R_gt_0; reflexivity). lra.
  - pose proof TOP_pos. destruct a as [s|s| |s m e H']; try discriminate. destruct b as [t|t| |t m' e' H'']; try discriminate.
    destruct s; [unfold xval in A; lra|]. destruct t; [right; cbn; lra|unfold xval in B; lra].
Qed.

Lemma div_nonneg (a : b64) (n : Z) : (1 <= n <= 2 ^ 53)%Z -> nan64 a = false -> 0 <= xval a ->
  nan64 (b64_div a (b64_ofZ n)) = false /\ 0 <= xval (b64_div a (b64_ofZ n)).
Proof.
  intros Hn Na A. destruct (ofZ_exact n ltac:(lia)) as (Fn & En). assert (P : 0 < IZR n) by (apply IZR_lt; lia).
  destruct (finite64 a) eqn:Fa.
  - destruct (div_xval a (b64_ofZ n) Fa Fn ltac:(lra)) as (N & ->). split; [exact N|]. rewrite xval_finite in A by assumption. rewrite En, <- rndc_0. apply rndc_mono.
    apply Rmult_le_pos; [exact A|]. left. apply Rinv_0_lt_compat. exact P.
  - pose proof TOP_pos. destruct a as [s|s| |s m e H']; try discriminate. destruct s; [unfold xval in A; lra|].
    destruct (b64_ofZ n) as [t|t| |t m' e' H'']; try discriminate; cbn [B2R] in En.
    + lra.
    + destruct t; [|split; [reflexivity|cbn; lra]]. assert (F2R (Float radix2 (cond_Zopp true (Z.pos m')) e') < 0) by (apply F2R_lt_0; reflexivity). lra.
Qed.

Lemma not_neg (x : b64) : b64_ltb x (b64_ofZ 0) = false -> nan64 x = true \/ (nan64 x = false /\ 0 <= xval x).
Proof.
  intros H. destruct (nan64 x) eqn:N; [left; reflexivity|right]. split; [reflexivity|].
  rewrite ltb_xval in H by (auto; reflexivity). apply Rlt_bool_false_inv in H. rewrite xval_zero in H. exact H.
Qed.

(** the ratio: NaN, plus infinity, or at most -1 *)
Lemma ratio_cases (E w : b64) : (nan64 E = true \/ (nan64 E = false /\ 0 <= xval E)) -> (nan64 w = true \/ (nan64 w = false /\ 0 <= xval w)) ->
  let V := b64_minus w (b64_mult E E) in b64_ltb (b64_ofZ 0) V = false ->
  let R := b64_div (b64_mult E E) V in nan64 R = true \/ R = B754_infinity false \/ (nan64 R = false /\ xval R <= -1).
Proof.
  intros HE Hw V HV R. pose proof TOP_pos as TP.
  destruct HE as [NE|(NE & PE)]; [left; apply div_nan_l, mult_nan_l; exact NE|].
  destruct Hw as [Nw|(Nw & Pw)]; [left; apply div_nan_r, minus_nan_first; exact Nw|].
  assert (M : nan64 (b64_mult E E) = false /\ 0 <= xval (b64_mult E E)).
  { destruct (finite64 E) eqn:FE.
    - destruct (mult_xval E E FE FE) as (N & ->). split; [exact N|]. rewrite <- rndc_0. apply rndc_mono. nra.
    - destruct E as [s|s| |s m e H']; try discriminate. destruct s; [unfold xval in PE; lra|]. split; [reflexivity|cbn; lra]. }
  unfold R. clear R. revert V HV. generalize dependent (b64_mult E E). intros m2 (Nm & Pm) V HV.
  destruct (finite64 m2) eqn:Fm.
  2:{ left. destruct m2 as [s|s| |s m e H']; try discriminate. destruct s; [unfold xval in Pm; lra|].
      unfold V. destruct w as [t|t| |t m' e' H'']; try discriminate; try (destruct t; reflexivity). }
  destruct (finite64 w) eqn:Fw.
  2:{ exfalso. destruct w as [t|t| |t m' e' H'']; try discriminate. destruct t; [unfold xval in Pw; lra|].
      unfold V in HV. destruct m2 as [s|s| |s m e H']; try discriminate; vm_compute in HV; discriminate. }
  destruct (minus_xval w m2 Fw Fm) as (NV & XV). fold V in NV, XV. rewrite (xval_finite w) in Pw by exact Fw. rewrite (xval_finite m2) in Pm by exact Fm.
  assert (V1 : xval V <= 0) by (rewrite ltb_xval, xval_zero in HV by (auto; reflexivity); apply Rlt_bool_false_inv in HV; exact HV).
  assert (V2 : - B2R64 m2 <= xval V).
  { rewrite XV. replace (- B2R64 m2) with (rndc (- B2R64 m2)) by (rewrite rndc_opp, rndc_format; reflexivity). apply rndc_mono. lra. }
  assert (FV : finite64 V = true) by (apply finite_of_xval; [exact NV|]; apply Rabs_def1; pose proof (B2R_bounds m2); lra).
  rewrite (xval_finite V) in V1, V2 by exact FV.
  destruct (Req_dec (B2R64 V) 0) as [Z|Z].
  - destruct V as [t|t| |t m' e' H'']; try discriminate FV.
    + destruct m2 as [s|s| |s m e H']; try discriminate Fm; [left; reflexivity|].
      destruct s; [assert (F2R (Float radix2 (cond_Zopp true (Z.pos m)) e) < 0) by (apply F2R_lt_0; reflexivity); cbn [B2R] in Pm; lra|].
      destruct t; [right; right; split; [reflexivity|]|right; left; reflexivity].
      change (xval _) with (- TOP). destruct (ofZ_exact 1 ltac:(lia)) as (_ & E1). pose proof (B2R_bounds (b64_ofZ 1)). lra.
    + exfalso. cbn [B2R] in Z. destruct t; [assert (F2R (Float radix2 (cond_Zopp true (Z.pos m')) e') < 0) by (apply F2R_lt_0; reflexivity); lra|].
      assert (0 < F2R (Float radix2 (cond_Zopp false (Z.pos m')) e')) by (apply F2R_gt_0; reflexivity). lra.
  - right. right. destruct (div_xval m2 V Fm FV Z) as (ND & ->). split; [exact ND|].
    replace (-1) with (rndc (B2R64 (b64_ofZ (-1)))) by (rewrite rndc_format; apply (ofZ_exact (-1)); lia).
    apply rndc_mono. destruct (ofZ_exact (-1) ltac:(lia)) as (_ & ->). apply (Rmult_le_reg_r (- B2R64 V)); [lra|].
    replace (B2R64 m2 / B2R64 V * - B2R64 V) with (- B2R64 m2) by (field; exact Z). lra.
Qed.

Lemma half_ok : finite64 half = true /\ B2R64 half = 1 / 2.
Proof.
  destruct (ofZ_exact 1 ltac:(lia)) as (F1 & E1). destruct (ofZ_exact 2 ltac:(lia)) as (F2 & E2).
  assert (S : B2SF half = SpecFloat.S754_finite false 4503599627370496 (-53)) by (vm_compute; reflexivity).
  destruct half as [s|s| |s m e H]; try discriminate. cbn in S. injection S as -> -> ->. split; [reflexivity|]. cbn. unfold F2R, Fnum, Fexp. cbn. lra.
Qed.

Lemma moments_rejected (p : peaks B64) ll : (1 <= peaks_size p <= 2 ^ 53)%Z ->
  b64_ltb (p_e p) (b64_ofZ 0) = false -> b64_ltb (p_e2 p) (b64_ofZ 0) = false -> b64_ltb (b64_ofZ 0) (peaks_var p) = false ->
  log_likelihood mm p (mom_gamma p) (mom_sigma p) = Ret ll -> nan64 ll = true.
Proof.
  intros HN He He2 HV HL. apply (likelihood_nan p _ _ _ (proj1 HN) HL). clear HL.
  set (E := peaks_mean p : b64).
  assert (PE : nan64 E = true \/ (nan64 E = false /\ 0 <= xval E)).
  { unfold E, peaks_mean. change (@ndiv B64) with b64_div. destruct (not_neg _ He) as [N|(N & P)]; [left; apply div_nan_l; exact N|right; apply div_nonneg; assumption]. }
  set (w := b64_div (p_e2 p) (b64_ofZ (peaks_size p))).
  assert (Pw : nan64 w = true \/ (nan64 w = false /\ 0 <= xval w)).
  { unfold w. destruct (not_neg _ He2) as [N|(N & P)]; [left; apply div_nan_l; exact N|right; apply div_nonneg; assumption]. }
  change (peaks_var p) with (b64_minus w (b64_mult E E)) in HV.
  pose proof (ratio_cases E w PE Pw HV) as C. cbv zeta in C.
  change (b64_div (b64_mult E E) (b64_minus w (b64_mult E E))) with (mom_ratio p) in C.
  unfold mom_gamma, mom_sigma. fold E. revert C. generalize (mom_ratio p) as Rr. clear HV. intros Rr [N|[->|(N & L)]].
  - left. apply log_bad. destruct (b64_mult (b64_mult half E) (b64_plus (d 1) Rr)) eqn:X; try reflexivity; exfalso;
      assert (Y := mult_nan_r (b64_mult half E) _ (plus_nan_r (d 1) Rr N)); rewrite X in Y; discriminate.
  - right. assert (G : b64_mult half (b64_minus (d 1) (B754_infinity false)) = B754_infinity true) by (vm_compute; reflexivity). rewrite G.
    split; [reflexivity|]. assert (S : b64_plus (d 1) (B754_infinity false) = B754_infinity false) by (vm_compute; reflexivity). rewrite S.
    destruct (b64_mult half E) as [s|s| |s m e H]; reflexivity.
  - destruct PE as [NE|(NE & PE)].
    { left. apply log_bad. destruct (b64_mult (b64_mult half E) (b64_plus (d 1) Rr)) eqn:X; try reflexivity; exfalso;
        assert (Y := mult_nan_l _ (b64_plus (d 1) Rr) (mult_nan_r half E NE)); rewrite X in Y; discriminate. }
    destruct (ofZ_exact 1 ltac:(lia)) as (F1 & E1). change (d 1) with (b64_ofZ 1) in *. pose proof TOP_pos as TP. destruct half_ok as (FH & EH).
    assert (A : nan64 (b64_plus (b64_ofZ 1) Rr) = false /\ xval (b64_plus (b64_ofZ 1) Rr) <= 0).
    { destruct (finite64 Rr) eqn:FR.
      - destruct (plus_xval (b64_ofZ 1) Rr F1 FR) as (X & ->). split; [exact X|]. rewrite xval_finite in L by exact FR. rewrite <- rndc_0. apply rndc_mono. lra.
      - destruct Rr as [s|s| |s m e H]; try discriminate FR; try discriminate N. destruct s; [split; [vm_compute; reflexivity|cbn; lra]|unfold xval in L; lra]. }
    assert (HE2 : nan64 (b64_mult half E) = false /\ 0 <= xval (b64_mult half E)).
    { destruct (finite64 E) eqn:FE.
      - destruct (mult_xval half E FH FE) as (X & ->). split; [exact X|]. rewrite xval_finite in PE by exact FE. rewrite <- rndc_0. apply rndc_mono. nra.
      - destruct E as [s|s| |s m e H]; try discriminate FE; try discriminate NE. destruct s; [unfold xval in PE; lra|]. split; [vm_compute; reflexivity|]. replace (b64_mult half (B754_infinity false)) with (B754_infinity false : b64) by (vm_compute; reflexivity). cbn. lra. }
    assert (B : nan64 (b64_minus (b64_ofZ 1) Rr) = false /\ 2 <= xval (b64_minus (b64_ofZ 1) Rr)).
    { destruct (ofZ_exact 2 ltac:(lia)) as (F2 & E2). assert (T2 : 2 <= TOP) by (rewrite <- E2; apply Rlt_le, B2R_bounds).
      destruct (finite64 Rr) eqn:FR.
      - destruct (minus_xval (b64_ofZ 1) Rr F1 FR) as (X & ->). split; [exact X|]. rewrite xval_finite in L by exact FR.
        rewrite <- E2, <- rndc_format. apply rndc_mono. rewrite E2, E1. lra.
      - destruct Rr as [s|s| |s m e H]; try discriminate FR; try discriminate N. destruct s; [split; [vm_compute; reflexivity|cbn; lra]|unfold xval in L; lra]. }
    assert (G : nan64 (b64_mult half (b64_minus (b64_ofZ 1) Rr)) = false /\ 1 <= xval (b64_mult half (b64_minus (b64_ofZ 1) Rr))).
    { destruct B as (NB & LB). assert (T1 : 1 <= TOP) by (rewrite <- E1; apply Rlt_le, B2R_bounds).
      destruct (finite64 (b64_minus (b64_ofZ 1) Rr)) eqn:FB.
      - destruct (mult_xval half _ FH FB) as (X & ->). split; [exact X|]. rewrite xval_finite in LB by exact FB.
        rewrite <- E1, <- rndc_format. apply rndc_mono. rewrite E1. nra.
      - destruct (b64_minus (b64_ofZ 1) Rr) as [s|s| |s m e H]; try discriminate FB; try discriminate NB. destruct s; [unfold xval in LB; lra|].
        replace (b64_mult half (B754_infinity false)) with (B754_infinity false : b64) by (vm_compute; reflexivity). split; [reflexivity|cbn; lra]. }
    destruct A as (NA & LA). destruct HE2 as (NH & LH). destruct G as (NG & LG).
    destruct (mult_sign _ _ NH NA LH LA) as [X|X].
    + left. apply log_bad. destruct (b64_mult (b64_mult half E) (b64_plus (b64_ofZ 1) Rr)); try reflexivity; discriminate.
    + set (sigma := b64_mult (b64_mult half E) (b64_plus (b64_ofZ 1) Rr)) in *. set (g := b64_mult half (b64_minus (b64_ofZ 1) Rr)) in *.
      destruct (nan64 sigma) eqn:NS; [left; apply log_bad; destruct sigma; try reflexivity; discriminate|].
      destruct (Req_dec (xval sigma) 0) as [Z|Z]; [right|left; apply log_neg; [exact NS|lra]].
      split.
      * destruct (b64_eqb g (b64_ofZ 0)) eqn:Q; [|reflexivity]. apply eqb_true_iff in Q as (_ & _ & Q). rewrite xval_zero in Q. lra.
      * destruct sigma as [s|s| |s m e H]; try discriminate NS.
        -- destruct g as [t|t| |t m' e' H']; try discriminate NG; try (cbn in LG; lra); reflexivity.
        -- exfalso. unfold xval in Z. destruct s; lra.
        -- exfalso. rewrite xval_finite in Z by reflexivity. cbn [B2R] in Z. destruct s.
           ++ assert (F2R (Float radix2 (cond_Zopp true (Z.pos m)) e) < 0) by (apply F2R_lt_0; reflexivity); lra.
           ++ assert (0 < F2R (Float radix2 (cond_Zopp false (Z.pos m)) e)) by (apply F2R_gt_0; reflexivity). lra.
Qed.

Lemma moments_silent (t t' : tail B64) ll : (1 <= peaks_size (t_peaks t) <= 2 ^ 53)%Z ->
  b64_ltb (p_e (t_peaks t)) (b64_ofZ 0) = false -> b64_ltb (p_e2 (t_peaks t)) (b64_ofZ 0) = false -> b64_ltb (b64_ofZ 0) (peaks_var (t_peaks t)) = false ->
  tail_fit mm t = Ret (t', ll) -> grimshaw_estimator mm (t_peaks t) = Ret (ll, t_gamma t', t_sigma t').
Proof.
  intros HN He He2 HV. set (p := t_peaks t) in *. pose proof (moments_rejected p) as MR.
  unfold tail_fit, tail_fit_loop, ESTIMATORS. fold p. unfold mom_estimator. cbv zeta. fold p.
  change (@nmul B64 c_half (nsub (nofZ 1) (ndiv (nmul (peaks_mean p) (peaks_mean p)) (peaks_var p)))) with (mom_gamma p).
  change (@nmul B64 (nmul c_half (peaks_mean p)) (nadd (nofZ 1) (ndiv (nmul (peaks_mean p) (peaks_mean p)) (peaks_var p)))) with (mom_sigma p).
  destruct (log_likelihood mm p (mom_gamma p) (mom_sigma p)) as [ll1|] eqn:E1; cbn [bind]; [|discriminate].
  specialize (MR ll1 HN He He2 HV eq_refl).
  change (XMath.is_nan (@c_nan B64)) with true. cbn [orb t_peaks]. fold p.
  destruct (grimshaw_estimator mm p) as [[[llg gg] sg]|]; cbn [bind]; [|discriminate].
  rewrite is_nan_b64, MR. cbn [orb]. intros H. injection H as <- <-. reflexivity.
Qed.

(** ** Over the reals *)
Lemma log_likelihood_none (p : peaks RNum) (g s : num RNum) ll : R_log s = None -> log_likelihood exact_math p g s = Ret ll -> ll = None.
Proof.
  intros L. unfold log_likelihood. change (m_log exact_math s) with (R_log s). rewrite L.
  assert (N : forall n i r', for_from n i (fun (i : Z) (r : num RNum) => v <- rdcell (u_data (p_cont p)) i ;;
      Ret (nadd r (nmul (nopp (nadd (nofZ 1) (ndiv (nofZ 1) g))) (m_log exact_math (nadd (nofZ 1) (nmul (ndiv g s) v)))))) (None : num RNum) = Ret r' -> r' = None).
  { induction n as [|n IH]; intros i r'; cbn [for_from]; [intros E; injection E as <-; reflexivity|].
    destruct (rdcell _ _) as [v|]; cbn [bind]; [|discriminate]. apply IH. }
  destruct (neq g _).
  - intros E. injection E as <-. reflexivity.
  - unfold for_lt. apply N.
Qed.

Lemma moments_over_the_reals (p : peaks RNum) e e2 (ll g s : num RNum) : (0 < peaks_size p)%Z -> p_e p = Some e -> p_e2 p = Some e2 -> 0 < e ->
  mom_estimator exact_math p = Ret (ll, g, s) ->
  let E := e / IZR (peaks_size p) in let V := e2 / IZR (peaks_size p) - E * E in
  (0 < V -> exists gamma sigma, g = Some gamma /\ s = Some sigma /\ gamma < 1 / 2 /\ E / 2 < sigma) /\
  (- (E * E) <= V <= 0 -> ll = None) /\
  (V < - (E * E) -> exists gamma sigma, g = Some gamma /\ s = Some sigma /\ 1 / 2 < gamma < 1 /\ 0 < sigma < E / 2).
Proof.
  intros HN He He2 Pe H E V. assert (Pn : 0 < IZR (peaks_size p)) by (apply IZR_lt; exact HN).
  assert (PE : 0 < E) by (unfold E; apply Rdiv_lt_0_compat; lra).
  assert (EM : peaks_mean p = (Some E : num RNum)).
  { unfold peaks_mean. rewrite He. cbn [ndiv RNum nofZ xr_div]. rewrite Req_bool_false by lra. reflexivity. }
  assert (EV : peaks_var p = (Some V : num RNum)).
  { unfold peaks_var. rewrite He, He2. cbn [ndiv RNum nofZ xr_div nsub nmul xr2]. rewrite Req_bool_false by lra. reflexivity. }
  unfold mom_estimator in H. rewrite EM, EV in H. cbv zeta in H.
  destruct (log_likelihood exact_math p _ _) as [l|] eqn:LL; cbn [bind] in H; [|discriminate].
  assert (H3 := H). apply Ret_inj in H3. injection H3 as <- <- <-. clear H.
  cbn [ndiv RNum nofZ xr_div nsub nmul nadd xr2 c_half] in *.
  destruct (Req_EM_T V 0) as [Z|Z].
  - rewrite (Req_bool_true V 0 Z) in *. split; [intros; lra|]. split; [|intros; nra]. intros _.
    apply (log_likelihood_none _ _ _ _) in LL; [exact LL|]. cbn. unfold c_half. cbn. rewrite Req_bool_false by lra. reflexivity.
  - rewrite (Req_bool_false V 0 Z) in *. unfold c_half in *. cbn [ndiv RNum nofZ xr_div nsub nmul nadd xr2] in *. rewrite (Req_bool_false 2 0) in * by lra. cbn [xr2] in *.
    set (R0 := E * E / V) in *. assert (ER : R0 * V = E * E) by (unfold R0; field; exact Z). assert (PEE : 0 < E * E) by nra.
    split; [intros PV|split; [intros NV|intros NV]].
    + assert (0 < R0) by (unfold R0; apply Rdiv_lt_0_compat; lra). exists (1 / 2 * (1 - R0)), (1 / 2 * E * (1 + R0)).
      split; [reflexivity|]. split; [reflexivity|]. split; [lra|nra].
    + assert (R0 <= -1) by nra. apply (log_likelihood_none _ _ _ _) in LL; [exact LL|].
      cbn [R_log]. rewrite Rlt_bool_false; [reflexivity|]. assert (0 <= 1 / 2 * E * - (1 + R0)) by (apply Rmult_le_pos; lra). lra.
    + assert (R1 : -1 < R0) by nra. assert (R2 : R0 < 0) by nra. exists (1 / 2 * (1 - R0)), (1 / 2 * E * (1 + R0)).
      split; [reflexivity|]. split; [reflexivity|]. split; [lra|]. split; [apply Rmult_lt_0_compat; lra|].
      assert (0 < E * - R0) by (apply Rmult_lt_0_compat; lra). lra.
Qed.

(** ** A negative second moment *)
Definition wins (x : res (peaks B64)) : bool :=
  match x with
  | Ret p => b64_ltb (peaks_var p) (b64_ofZ 0) &&
      match tail_fit mm (MkTail (N := B64) (b64_ofZ 0) (b64_ofZ 0) p), grimshaw_estimator mm p with
      | Ret (t', _), Ret (_, g, _) => b64_ltb (b64_ofZ 0) (t_gamma t') && negb (b64_ltb (b64_ofZ 0) g)
      | _, _ => false end
  | _ => false end.
Lemma wins_inv (x : res (peaks B64)) : wins x = true -> exists p t' ll, x = Ret p /\ b64_ltb (peaks_var p) (b64_ofZ 0) = true /\
  tail_fit mm (MkTail (N := B64) (b64_ofZ 0) (b64_ofZ 0) p) = Ret (t', ll) /\ grimshaw_estimator mm p <> Ret (ll, t_gamma t', t_sigma t').
Proof.
  unfold wins. destruct x as [p|]; [|discriminate]. intros W. apply andb_prop in W as (V & W).
  destruct (tail_fit mm _) as [[t' ll]|] eqn:T; [|discriminate W].
  exists p, t', ll. split; [reflexivity|]. split; [exact V|]. split; [exact T|]. intros G.
  rewrite G in W. apply andb_prop in W as (W1 & W2). rewrite W1 in W2. discriminate W2.
Qed.
Definition wdata : list b64 := map b64_ofZ [100; 20; 4; 100; 0]%Z.
Definition wpeaks : res (peaks B64) := peaks_pushes (N := B64) (fst (peaks_init (Some (repeat None (Z.to_nat 3))) 3)) wdata.
Lemma wins_true : wins wpeaks = true.
Proof. vm_compute. reflexivity. Qed.
Lemma wpositive : forallb (fun x => b64_leb (b64_ofZ 0) x) wdata = true.
Proof. vm_compute. reflexivity. Qed.
Lemma negative_moment_wins :
  ~ (forall cap (xs : list b64) (p : peaks B64) (t' : tail B64) ll, (forall x, In x xs -> b64_leb (b64_ofZ 0) x = true) ->
      peaks_pushes (N := B64) (fst (peaks_init (Some (repeat None (Z.to_nat cap))) cap)) xs = Ret p ->
      b64_ltb (peaks_var p) (b64_ofZ 0) = true ->
      tail_fit mm (MkTail (N := B64) (b64_ofZ 0) (b64_ofZ 0) p) = Ret (t', ll) ->
      grimshaw_estimator mm p = Ret (ll, t_gamma t', t_sigma t')).
Proof.
  intros H. destruct (wins_inv _ wins_true) as (p & t' & ll & P & V & T & G). apply G.
  apply (H 3%Z wdata p t' ll); [|exact P|exact V|exact T].
  intros x I. pose proof wpositive as A. rewrite forallb_forall in A. exact (A x I).
Qed.
