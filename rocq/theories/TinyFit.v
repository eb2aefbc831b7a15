(** * TinyFit: the fit of excesses below 2.7e-9 (C60) *)
From Coq Require Import ZArith List Bool Reals Lra Lia.
From Flocq Require Import Core.Core IEEE754.BinarySingleNaN.
From Verif Require Import Num NumFacts XMath Ubend UbendFacts Peaks PeaksFacts Brent BrentB64 Estimator Tail P2 Spot B64 B64Facts LogAcc Spec FitLemmas.
Import ListNotations.
Open Scope R_scope.

Definition eps0 : b64 := BRENT_DEFAULT_EPSILON (N := B64).
Lemma eps0_range : finite64 eps0 = true /\ 2 / 10 ^ 8 - / 10 ^ 20 <= B2R64 eps0 <= 2 / 10 ^ 8 + / 10 ^ 20.
Proof.
  split; [vm_compute; reflexivity|].
  assert (E : exists m e, B2SF eps0 = SpecFloat.S754_finite false m e /\ m = 6044629098073146%positive /\ e = (-78)%Z).
  { do 2 eexists. split; [vm_compute; reflexivity|]. split; reflexivity. }
  destruct E as (m & e & E & -> & ->). destruct eps0 as [s|s| |s m e H]; try discriminate. cbn in E. injection E as -> -> ->.
  cbn [B2R B2R64]. unfold F2R. cbn [Fnum Fexp cond_Zopp]. change (bpow radix2 (-78)) with (/ IZR (2 ^ 78)).
  change (2 ^ 78)%Z with 302231454903657293676544%Z. lra.
Qed.

(** - 2^-54 *)
Definition h54 : b64 := b64_div (b64_ofZ (-1)) (b64_ofZ (2 ^ 54)).
Lemma h54_val : finite64 h54 = true /\ B2R64 h54 = - / 18014398509481984.
Proof.
  split; [vm_compute; reflexivity|].
  assert (X : exists m e, B2SF h54 = SpecFloat.S754_finite true m e /\ m = (2 ^ 52)%positive /\ e = (-106)%Z).
  { do 2 eexists. split; [vm_compute; reflexivity|]. split; reflexivity. }
  destruct X as (m & e & X & -> & ->). destruct h54 as [s|s| |s m e Hh]; try discriminate. cbn in X. injection X as -> -> ->.
  cbn [B2R B2R64]. unfold F2R. cbn [Fnum Fexp cond_Zopp]. change (bpow radix2 (-106)) with (/ IZR (2 ^ 106)).
  change (2 ^ 106)%Z with (4503599627370496 * 18014398509481984)%Z. change (Z.neg (2 ^ 52)) with (- (4503599627370496))%Z. rewrite mult_IZR, Rinv_mult, opp_IZR. lra.
Qed.
(** 1 + (- epsilon) y is exactly one *)
Lemma one_minus_tiny (t : b64) : finite64 t = true -> - / 18014398509481984 <= B2R64 t <= 0 -> b64_plus (b64_ofZ 1) t = b64_ofZ 1.
Proof.
  intros F H. destruct (ofZ_exact 1 ltac:(lia)) as (F1 & E1). destruct (plus_xval _ t F1 F) as (N & V). rewrite E1 in V.
  destruct h54_val as (Fh & Eh). destruct (plus_xval (b64_ofZ 1) h54 F1 Fh) as (_ & Vh). rewrite E1, Eh in Vh.
  assert (X : xval (b64_plus (b64_ofZ 1) h54) = 1).
  { replace (b64_plus (b64_ofZ 1) h54) with (b64_ofZ 1); [rewrite xval_finite by exact F1; exact E1|].
    apply B2SF_inj. vm_compute. reflexivity. }
  rewrite X in Vh. assert (R : rndc (1 + B2R64 t) = 1).
  { apply Rle_antisym.
    - replace 1 with (rndc (B2R64 (b64_ofZ 1))) at 2 by (rewrite rndc_format; exact E1). rewrite E1. apply rndc_mono. lra.
    - rewrite Vh at 1. apply rndc_mono. lra. }
  rewrite R in V. assert (FF : finite64 (b64_plus (b64_ofZ 1) t) = true).
  { apply finite_of_xval; [exact N|]. rewrite V, Rabs_R1. rewrite <- E1 at 1. apply Rle_lt_trans with (Rabs (B2R64 (b64_ofZ 1))); [apply Rle_abs|apply abs_B2R_TOP]. }
  rewrite xval_finite in V by exact FF. apply B2R_inj; [| |rewrite V, E1; reflexivity].
  - revert V FF. generalize (b64_plus (b64_ofZ 1) t). intros z V FF. destruct z as [s|s| |s m e X']; try discriminate; [cbn in V; lra|reflexivity].
  - reflexivity.
Qed.

Definition tiny (y : b64) : Prop := finite64 y = true /\ 0 <= B2R64 y <= 27 / 10 ^ 10.
Lemma one_at_right_end (y : b64) : tiny y -> b64_plus (b64_ofZ 1) (b64_mult (b64_opp eps0) y) = b64_ofZ 1.
Proof.
  intros (F & H). destruct eps0_range as (Fe & He). assert (Fo : finite64 (b64_opp eps0) = true) by (rewrite finite_opp; exact Fe).
  assert (Eo : B2R64 (b64_opp eps0) = - B2R64 eps0). { rewrite <- !xval_finite by assumption. apply xval_opp. }
  destruct (mult_xval _ y Fo F) as (N & V). rewrite Eo in V.
  destruct h54_val as (Fh & Eh).
  assert (P : - / 18014398509481984 <= - B2R64 eps0 * B2R64 y <= 0).
  { assert (0 <= B2R64 eps0 * B2R64 y) by (apply Rmult_le_pos; lra).
    assert (B2R64 eps0 * B2R64 y <= (2 / 10 ^ 8 + / 10 ^ 20) * (27 / 10 ^ 10)) by (apply Rmult_le_compat; lra). lra. }
  assert (Q : - / 18014398509481984 <= xval (b64_mult (b64_opp eps0) y) <= 0).
  { rewrite V. split.
    - rewrite <- Eh, <- (rndc_format h54). apply rndc_mono. rewrite Eh. lra.
    - rewrite <- rndc_0. apply rndc_mono. lra. }
  assert (FF : finite64 (b64_mult (b64_opp eps0) y) = true).
  { apply finite_of_xval; [exact N|]. apply Rle_lt_trans with 1; [apply Rabs_le; lra|].
    destruct (ofZ_exact 1 ltac:(lia)) as (F1 & E1). rewrite <- E1. apply B2R_bounds. }
  apply one_minus_tiny; [exact FF|]. rewrite <- (xval_finite _ FF). exact Q.
Qed.

Lemma ofZ_succ k : (0 <= k)%Z -> (k + 1 <= 2 ^ 53)%Z -> b64_plus (b64_ofZ k) (b64_ofZ 1) = b64_ofZ (k + 1).
Proof.
  intros H1 H2. destruct (ofZ_exact 1 ltac:(lia)) as (F1 & E1). destruct (ofZ_exact k ltac:(lia)) as (Fk & Ek).
  destruct (ofZ_exact (k + 1) ltac:(lia)) as (Fs & Es). destruct (plus_xval _ _ Fk F1) as (N & V). rewrite Ek, E1, <- plus_IZR, <- Es, rndc_format, Es in V.
  assert (FF : finite64 (b64_plus (b64_ofZ k) (b64_ofZ 1)) = true).
  { apply finite_of_xval; [exact N|]. rewrite V, <- Es. apply abs_B2R_TOP. }
  rewrite xval_finite in V by exact FF. assert (P : 0 < IZR (k + 1)) by (apply IZR_lt; lia).
  apply B2R_inj; [| |congruence].
  - revert V FF. generalize (b64_plus (b64_ofZ k) (b64_ofZ 1)). intros z V FF. destruct z as [s|s| |s m e X']; try discriminate; [cbn in V; lra|reflexivity].
  - revert Es Fs. generalize (b64_ofZ (k + 1)). intros z V' FF'. destruct z as [s|s| |s m e X']; try discriminate; [cbn in V'; lra|reflexivity].
Qed.

Notation cm := (c_math musl_utils : MathFns B64).
Lemma xlog_one : xlog (N := B64) musl_utils (b64_ofZ 1) = (B754_zero false : b64).
Proof. vm_compute. reflexivity. Qed.
Lemma one_over_one : b64_div (b64_ofZ 1) (b64_ofZ 1) = b64_ofZ 1.
Proof. apply B2SF_inj. vm_compute. reflexivity. Qed.

(** the two sums of Grimshaw's equation at the right end of the left interval *)
Lemma fold_w (w : list b64) k : (forall y, In y w -> tiny y) -> (0 <= k)%Z -> (k + Z.of_nat (length w) <= 2 ^ 53)%Z ->
  fold_left (fun uv y => let s := nadd (n := B64) (nofZ 1) (nmul (n := B64) (b64_opp eps0) y) in (nadd (n := B64) (fst uv) (ndiv (n := B64) (nofZ 1) s), nadd (n := B64) (snd uv) (m_log cm s))) w
    (b64_ofZ k, (B754_zero false : b64)) = (b64_ofZ (k + Z.of_nat (length w)), (B754_zero false : b64)).
Proof.
  revert k. induction w as [|y w IH]; intros k T H1 H2; [cbn [length fold_left]; rewrite Z.add_0_r; reflexivity|].
  cbn [fold_left fst snd]. change (@nadd B64 (@nofZ B64 1) (@nmul B64 (b64_opp eps0) y)) with (b64_plus (b64_ofZ 1) (b64_mult (b64_opp eps0) y)).
  rewrite one_at_right_end by (apply T; left; reflexivity). cbv zeta.
  change (@ndiv B64 (nofZ 1) (b64_ofZ 1)) with (b64_div (b64_ofZ 1) (b64_ofZ 1)). rewrite one_over_one.
  change (m_log cm (b64_ofZ 1)) with (xlog (N := B64) musl_utils (b64_ofZ 1)). rewrite xlog_one.
  change (@nadd B64 (B754_zero false) (B754_zero false)) with (B754_zero false : b64).
  cbn [length] in H2. change (@nadd B64 (b64_ofZ k) (b64_ofZ 1)) with (b64_plus (b64_ofZ k) (b64_ofZ 1)). rewrite ofZ_succ by lia.
  rewrite IH; [|intros; apply T; right; assumption|lia|lia]. cbn [length]. do 2 f_equal. lia.
Qed.
Lemma fold_v (w : list b64) : (forall y, In y w -> tiny y) ->
  fold_left (fun v y => nadd (n := B64) v (m_log cm (nadd (n := B64) (nofZ 1) (nmul (n := B64) (b64_opp eps0) y)))) w (B754_zero false : b64) = (B754_zero false : b64).
Proof.
  induction w as [|y w IH]; intros T; [reflexivity|].
  cbn [fold_left]. change (@nadd B64 (@nofZ B64 1) (@nmul B64 (b64_opp eps0) y)) with (b64_plus (b64_ofZ 1) (b64_mult (b64_opp eps0) y)).
  rewrite one_at_right_end by (apply T; left; reflexivity).
  change (m_log cm (b64_ofZ 1)) with (xlog (N := B64) musl_utils (b64_ofZ 1)). rewrite xlog_one.
  change (@nadd B64 (B754_zero false) (B754_zero false)) with (B754_zero false : b64). apply IH. intros; apply T; right; assumption.
Qed.

Lemma pos_shape (x : b64) : finite64 x = true -> 0 < B2R64 x -> exists m e H, x = B754_finite false m e H.
Proof.
  intros F P. destruct x as [s|s| |s m e H]; try discriminate; [cbn in P; lra|]. destruct s; [|eauto].
  exfalso. cbn in P. unfold F2R in P. cbn in P. pose proof (bpow_gt_0 radix2 e). assert (IZR (Z.neg m) < 0) by (apply IZR_lt; lia). nra.
Qed.
Lemma self_div (x : b64) : finite64 x = true -> 0 < B2R64 x -> b64_div x x = b64_ofZ 1.
Proof.
  intros F P. destruct (div_xval x x F F ltac:(lra)) as (N & V). destruct (ofZ_exact 1 ltac:(lia)) as (F1 & E1).
  replace (B2R64 x / B2R64 x) with (B2R64 (b64_ofZ 1)) in V by (rewrite E1; field; lra). rewrite rndc_format in V.
  assert (FF : finite64 (b64_div x x) = true) by (apply finite_of_xval; [exact N|]; rewrite V; apply abs_B2R_TOP).
  rewrite xval_finite in V by exact FF. apply B2R_inj; [| |exact V].
  - rewrite E1 in V. revert V FF. generalize (b64_div x x). intros z V FF. destruct z as [s|s| |s m e X']; try discriminate; [cbn in V; lra|reflexivity].
  - reflexivity.
Qed.
Lemma pos_int_shape n : (0 < n <= 2 ^ 53)%Z -> exists m e H, b64_ofZ n = B754_finite false m e H.
Proof.
  intros H. destruct (ofZ_exact n ltac:(lia)) as (F & E). apply pos_shape; [exact F|]. rewrite E. apply IZR_lt. lia.
Qed.
Lemma zero_over_pos n : (0 < n <= 2 ^ 53)%Z -> b64_div (B754_zero false) (b64_ofZ n) = B754_zero false.
Proof. intros H. destruct (pos_int_shape n H) as (m & e & X & ->). reflexivity. Qed.

Lemma w_zero (w : list b64) : (forall y, In y w -> tiny y) -> w <> [] -> (Z.of_nat (length w) <= 2 ^ 53)%Z ->
  grimshaw_w_of cm w (b64_opp eps0) = (B754_zero false : b64).
Proof.
  intros T NE L. assert (P : (0 < Z.of_nat (length w) <= 2 ^ 53)%Z). { split; [destruct w; [congruence|cbn [length]; lia]|lia]. }
  unfold grimshaw_w_of. pose proof (fold_w w 0 T ltac:(lia) ltac:(lia)) as X.
  match goal with |- context [fold_left ?f w ?a] => replace (fold_left f w a) with (b64_ofZ (0 + Z.of_nat (length w)), (B754_zero false : b64)) by (symmetry; exact X) end.
  cbv iota beta zeta.
  change (@ndiv B64 (b64_ofZ (0 + Z.of_nat (length w))) (nofZ (Z.of_nat (length w)))) with (b64_div (b64_ofZ (Z.of_nat (length w))) (b64_ofZ (Z.of_nat (length w)))).
  destruct (ofZ_exact (Z.of_nat (length w)) ltac:(lia)) as (F & E). rewrite self_div; [|exact F|rewrite E; apply IZR_lt; lia].
  change (@ndiv B64 (B754_zero false) (nofZ (Z.of_nat (length w)))) with (b64_div (B754_zero false) (b64_ofZ (Z.of_nat (length w)))).
  rewrite zero_over_pos by exact P. vm_compute. reflexivity.
Qed.
Lemma v_one (w : list b64) : (forall y, In y w -> tiny y) -> w <> [] -> (Z.of_nat (length w) <= 2 ^ 53)%Z ->
  grimshaw_v_of cm w (b64_opp eps0) = b64_ofZ 1.
Proof.
  intros T NE L. assert (P : (0 < Z.of_nat (length w) <= 2 ^ 53)%Z). { split; [destruct w; [congruence|cbn [length]; lia]|lia]. }
  unfold grimshaw_v_of. pose proof (fold_v w T) as X.
  match goal with |- context [fold_left ?f w ?a] => replace (fold_left f w a) with (B754_zero false : b64) by (symmetry; exact X) end.
  change (@ndiv B64 (B754_zero false) (nofZ (Z.of_nat (length w)))) with (b64_div (B754_zero false) (b64_ofZ (Z.of_nat (length w)))).
  rewrite zero_over_pos by exact P. apply B2SF_inj. vm_compute. reflexivity.
Qed.

From Verif Require Import PowAcc PowAcc4.
Definition pinf : b64 := B754_infinity false.
Lemma finite_ltb_pinf (a : b64) : finite64 a = true -> b64_ltb a pinf = true.
Proof. destruct a as [s|s| |s m e H]; try discriminate; destruct s; reflexivity. Qed.

(** the exponential candidate has a likelihood below +infinity *)
Lemma exponential_likelihood (n : Z) (e m : b64) : (0 < n <= 2 ^ 53)%Z -> finite64 e = true -> 0 <= B2R64 e -> finite64 m = true -> 0 < B2R64 m <= 1 ->
  b64_ltb (b64_minus (b64_mult (b64_opp (b64_ofZ n)) (xlog (N := B64) musl_utils m)) (b64_div e m)) pinf = true.
Proof.
  intros Hn Fe He Fm Hm. destruct (xlog_nonpos m Fm Hm) as (FL & HL). set (L := xlog (N := B64) musl_utils m : b64) in *.
  destruct (ofZ_exact n ltac:(lia)) as (Fn & En). assert (Fo : finite64 (b64_opp (b64_ofZ n)) = true) by (rewrite finite_opp; exact Fn).
  assert (Eo : B2R64 (b64_opp (b64_ofZ n)) = - IZR n). { rewrite <- (xval_finite _ Fo), xval_opp, (xval_finite _ Fn), En. reflexivity. }
  destruct (mult_xval _ L Fo FL) as (N1 & V1). rewrite Eo in V1.
  assert (B : Rabs (- IZR n * B2R64 L) <= 10 ^ 300).
  { rewrite Rabs_mult, Rabs_Ropp, Rabs_pos_eq by (apply IZR_le; lia). assert (IZR n <= 9007199254740992) by (apply IZR_le; lia).
    assert (Rabs (B2R64 L) <= 746) by (apply Rabs_le; lra). pose proof (Rabs_pos (B2R64 L)). assert (0 < IZR n) by (apply IZR_lt; lia).
    apply Rle_trans with (9007199254740992 * 746); [apply Rmult_le_compat; lra|]. apply Rle_trans with (10 ^ 20); [lra|apply Rle_pow; [lra|lia]]. }
  destruct (op_abs _ _ N1 V1 B) as (F1 & _ & _). set (a := b64_mult (b64_opp (b64_ofZ n)) L) in *.
  destruct (div_xval e m Fe Fm ltac:(lra)) as (N2 & V2). assert (P : 0 <= xval (b64_div e m)).
  { rewrite V2, <- rndc_0. apply rndc_mono. apply Rmult_le_pos; [lra|]. apply Rlt_le, Rinv_0_lt_compat. lra. }
  set (X := b64_div e m) in *. destruct (finite64 X) eqn:FX.
  - destruct (minus_xval a X F1 FX) as (N3 & V3). rewrite xval_finite in P by exact FX.
    apply ltb_true_iff. split; [exact N3|]. split; [reflexivity|]. rewrite V3. apply Rle_lt_trans with (B2R64 a).
    + rewrite <- (rndc_format a) at 2. apply rndc_mono. lra.
    + apply B2R_bounds.
  - destruct X as [s|s| |s m' e' H']; try discriminate. destruct s.
    + exfalso. cbn in P. pose proof TOP_pos. lra.
    + destruct a as [s|s| |s m' e' H']; try discriminate; destruct s; reflexivity.
Qed.

Lemma minus_zero_likelihood (n : Z) (e : b64) : (0 < n <= 2 ^ 53)%Z -> finite64 e = true -> 0 < B2R64 e ->
  b64_minus (b64_mult (b64_opp (b64_ofZ n)) (xlog (N := B64) musl_utils (B754_zero true))) (b64_div e (B754_zero true)) = pinf.
Proof.
  intros Hn Fe He. destruct (pos_int_shape n Hn) as (m & x & H & ->). destruct (pos_shape e Fe He) as (m' & x' & H' & ->).
  replace (xlog (N := B64) musl_utils (B754_zero true)) with (B754_infinity true : b64) by (vm_compute; reflexivity). reflexivity.
Qed.

Section Tiny.
Variables (cap : Z) (p : peaks B64) (l w : list b64).
Hypothesis PR : prep cap p l w.
Hypothesis TW : forall y, In y w -> tiny y.
Hypothesis NE : w <> [].
Hypothesis LW : (Z.of_nat (length w) <= 2 ^ 53)%Z.
Hypothesis FM : finite64 (p_max p) = true.
Hypothesis HM : 0 < B2R64 (p_max p) <= 27 / 10 ^ 10.
Hypothesis Fe : finite64 (p_e p) = true.
Hypothesis He : 0 < B2R64 (p_e p).
Hypothesis Fm : finite64 (peaks_mean p) = true.
Hypothesis Hm : 0 < B2R64 (peaks_mean p) <= 1.

Lemma len_pos : (0 < Z.of_nat (length w) <= 2 ^ 53)%Z.
Proof. split; [destruct w; [congruence|cbn [length]; lia]|lia]. Qed.

Lemma epsilon_is_eps0 : xmin (N := B64) (BRENT_DEFAULT_EPSILON (N := B64)) (ndiv (n := B64) c_half (p_max p)) = eps0.
Proof.
  destruct eps0_range as (F0 & H0). assert (FM' := FM). assert (HM' := HM). revert FM' HM'. generalize (p_max p). intros M FM' HM'.
  change (num B64) with b64 in M. change (ndiv (n := B64) c_half M) with (b64_div half64 M).
  destruct (div_xval half64 M half64_fin FM' ltac:(lra)) as (N & V). rewrite half64_val in V.
  unfold xmin. fold eps0. rewrite (is_nan_b64 eps0), (is_nan_b64 (b64_div half64 M)), N, (finite_not_nan eps0 F0). cbn [orb].
  change (nlt (n := B64) eps0 (b64_div half64 M)) with (b64_ltb eps0 (b64_div half64 M)).
  replace (b64_ltb eps0 (b64_div half64 M)) with true; [reflexivity|]. symmetry. apply ltb_true_iff.
  split; [apply finite_not_nan; exact F0|]. split; [exact N|]. rewrite (xval_finite _ F0), V.
  apply Rlt_le_trans with (rndc 1); [rewrite rndc_1; lra|]. apply rndc_mono.
  apply Rmult_le_reg_r with (B2R64 M); [lra|]. unfold Rdiv. rewrite Rmult_assoc, Rinv_l by lra. lra.
Qed.

Lemma left_root_at (x1 : b64) : brent (grimshaw_w cm p) (x1 : num B64) (b64_opp eps0 : num B64) (BRENT_DEFAULT_EPSILON (N := B64)) = Ret (true, b64_opp eps0 : num B64).
Proof.
  apply (C33_right_root (grimshaw_w cm p) x1 (b64_opp eps0) _ (grimshaw_w_of cm w x1) (B754_zero false)).
  - apply (grimshaw_w_eq cm cap p l w). exact PR.
  - rewrite (grimshaw_w_eq cm cap p l w _ PR). f_equal. apply w_zero; assumption.
  - reflexivity.
Qed.

Lemma left_candidate : grimshaw_simplified_log_likelihood cm (b64_opp eps0 : num B64) p = Ret (pinf : num B64, B754_zero false : num B64, B754_zero true : num B64).
Proof.
  unfold grimshaw_simplified_log_likelihood. replace (neq (n := B64) (b64_opp eps0) (nofZ 0)) with false by (vm_compute; reflexivity).
  rewrite (grimshaw_v_eq cm cap p l w _ PR). cbn [bind]. rewrite v_one by assumption. cbv zeta.
  replace (nsub (n := B64) (b64_ofZ 1) (nofZ 1)) with (B754_zero false : num B64) by (vm_compute; reflexivity).
  replace (ndiv (n := B64) (B754_zero false : num B64) (b64_opp eps0)) with (B754_zero true : num B64) by (vm_compute; reflexivity).
  cbn [bind]. rewrite (log_likelihood_eq cm cap p l w _ _ PR). cbn [bind]. unfold log_likelihood_of.
  change (neq (n := B64) (B754_zero false : num B64) (nofZ 0)) with true. cbv iota.
  do 3 f_equal. apply minus_zero_likelihood; [exact len_pos|exact Fe|exact He].
Qed.

Lemma grimshaw_tiny : grimshaw_estimator cm p = Ret (pinf : num B64, B754_zero false : num B64, B754_zero true : num B64).
Proof.
  assert (W : forall x, exists y, grimshaw_w cm p x = Ret y). { intros x. eexists. apply (grimshaw_w_eq cm cap p l w). exact PR. }
  unfold grimshaw_estimator. cbv zeta. rewrite epsilon_is_eps0. change (nopp (n := B64) eps0) with (b64_opp eps0).
  match goal with |- bind (brent _ ?a _ _) _ = _ => rewrite (left_root_at a) end. cbn [bind].
  match goal with |- bind ?r _ = _ => destruct (brent_total (grimshaw_w cm p) W eps0 (ndiv (nmul (nofZ 2) (nsub (peaks_mean p) (p_min p))) (nmul (p_min p) (p_min p))) (BRENT_DEFAULT_EPSILON (N := B64))) as (rr & ER); rewrite ER end.
  cbn [bind]. unfold grimshaw_simplified_log_likelihood at 1. change (neq (n := B64) (nofZ 0) (nofZ 0)) with true. cbv iota. cbn [bind].
  rewrite (log_likelihood_eq cm cap p l w _ _ PR). cbn [bind].
  assert (LE : b64_ltb (log_likelihood_of cm (p_e p) w (nofZ (n := B64) 0) (peaks_mean p)) pinf = true).
  { unfold log_likelihood_of. change (neq (n := B64) (nofZ 0) (nofZ 0)) with true. cbv iota.
    apply exponential_likelihood; [exact len_pos|exact Fe|lra|exact Fm|exact Hm]. }
  set (ll0 := log_likelihood_of cm (p_e p) w (nofZ (n := B64) 0) (peaks_mean p)) in *.
  unfold grimshaw_better at 1. rewrite left_candidate. cbn [bind].
  change (nlt (n := B64) ll0 (pinf : num B64)) with (b64_ltb ll0 pinf). rewrite LE. cbn [bind].
  unfold grimshaw_better. destruct rr as [[|] root]; [|reflexivity].
  destruct (gsll_total cm cap p l root (proj1 PR)) as ([[ll g] s] & EQ). rewrite EQ. cbn [bind].
  replace (nlt (n := B64) (pinf : num B64) ll) with false; [reflexivity|].
  destruct (ll : b64) as [z|z| |z m e H]; try destruct z; reflexivity.
Qed.

Lemma fit_tiny (g0 s0 : b64) : exists t', tail_fit cm (MkTail (N := B64) g0 s0 p) = Ret (t', pinf : num B64) /\ t_peaks t' = p /\
  ((t_gamma t' = (B754_zero false : b64) /\ t_sigma t' = (B754_zero true : b64)) \/
   (log_likelihood cm p (mom_gamma p) (mom_sigma p) = Ret (pinf : num B64))).
Proof.
  unfold tail_fit, tail_fit_loop, ESTIMATORS. cbn [t_peaks]. unfold mom_estimator. cbv zeta.
  change (@nmul B64 c_half (nsub (nofZ 1) (ndiv (nmul (peaks_mean p) (peaks_mean p)) (peaks_var p)))) with (mom_gamma p).
  change (@nmul B64 (nmul c_half (peaks_mean p)) (nadd (nofZ 1) (ndiv (nmul (peaks_mean p) (peaks_mean p)) (peaks_var p)))) with (mom_sigma p).
  rewrite (log_likelihood_eq cm cap p l w _ _ PR). cbn [bind].
  set (ll1 := log_likelihood_of cm (p_e p) w (mom_gamma p) (mom_sigma p)).
  change (XMath.is_nan (@c_nan B64)) with true. cbn [orb t_peaks]. rewrite grimshaw_tiny. cbn [bind].
  rewrite (is_nan_b64 ll1). change (@nlt B64 ll1 (pinf : num B64)) with (b64_ltb ll1 pinf).
  destruct (nan64 ll1 || b64_ltb ll1 pinf)%bool eqn:C.
  - eexists. split; [reflexivity|]. split; [reflexivity|]. left. split; reflexivity.
  - assert (E : ll1 = pinf). { revert C. generalize ll1. intros [z|z| |z m e H]; try destruct z; try discriminate; reflexivity. }
    rewrite E. eexists. split; [reflexivity|]. split; [reflexivity|]. right. reflexivity.
Qed.
End Tiny.
