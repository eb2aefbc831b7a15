(** * LikApi: the log-likelihood of a detector's window and the quality of its fit (C65, C66) *)
From Coq Require Import ZArith List Bool Reals Lra Lia Permutation.
From Flocq Require Import Core.Core IEEE754.BinarySingleNaN.
From Verif Require Import Num NumFacts XMath Ubend UbendFacts Session Peaks PeaksFacts Brent BrentB64 Estimator Tail P2 Spot SpotFacts B64 B64Facts LogAcc Spec
  FitLemmas SpotB64 DetectorLemmas TailSpec FloatErr PowAcc PowAcc4 RefitLemmas TinyApi LikSpec LikAcc.
Import ListNotations.
Open Scope R_scope.

Lemma sum_perm (a b : list R) : Permutation a b -> fold_right Rplus 0 a = fold_right Rplus 0 b.
Proof. induction 1; cbn; lra. Qed.
Lemma likelihood_perm g s (a b : list b64) : Permutation a b -> gpd_log_likelihood g s (map B2R64 a) = gpd_log_likelihood g s (map B2R64 b).
Proof. intros P. unfold gpd_log_likelihood. apply sum_perm. apply Permutation_map. apply Permutation_map. exact P. Qed.

Lemma map_Some_inj (a b : list b64) : map (Some (A := b64)) a = map Some b -> a = b.
Proof. revert b. induction a as [|x a IH]; intros [|y b] H; try discriminate; [reflexivity|]. cbn in H. injection H as -> H. f_equal. apply IH. exact H. Qed.

(** the window of a detector [w], oldest first, and the same values in storage order *)
Lemma window_storage mf q low discard level cap (s : spot B64) (w : list b64) : detector mf q low discard level cap s ->
  oldest_first (window s) = map Some (w : list (num B64)) ->
  exists u : list b64, Permutation u w /\ length u = length w /\ ubend_size (p_cont (t_peaks (s_tail s))) = Z.of_nat (length w) /\ (forall v, In v w -> b64_leb (b64_ofZ 0) v = true) /\
    forall g sg, log_likelihood (c_math musl_utils) (t_peaks (s_tail s)) g sg = Ret (log_likelihood_of (c_math musl_utils) (p_e (t_peaks (s_tail s))) u g sg).
Proof.
  intros D E. destruct (window_content _ _ _ _ _ _ _ D) as (l & u & PW & OF & W0 & _).
  assert (l = w) by (apply map_Some_inj; transitivity (oldest_first (window s)); [symmetry; exact OF|exact E]). subst l. exists u.
  pose proof PW as (_ & _ & PP & SZ). pose proof (Permutation_length PP) as LL. split; [exact PP|]. split; [exact LL|]. split; [transitivity (Z.of_nat (length u)); [exact SZ|f_equal; exact LL]|]. split.
  - intros v Hv. apply W0. eapply Permutation_in; [apply Permutation_sym; exact PP|exact Hv].
  - intros g sg. exact (log_likelihood_eq (N := B64) _ cap _ _ _ g sg PW).
Qed.

Lemma C65_shape mf q low discard level cap (s : spot B64) (w : list b64) (g sg : b64) :
  detector mf q low discard level cap s -> oldest_first (window s) = map Some (w : list (num B64)) ->
  (1 <= Z.of_nat (length w) <= 2 ^ 40)%Z -> (forall v, In v w -> BinarySingleNaN.is_finite v = true /\ B2R v <= 10 ^ 100) ->
  BinarySingleNaN.is_finite g = true -> BinarySingleNaN.is_finite sg = true -> / 10 ^ 100 <= B2R sg <= 10 ^ 100 -> / 10 ^ 17 <= Rabs (B2R g) <= 10 ^ 6 ->
  (forall v, In v w -> / 10 ^ 5 <= 1 + B2R g * B2R v / B2R sg) ->
  exists L : b64, log_likelihood (c_math musl_utils) (t_peaks (s_tail s)) (g : num B64) (sg : num B64) = Ret (L : num B64) /\ BinarySingleNaN.is_finite L = true /\
    Rabs (B2R L - gpd_log_likelihood (B2R g) (B2R sg) (map B2R w)) <= likelihood_error (IZR (Z.of_nat (length w))) (B2R g).
Proof.
  intros D E HN FW Fg Fs Hs Hg HA. destruct (window_storage _ _ _ _ _ _ _ _ D E) as (u & PP & LL & SZ & W0 & EQ).
  exists (log_likelihood_of (c_math musl_utils : MathFns B64) (p_e (t_peaks (s_tail s))) u g sg). split; [apply EQ|].
  assert (IN : forall v, In v u -> In v w) by (intros v Hv; eapply Permutation_in; [exact PP|exact Hv]).
  destruct (shape_accuracy g sg u Fg Fs Hs ltac:(rewrite LL; exact HN)) with (e := (p_e (t_peaks (s_tail s)) : b64)) as (F & A).
  - intros v Hv. destruct (FW v (IN v Hv)) as (Fv & Bv). specialize (W0 v (IN v Hv)). apply leb_true_iff in W0 as (_ & _ & Y). rewrite xval_zero, (xval_finite _ Fv) in Y. auto.
  - exact Hg.
  - intros v Hv. apply HA. apply IN. exact Hv.
  - split; [exact F|]. rewrite (likelihood_perm _ _ _ _ PP), LL in A. exact A.
Qed.

Lemma C65_exponential mf q low discard level cap (s : spot B64) (w : list b64) (g sg : b64) :
  detector mf q low discard level cap s -> oldest_first (window s) = map Some (w : list (num B64)) ->
  (1 <= Z.of_nat (length w) <= 2 ^ 40)%Z -> (forall v, In v w -> BinarySingleNaN.is_finite v = true /\ B2R v <= 10 ^ 100) ->
  BinarySingleNaN.is_finite g = true -> B2R g = 0 -> BinarySingleNaN.is_finite sg = true -> / 10 ^ 100 <= B2R sg <= 10 ^ 100 ->
  let p := t_peaks (s_tail s) in BinarySingleNaN.is_finite (p_e p : b64) = true -> 0 <= B2R (p_e p : b64) <= 10 ^ 150 ->
  exists L : b64, log_likelihood (c_math musl_utils) p (g : num B64) (sg : num B64) = Ret (L : num B64) /\ BinarySingleNaN.is_finite L = true /\
    Rabs (B2R L - gpd_log_likelihood 0 (B2R sg) (map B2R w)) <=
      IZR (Z.of_nat (length w)) / 10 ^ 9 + (4 / 10 ^ 16 * B2R (p_e p : b64) + Rabs (B2R (p_e p : b64) - fold_right Rplus 0 (map B2R w))) / B2R sg.
Proof.
  intros D E HN FW Fg Hg Fs Hs p Fe He. destruct (window_storage _ _ _ _ _ _ _ _ D E) as (u & PP & LL & SZ & W0 & EQ). fold p in EQ, SZ.
  exists (log_likelihood_of (c_math musl_utils : MathFns B64) (p_e p) u g sg). split; [apply EQ|].
  destruct (exponential_accuracy g sg u Fg Fs Hs ltac:(rewrite LL; exact HN) (p_e p) Hg Fe He) as (F & A).
  split; [exact F|]. rewrite (likelihood_perm _ _ _ _ PP), LL, (sum_perm (map B2R64 u) (map B2R64 w) (Permutation_map _ PP)) in A. exact A.
Qed.

Lemma C66_lemma q low discard level cap (s s' : spot B64) (w : list b64) :
  detector (c_math musl_utils) q low discard level cap s ->
  (exists x, spot_step (c_math musl_utils) s x = Ret (s', EXCESS)) \/ (exists data r, spot_fit (c_math musl_utils) s data = Ret (s', r) /\ r <> (-1003)%Z) ->
  oldest_first (window s') = map Some (w : list (num B64)) ->
  (1 <= Z.of_nat (length w) <= 2 ^ 40)%Z -> (forall v, In v w -> BinarySingleNaN.is_finite v = true /\ B2R v <= 10 ^ 100) ->
  let t := s_tail s' in let p := t_peaks t in
  let E := B2R (peaks_mean p : b64) in let g := B2R (t_gamma t : b64) in let sg := B2R (t_sigma t : b64) in let n := IZR (Z.of_nat (length w)) in
  BinarySingleNaN.is_finite (peaks_mean p : b64) = true -> / 10 ^ 100 <= E <= 10 ^ 100 ->
  BinarySingleNaN.is_finite (t_gamma t : b64) = true -> BinarySingleNaN.is_finite (t_sigma t : b64) = true -> / 10 ^ 100 <= sg <= 10 ^ 100 -> / 10 ^ 17 <= Rabs g <= 10 ^ 6 ->
  (forall v, In v w -> / 10 ^ 5 <= 1 + g * B2R v / sg) ->
  gpd_log_likelihood 0 E (map B2R w) - likelihood_error n g - 2 * n / 10 ^ 9 - Rabs (B2R (p_e p : b64) - fold_right Rplus 0 (map B2R w)) / E
    <= gpd_log_likelihood g sg (map B2R w).
Proof.
  intros D R EW HN FW t p E g sg n FE HE Fg Fs Hs Hg HA. pose proof (refit_detector _ _ _ _ _ _ _ _ D R) as D'.
  destruct (refit_tail _ _ _ R) as (g0 & s0 & ll & TF & _). fold t in TF. fold p in TF.
  destruct (C20_lemma _ _ _ _ TF) as (_ & LL & lm & le & _ & EX & _ & GE & _). cbn [t_peaks] in *.
  destruct (C65_shape _ _ _ _ _ _ _ w _ _ D' EW HN FW Fg Fs Hs Hg HA) as (L1 & E1 & F1 & A1). fold t in E1. fold p in E1. rewrite LL in E1. injection E1 as ->.
  destruct (window_storage _ _ _ _ _ _ _ _ D' EW) as (u & PP & LU & SZ & _). fold t in SZ. fold p in SZ.
  assert (P100 : 0 < / 10 ^ 100) by (apply Rinv_0_lt_compat, pow_lt; lra).
  assert (NP : 1 <= n <= 1099511627776) by (unfold n; split; apply IZR_le; lia).
  assert (FE' := FE). assert (HE' : 0 < B2R64 (peaks_mean p)) by (change (0 < E); lra). unfold peaks_mean, peaks_size in FE', HE'. rewrite SZ in FE', HE'.
  destruct (mean_finite_inv (p_e p) (Z.of_nat (length w)) ltac:(lia) FE' HE') as (_ & Fe & He).
  destruct (ofZ_exact (Z.of_nat (length w)) ltac:(lia)) as (Fn & En). fold n in En.
  (* the sum is close to n E *)
  destruct (div_xval (p_e p) _ Fe Fn ltac:(change (B2R64 (b64_ofZ (Z.of_nat (length w))) <> 0); rewrite En; lra)) as (Nd & Vd). rewrite En in Vd. rewrite (xval_finite (b64_div (p_e p) (b64_ofZ (Z.of_nat (length w)))) FE') in Vd.
  assert (EE : B2R64 (b64_div (p_e p) (b64_ofZ (Z.of_nat (length w)))) = E) by (unfold E, peaks_mean, peaks_size; rewrite SZ; reflexivity). rewrite EE in Vd.
  set (e := B2R64 (p_e p)) in *. assert (Q0 : 0 < e / n) by (unfold Rdiv; apply Rmult_lt_0_compat; [exact He|apply Rinv_0_lt_compat; lra]).
  assert (QU : e / n <= 3 * 10 ^ 100 /\ e / n <= 2 * E).
  { pose proof TOP_300 as TT. assert (T3 : 10 * 10 ^ 100 <= 10 ^ 300) by (rewrite !pow_IZR, <- mult_IZR; apply IZR_le; vm_compute; discriminate).
    assert (C : rnd (e / n) = E).
    { unfold rndc in Vd. destruct (Rle_lt_dec (rnd (e / n)) TOP) as [C|C].
      - rewrite clamp_id in Vd; [symmetry; exact Vd|]. rewrite Rabs_pos_eq; [exact C|apply rnd_nonneg; lra].
      - exfalso. assert (X : clamp (rnd (e / n)) = TOP). { unfold clamp. rewrite Rmin_left by lra. apply Rmax_right. pose proof TOP_pos. lra. } rewrite X in Vd. lra. }
    destruct (Rle_lt_dec (bpow radix2 (-1022)) (e / n)) as [C2|C2].
    - assert (RR := rnd_rel (e / n)). rewrite (Rabs_pos_eq (e / n)) in RR by lra. specialize (RR C2). rewrite C in RR. apply Rabs_le_inv in RR. unfold eps in RR. lra.
    - assert (bpow radix2 (-1022) <= E); [|lra]. apply Rle_trans with (/ 10 ^ 100); [|lra]. change (bpow radix2 (-1022)) with (/ IZR (2 ^ 1022)). apply Rinv_le; [apply pow_lt; lra|].
      rewrite pow_IZR. apply IZR_le. vm_compute. discriminate. }
  assert (EU : e <= 2 * E * n) by (apply Rmult_le_reg_r with (/ n); [apply Rinv_0_lt_compat; lra|]; replace (2 * E * n * / n) with (2 * E) by (field; lra); exact (proj2 QU)).
  assert (EB : 0 <= e <= 10 ^ 150).
  { split; [lra|]. apply Rle_trans with (2 * 10 ^ 100 * 1099511627776); [apply Rle_trans with (1 := EU); apply Rmult_le_compat; lra|]. apply Rle_trans with (10 ^ 20 * 10 ^ 100); [|rewrite <- pow_add; apply Rle_pow; [lra|lia]].
    replace (2 * 10 ^ 100 * 1099511627776) with (2 * 1099511627776 * 10 ^ 100) by ring. apply Rmult_le_compat_r; [apply pow_le|]; lra. }
  destruct (ofZ_exact 0 ltac:(lia)) as (F0 & E0).
  destruct (C65_exponential _ _ _ _ _ _ _ w (b64_ofZ 0) (peaks_mean p) D' EW HN FW F0 E0 FE HE) as (L2 & E2 & F2 & A2); [exact Fe|exact EB|].
  fold t in E2, A2. fold p in E2, A2. change (Spec.d 0) with (b64_ofZ 0) in EX. rewrite EX in E2. injection E2 as ->. fold E in A2. fold n in A1, A2. change (B2R (p_e p : b64)) with e in A2. change (B2R (p_e p : b64)) with e.
  assert (G : B2R64 L2 <= B2R64 L1).
  { assert (NN : is_NaN L2 = false) by (rewrite is_NaN_eq; apply finite_not_nan; exact F2). specialize (GE NN). apply leb_true_iff in GE as (_ & _ & GE). rewrite (xval_finite _ F1), (xval_finite _ F2) in GE. exact GE. }
  change (is_finite L1) with (finite64 L1) in F1. apply Rabs_le_inv in A1. apply Rabs_le_inv in A2. fold g sg in A1. set (S := fold_right Rplus 0 (map B2R w)) in *.
  assert (X : (4 / 10 ^ 16 * e + Rabs (e - S)) / E <= 8 / 10 ^ 16 * n + Rabs (e - S) / E).
  { assert (IE : 0 < / E) by (apply Rinv_0_lt_compat; lra). unfold Rdiv at 1. rewrite Rmult_plus_distr_r. apply Rplus_le_compat_r.
    apply Rle_trans with (4 / 10 ^ 16 * (2 * E * n) * / E); [apply Rmult_le_compat_r; lra|]. right. field. lra. }
  lra.
Qed.
