(** * P2B64: the P2 quantile estimator in binary64 (lemmas for C22, C42, C50) *)
From Coq Require Import ZArith List Bool Lia Reals Lra Permutation.
From Flocq Require Import Core.Core IEEE754.BinarySingleNaN.
From Verif Require Import Num NumFacts XMath P2 P2Facts B64 B64Facts Spec SpotB64 WindowLemmas SortLemmas.
Import ListNotations.
Open Scope Z_scope.

(** ** Arithmetic on positions: doubles that are small integers *)
Lemma ofZ_fin z : Z.abs z <= 2 ^ 53 -> finite64 (b64_ofZ z) = true.
Proof. intros H. apply ofZ_exact; assumption. Qed.
Lemma ofZ_B2R z : Z.abs z <= 2 ^ 53 -> B2R64 (b64_ofZ z) = IZR z.
Proof. intros H. apply ofZ_exact; assumption. Qed.
Lemma xval_ofZ z : Z.abs z <= 2 ^ 53 -> xval (b64_ofZ z) = IZR z.
Proof. intros H. rewrite xval_finite by (apply ofZ_fin; assumption). apply ofZ_B2R; assumption. Qed.

Lemma IZR_53_TOP z : Z.abs z <= 2 ^ 53 -> (Rabs (IZR z) < TOP)%R.
Proof.
  intros H. rewrite <- abs_IZR. apply Rle_lt_trans with (IZR (2 ^ 53)). { apply IZR_le; assumption. }
  unfold TOP. change (IZR (2 ^ 53)) with (IZR (Zpower radix2 53)). rewrite IZR_Zpower by lia. apply bpow_lt. lia.
Qed.

Lemma rnd_IZR z : Z.abs z <= 2 ^ 53 -> rnd (IZR z) = IZR z.
Proof. intros H. apply round_generic; auto with typeclass_instances. apply format_IZR; assumption. Qed.
Lemma rndc_IZR z : Z.abs z <= 2 ^ 53 -> rndc (IZR z) = IZR z.
Proof. intros H. unfold rndc. rewrite rnd_IZR by assumption. apply clamp_id. left. apply IZR_53_TOP; assumption. Qed.

(** a non-NaN double whose extended value is a small non-zero integer is that integer *)
Lemma b64_is_ofZ x z : nan64 x = false -> Z.abs z <= 2 ^ 53 -> z <> 0 -> xval x = IZR z -> x = b64_ofZ z.
Proof.
  intros Hn Hz Hz0 E.
  assert (F : finite64 x = true) by (apply finite_of_xval; [assumption|rewrite E; apply IZR_53_TOP; assumption]).
  pose proof (ofZ_fin z Hz) as Fz. pose proof (ofZ_B2R z Hz) as Rz.
  rewrite xval_finite in E by assumption. apply B2R_inj.
  - apply is_finite_strict_B2R. rewrite E. apply IZR_neq; assumption.
  - apply is_finite_strict_B2R. rewrite Rz. apply IZR_neq; assumption.
  - congruence.
Qed.

Lemma plus_ofZ a b : Z.abs a <= 2 ^ 53 -> Z.abs b <= 2 ^ 53 -> Z.abs (a + b) <= 2 ^ 53 -> a + b <> 0 ->
  b64_plus (b64_ofZ a) (b64_ofZ b) = b64_ofZ (a + b).
Proof.
  intros Ha Hb Hab Hnz. destruct (plus_xval (b64_ofZ a) (b64_ofZ b)) as (Hn & Hx); try (apply ofZ_fin; assumption).
  apply b64_is_ofZ; try assumption. rewrite Hx, !ofZ_B2R by assumption. rewrite <- plus_IZR. apply rndc_IZR; assumption.
Qed.
Lemma minus_ofZ a b : Z.abs a <= 2 ^ 53 -> Z.abs b <= 2 ^ 53 -> Z.abs (a - b) <= 2 ^ 53 -> a - b <> 0 ->
  b64_minus (b64_ofZ a) (b64_ofZ b) = b64_ofZ (a - b).
Proof.
  intros Ha Hb Hab Hnz. destruct (minus_xval (b64_ofZ a) (b64_ofZ b)) as (Hn & Hx); try (apply ofZ_fin; assumption).
  apply b64_is_ofZ; try assumption. rewrite Hx, !ofZ_B2R by assumption. rewrite <- minus_IZR. apply rndc_IZR; assumption.
Qed.
Lemma ltb_ofZ a b : Z.abs a <= 2 ^ 53 -> Z.abs b <= 2 ^ 53 -> b64_ltb (b64_ofZ a) (b64_ofZ b) = (a <? b).
Proof.
  intros Ha Hb. rewrite ltb_xval by (apply finite_not_nan, ofZ_fin; assumption). rewrite !xval_ofZ by assumption.
  destruct (Z.ltb_spec a b) as [H|H]; [apply Rlt_bool_true, IZR_lt|apply Rlt_bool_false, IZR_le]; assumption.
Qed.

(** ** Linear interpolation stays between the two markers *)

(** the difference of two doubles is a multiple of 2^-1074 *)
Lemma diff_min x y : (B2R64 x < B2R64 y)%R -> (bpow radix2 (-1074) <= B2R64 y - B2R64 x)%R.
Proof.
  intros H.
  assert (G : forall v : b64, exists k, B2R64 v = F2R (Float radix2 k (-1074))).
  { intros v. pose proof (generic_format_B2R 53 1024 v) as G.
    assert (GF : generic_format radix2 (FIX_exp (-1074)) (B2R64 v)).
    { apply generic_inclusion_mag with (2 := G). intros _. unfold FIX_exp. rewrite fexp64_eq. lia. }
    exists (Ztrunc (scaled_mantissa radix2 (FIX_exp (-1074)) (B2R64 v))).
    rewrite GF at 1. reflexivity. }
  destruct (G x) as (a & Ha), (G y) as (b & Hb). rewrite Ha, Hb in *. unfold F2R in *; cbn [Fnum Fexp] in *.
  rewrite <- Rmult_minus_distr_r, <- minus_IZR.
  apply Rmult_lt_reg_r in H; [|apply bpow_gt_0]. apply lt_IZR in H.
  rewrite <- (Rmult_1_l (bpow radix2 (-1074))) at 1. apply Rmult_le_compat_r; [apply bpow_ge_0|]. apply IZR_le. lia.
Qed.

Lemma rnd_bpow e : (-1074 <= e)%Z -> rnd (bpow radix2 e) = bpow radix2 e.
Proof.
  intros H. apply round_generic; auto with typeclass_instances. apply generic_format_bpow. rewrite fexp64_eq. lia.
Qed.

(** half of a rounded difference, divided again by something at least 1, is below the difference *)
Lemma half_diff x y k : (B2R64 x <= B2R64 y)%R -> (2 <= k)%R ->
  (0 <= rnd (rnd (B2R64 y - B2R64 x) / k) <= B2R64 y - B2R64 x)%R.
Proof.
  intros H Hk. destruct (Rle_lt_or_eq_dec _ _ H) as [L|E].
  2:{ rewrite E. rewrite Rminus_diag_eq by reflexivity. rewrite rnd_0. unfold Rdiv. rewrite Rmult_0_l, rnd_0. lra. }
  set (D := (B2R64 y - B2R64 x)%R). assert (HD : (0 < D)%R) by (unfold D; lra).
  assert (R0 : (0 <= rnd D)%R) by (apply rnd_nonneg; lra).
  split.
  { apply rnd_nonneg. apply Rmult_le_pos; [assumption|]. apply Rlt_le, Rinv_0_lt_compat; lra. }
  pose proof (diff_min x y L) as Hmin. fold D in Hmin.
  destruct (mag radix2 D) as (e, He). specialize (He (Rgt_not_eq _ _ HD)). rewrite Rabs_pos_eq in He by lra.
  assert (Hee : (-1074 < e)%Z).
  { apply (lt_bpow radix2). lra. }
  apply Rle_trans with (bpow radix2 (e - 1)); [|lra].
  rewrite <- (rnd_bpow (e - 1)) by lia. apply round_le; auto with typeclass_instances.
  assert (Hu : (rnd D <= bpow radix2 e)%R).
  { rewrite <- (rnd_bpow e) by lia. apply round_le; auto with typeclass_instances. lra. }
  replace (bpow radix2 (e - 1)) with (bpow radix2 e / 2)%R.
  2:{ replace e with (e - 1 + 1)%Z at 1 by lia. rewrite bpow_plus. change (bpow radix2 1) with 2%R. field. }
  apply Rle_trans with (rnd D / 2)%R.
  - unfold Rdiv. apply Rmult_le_compat_l; [assumption|]. apply Rinv_le_contravar; lra.
  - unfold Rdiv. apply Rmult_le_compat_r; lra.
Qed.

Lemma finite_sub_le a b x y : finite64 a = true -> finite64 b = true -> finite64 x = true -> finite64 y = true ->
  (B2R64 a <= B2R64 x)%R -> (B2R64 x <= B2R64 y)%R -> (B2R64 y <= B2R64 b)%R ->
  finite64 (b64_minus b a) = true -> finite64 (b64_minus y x) = true.
Proof.
  intros Fa Fb Fx Fy H1 H2 H3 FD.
  destruct (minus_xval b a Fb Fa) as (N1 & E1). destruct (minus_xval y x Fy Fx) as (N2 & E2).
  apply finite_of_xval; [assumption|].
  assert (B : (xval (b64_minus b a) < TOP)%R). { apply xval_finite_iff; assumption. }
  assert (L : (0 <= xval (b64_minus y x))%R). { rewrite E2, <- rndc_0. apply rndc_mono. lra. }
  rewrite Rabs_pos_eq by assumption. apply Rle_lt_trans with (2 := B). rewrite E1, E2. apply rndc_mono. lra.
Qed.

Lemma finite_between a b v : nan64 v = false -> (B2R64 a <= xval v)%R -> (xval v <= B2R64 b)%R ->
  finite64 v = true /\ (B2R64 a <= B2R64 v <= B2R64 b)%R.
Proof.
  intros Hn H1 H2. assert (F : finite64 v = true).
  { apply xval_finite_iff; [assumption|]. pose proof (B2R_bounds a). pose proof (B2R_bounds b). lra. }
  rewrite xval_finite in * by assumption. auto.
Qed.

(** y is q[i+1] or q[i-1] *)
Lemma linear_between_up x y k : finite64 x = true -> finite64 y = true -> (B2R64 x <= B2R64 y)%R ->
  finite64 (b64_minus y x) = true -> 2 <= k <= 2 ^ 53 ->
  let v := b64_plus x (b64_div (b64_mult (b64_ofZ 1) (b64_minus y x)) (b64_ofZ k)) in
  finite64 v = true /\ (B2R64 x <= B2R64 v <= B2R64 y)%R.
Proof.
  intros Fx Fy H FD Hk v.
  assert (Ak : Z.abs k <= 2 ^ 53) by (rewrite Z.abs_eq; lia).
  assert (Rk : B2R64 (b64_ofZ k) = IZR k) by (apply ofZ_B2R; assumption).
  assert (K2 : (2 <= IZR k)%R) by (apply (IZR_le 2); lia).
  unfold v. rewrite mult_1_l.
  destruct (minus_xval y x Fy Fx) as (N1 & E1). rewrite xval_finite in E1 by assumption.
  assert (ED : B2R64 (b64_minus y x) = rnd (B2R64 y - B2R64 x)).
  { rewrite E1. unfold rndc. apply clamp_id. apply Rabs_le.
    pose proof (B2R_bounds (b64_minus y x)) as BB. rewrite E1 in BB. unfold rndc in BB.
    assert (0 <= rnd (B2R64 y - B2R64 x))%R by (apply rnd_nonneg; lra). pose proof TOP_pos.
    destruct (Rle_dec TOP (rnd (B2R64 y - B2R64 x))) as [G|G]; [rewrite clamp_hi in BB by assumption; lra|lra]. }
  destruct (div_xval (b64_minus y x) (b64_ofZ k) FD (ofZ_fin k Ak)) as (N2 & E2). { rewrite Rk. lra. }
  rewrite Rk, ED in E2. pose proof (half_diff x y (IZR k) H K2) as (L0 & L1).
  set (w := b64_div (b64_minus y x) (b64_ofZ k)) in *.
  assert (Q : (0 <= xval w <= B2R64 y - B2R64 x)%R).
  { rewrite E2. unfold rndc. split.
    - pose proof TOP_pos. unfold clamp. eapply Rle_trans; [|apply Rmax_r]. apply Rmin_glb; lra.
    - pose proof TOP_pos. unfold clamp. apply Rmax_lub; [lra|]. eapply Rle_trans; [apply Rmin_r|assumption]. }
  assert (Fw : finite64 w = true).
  { apply xval_finite_iff; [assumption|]. pose proof TOP_pos as TP. split; [lra|].
    apply Rle_lt_trans with (B2R64 (b64_minus y x)); [|apply B2R_bounds].
    rewrite E2, <- (rndc_format (b64_minus y x)). apply rndc_mono. rewrite ED.
    assert (0 <= rnd (B2R64 y - B2R64 x))%R by (apply rnd_nonneg; lra).
    rewrite <- (Rmult_1_r (rnd (B2R64 y - B2R64 x))) at 2. unfold Rdiv. apply Rmult_le_compat_l; [assumption|].
    rewrite <- Rinv_1. apply Rinv_le_contravar; lra. }
  destruct (plus_xval x w Fx Fw) as (N3 & E3). rewrite xval_finite in Q by assumption.
  apply finite_between; [assumption| |]; rewrite E3.
  - rewrite <- (rndc_format x) at 1. apply rndc_mono. lra.
  - rewrite <- (rndc_format y). apply rndc_mono. lra.
Qed.

Lemma Bopp_plus_opp x y : finite64 x = true -> finite64 y = true -> xval (b64_plus (b64_opp x) (b64_opp y)) = (- xval (b64_plus x y))%R /\
  nan64 (b64_plus (b64_opp x) (b64_opp y)) = nan64 (b64_plus x y).
Proof.
  intros Fx Fy. destruct (plus_xval x y Fx Fy) as (N1 & E1).
  destruct (plus_xval (b64_opp x) (b64_opp y)) as (N2 & E2); try (rewrite finite_opp; assumption).
  split; [|congruence]. rewrite E1, E2. unfold b64_opp. rewrite !B2R_Bopp.
  replace (- B2R64 x + - B2R64 y)%R with (- (B2R64 x + B2R64 y))%R by lra. apply rndc_opp.
Qed.

Lemma linear_between_down x y k : finite64 x = true -> finite64 y = true -> (B2R64 y <= B2R64 x)%R ->
  finite64 (b64_minus x y) = true -> 2 <= k <= 2 ^ 53 ->
  let v := b64_plus x (b64_div (b64_mult (b64_ofZ (-1)) (b64_minus y x)) (b64_ofZ (- k))) in
  finite64 v = true /\ (B2R64 y <= B2R64 v <= B2R64 x)%R.
Proof.
  intros Fx Fy H FD Hk v.
  assert (Ak : Z.abs k <= 2 ^ 53) by (rewrite Z.abs_eq; lia).
  assert (Ak' : Z.abs (- k) <= 2 ^ 53) by lia.
  assert (Rk : B2R64 (b64_ofZ (- k)) = (- IZR k)%R) by (rewrite ofZ_B2R by assumption; apply opp_IZR).
  assert (K2 : (2 <= IZR k)%R) by (apply (IZR_le 2); lia).
  unfold v. rewrite mult_m1_l.
  assert (FD' : finite64 (b64_minus y x) = true).
  { destruct (minus_xval y x Fy Fx) as (N1 & E1). destruct (minus_xval x y Fx Fy) as (N2 & E2).
    apply xval_finite_iff; [assumption|].
    assert (B : (- TOP < xval (b64_minus x y) < TOP)%R) by (apply xval_finite_iff; assumption).
    rewrite E1. rewrite E2 in B. replace (B2R64 y - B2R64 x)%R with (- (B2R64 x - B2R64 y))%R by lra. rewrite rndc_opp. lra. }
  destruct (minus_xval x y Fx Fy) as (N1 & E1). rewrite xval_finite in E1 by assumption.
  destruct (minus_xval y x Fy Fx) as (N1' & E1'). rewrite xval_finite in E1' by assumption.
  assert (ED : B2R64 (b64_minus x y) = rnd (B2R64 x - B2R64 y)).
  { rewrite E1. unfold rndc. apply clamp_id. apply Rabs_le.
    pose proof (B2R_bounds (b64_minus x y)) as BB. rewrite E1 in BB. unfold rndc in BB.
    assert (0 <= rnd (B2R64 x - B2R64 y))%R by (apply rnd_nonneg; lra). pose proof TOP_pos.
    destruct (Rle_dec TOP (rnd (B2R64 x - B2R64 y))) as [G|G]; [rewrite clamp_hi in BB by assumption; lra|lra]. }
  assert (ED' : B2R64 (b64_opp (b64_minus y x)) = rnd (B2R64 x - B2R64 y)).
  { unfold b64_opp. rewrite B2R_Bopp, E1'. replace (B2R64 y - B2R64 x)%R with (- (B2R64 x - B2R64 y))%R by lra.
    rewrite rndc_opp, Ropp_involutive. rewrite <- E1. exact ED. }
  destruct (div_xval (b64_opp (b64_minus y x)) (b64_ofZ (- k))) as (N2 & E2).
  { rewrite finite_opp. assumption. } { apply ofZ_fin; assumption. } { rewrite Rk. lra. }
  rewrite Rk, ED' in E2. pose proof (half_diff y x (IZR k) H K2) as (L0 & L1).
  set (w := b64_div (b64_opp (b64_minus y x)) (b64_ofZ (- k))) in *.
  assert (E3 : xval w = (- rndc (rnd (B2R64 x - B2R64 y) / IZR k))%R).
  { rewrite E2. rewrite <- rndc_opp. f_equal. field. lra. }
  assert (Q : (- (B2R64 x - B2R64 y) <= xval w <= 0)%R).
  { rewrite E3. unfold rndc. pose proof TOP_pos. split.
    - apply Ropp_le_contravar. unfold clamp. apply Rmax_lub; [lra|]. eapply Rle_trans; [apply Rmin_r|assumption].
    - enough (0 <= clamp (rnd (rnd (B2R64 x - B2R64 y) / IZR k)))%R by lra.
      unfold clamp. eapply Rle_trans; [|apply Rmax_r]. apply Rmin_glb; lra. }
  assert (Fw : finite64 w = true).
  { apply xval_finite_iff; [assumption|]. pose proof TOP_pos as TP. split; [|lra].
    rewrite E3. apply Ropp_lt_contravar.
    apply Rle_lt_trans with (B2R64 (b64_minus x y)); [|apply B2R_bounds].
    rewrite <- (rndc_format (b64_minus x y)). apply rndc_mono. rewrite ED.
    assert (0 <= rnd (B2R64 x - B2R64 y))%R by (apply rnd_nonneg; lra).
    rewrite <- (Rmult_1_r (rnd (B2R64 x - B2R64 y))) at 2. unfold Rdiv. apply Rmult_le_compat_l; [assumption|].
    rewrite <- Rinv_1. apply Rinv_le_contravar; lra. }
  destruct (plus_xval x w Fx Fw) as (N3 & E4). rewrite xval_finite in Q by assumption.
  apply finite_between; [assumption| |]; rewrite E4.
  - rewrite <- (rndc_format y). apply rndc_mono. lra.
  - rewrite <- (rndc_format x) at 2. apply rndc_mono. lra.
Qed.

(** ** One marker *)
Section Adjust.
Variables (q n : list b64) (i : Z) (ql qi qr : b64) (zl zi zr : Z).
Hypothesis (Hi : 1 <= i <= 3) (Lq : length q = 5%nat) (Ln : length n = 5%nat).
Hypothesis (Eql : rd q (i - 1) = Ret ql) (Eqi : rd q i = Ret qi) (Eqr : rd q (i + 1) = Ret qr).
Hypothesis (Enl : rd n (i - 1) = Ret (b64_ofZ zl)) (Eni : rd n i = Ret (b64_ofZ zi)) (Enr : rd n (i + 1) = Ret (b64_ofZ zr)).
Hypothesis (Fl : finite64 ql = true) (Fi : finite64 qi = true) (Fr : finite64 qr = true).
Hypothesis (Hli : (B2R64 ql <= B2R64 qi)%R) (Hir : (B2R64 qi <= B2R64 qr)%R).
Hypothesis (FD : finite64 (b64_minus qr ql) = true).
Hypothesis (Hz : 0 <= zl /\ zl < zi /\ zi < zr /\ zr <= 2 ^ 53).

Lemma rd_succ {A} (l : list A) x : rd l (i + 1) = Ret x -> rd l (u32 (i + 1)) = Ret x.
Proof using Hi. clear - Hi. intros H. rewrite u32_small by lia. exact H. Qed.
Lemma rd_pred {A} (l : list A) x : rd l (i - 1) = Ret x -> rd l (u32 (i - 1)) = Ret x.
Proof using Hi. clear - Hi. intros H. rewrite u32_small by lia. exact H. Qed.

Lemma adjust_b64 (np dn : list b64) : length np = 5%nat ->
  exists q' z', adjust (N := B64) i (MkP2 (N := B64) q n np dn) =
      Ret (MkP2 (N := B64) (upd q (Z.to_nat i) q') (upd n (Z.to_nat i) (b64_ofZ z')) np dn) /\
    finite64 q' = true /\ (B2R64 ql <= B2R64 q' <= B2R64 qr)%R /\ zl < z' < zr.
Proof using All.
  intros Lp. unfold adjust. cbn [m_q m_n m_np m_dn]. change (num B64) with b64 in *.
  destruct (rd5 np i Lp) as (npi & Enp); [lia|]. rewrite Enp, Eni. cbn [bind].
  rewrite (rd_succ n _ Enr), (rd_pred n _ Enl). cbn [bind].
  assert (U : upd q (Z.to_nat i) qi = q /\ upd n (Z.to_nat i) (b64_ofZ zi) = n).
  { apply rd_spec in Eqi as (_ & E1). apply rd_spec in Eni as (_ & E2).
    assert (K : forall (l : list b64) k x, nth_error l k = Some x -> upd l k x = l).
    { clear. induction l as [|a l IH]; intros [|k] x H; cbn in *; try discriminate; [congruence|]. rewrite IH; auto. }
    split; apply K; assumption. }
  set (dd := nsub (n := B64) npi (b64_ofZ zi)). change (num B64) with b64 in *.
  assert (A1 : nlt (n := B64) (nofZ 1) (nsub (n := B64) (b64_ofZ zr) (b64_ofZ zi)) = (1 <? zr - zi)).
  { change (nsub (n := B64) (b64_ofZ zr) (b64_ofZ zi)) with (b64_minus (b64_ofZ zr) (b64_ofZ zi)).
    rewrite minus_ofZ by lia. apply ltb_ofZ; lia. }
  assert (A2 : nlt (n := B64) (nsub (n := B64) (b64_ofZ zl) (b64_ofZ zi)) (nofZ (-1)) = (zl - zi <? -1)).
  { change (nsub (n := B64) (b64_ofZ zl) (b64_ofZ zi)) with (b64_minus (b64_ofZ zl) (b64_ofZ zi)).
    rewrite minus_ofZ by lia. apply ltb_ofZ; lia. }
  rewrite A1, A2. clear A1 A2.
  destruct (_ || _)%bool eqn:C.
  2:{ exists qi, zi. destruct U as (-> & ->). repeat split; try assumption; try lia. }
  (* the direction *)
  assert (DIR : exists s, (s = 1 \/ s = -1) /\ sign (N := B64) dd = b64_ofZ s /\
     int_of_num (N := B64) (b64_ofZ s) = Ret s /\ (s = 1 -> 2 <= zr - zi) /\ (s = -1 -> 2 <= zi - zl)).
  { apply orb_prop in C as [C|C]; apply andb_prop in C as (C1 & C2); apply Z.ltb_lt in C2.
    - exists 1. split; [auto|]. change (b64_leb (b64_ofZ 1) dd = true) in C1.
      apply leb_true_iff in C1 as (_ & Nd & C1).
      assert (P : b64_ltb (b64_ofZ 0) dd = true).
      { apply ltb_true_iff. repeat split; [assumption|]. rewrite xval_ofZ in * by lia. lra. }
      unfold sign. change (nlt (n := B64) (nofZ 0) dd) with (b64_ltb (b64_ofZ 0) dd). rewrite P.
      repeat split; lia.
    - exists (-1). split; [auto|]. change (b64_leb dd (b64_ofZ (-1)) = true) in C1.
      apply leb_true_iff in C1 as (Nd & _ & C1).
      rewrite xval_ofZ in C1 by lia.
      assert (P : b64_ltb (b64_ofZ 0) dd = false).
      { rewrite ltb_xval by (try assumption; reflexivity). apply Rlt_bool_false. rewrite xval_ofZ by lia. lra. }
      assert (P2 : b64_ltb dd (b64_ofZ 0) = true).
      { apply ltb_true_iff. repeat split; [assumption|]. rewrite xval_ofZ by lia. lra. }
      unfold sign. change (nlt (n := B64) (nofZ 0) dd) with (b64_ltb (b64_ofZ 0) dd). rewrite P.
      change (nlt (n := B64) dd (nofZ 0)) with (b64_ltb dd (b64_ofZ 0)). rewrite P2.
      repeat split; lia. }
  destruct DIR as (s & Hs & -> & -> & Hup & Hdown). cbn [bind].
  unfold parabolic. cbn [m_q m_n]. change (num B64) with b64 in *.
  rewrite Eqi, Eni. cbn [bind].
  rewrite (rd_succ q _ Eqr), (rd_pred q _ Eql). cbn [bind]. rewrite (rd_succ n _ Enr), (rd_pred n _ Enl). cbn [bind].
  match goal with |- context [negb ((nlt (n := B64) ql ?v) && _)] => set (qp := v) end.
  assert (Hz' : zl < zi + s < zr) by lia.
  assert (En' : nadd (n := B64) (b64_ofZ zi) (b64_ofZ s) = b64_ofZ (zi + s)) by (apply plus_ofZ; lia).
  assert (W1 : forall v, wr q i v = Ret (upd q (Z.to_nat i) v)) by (intros; apply wr_ok; lia).
  assert (W2 : forall v, wr n i v = Ret (upd n (Z.to_nat i) v)) by (intros; apply wr_ok; lia).
  change (nlt (n := B64) ql qp) with (b64_ltb ql qp). change (nlt (n := B64) qp qr) with (b64_ltb qp qr).
  destruct (b64_ltb ql qp && b64_ltb qp qr)%bool eqn:B; cbn [negb bind].
  - apply andb_prop in B as (B1 & B2). apply ltb_true_iff in B1 as (_ & Np & B1). apply ltb_true_iff in B2 as (_ & _ & B2).
    rewrite xval_finite in B1 by assumption. rewrite (xval_finite qr) in B2 by assumption.
    destruct (finite_between ql qr qp Np) as (Fp & Bp); try lra.
    exists qp, (zi + s). change (num B64) with b64. rewrite W1. cbn [bind]. rewrite W2. cbn [bind]. rewrite En'.
    repeat split; try assumption; try lia; apply Bp.
  - unfold linear. cbn [m_q m_n]. change (num B64) with b64.
    destruct Hs as [-> | ->].
    + rewrite Eqi, (rd_succ q _ Eqr). cbn [bind]. rewrite (rd_succ n _ Enr), Eni. cbn [bind].
      rewrite W1. cbn [bind]. rewrite W2. cbn [bind]. rewrite En'.
      eexists. exists (zi + 1). split; [reflexivity|].
      cbn [nadd nsub nmul ndiv nofZ B64]. rewrite minus_ofZ by lia.
      destruct (linear_between_up qi qr (zr - zi)) as (K1 & K2); try assumption; try lia.
      { apply (finite_sub_le ql qr qi qr); try assumption; lra. }
      split; [exact K1|]. split; [lra|lia].
    + replace (i + -1) with (i - 1) by lia.
      rewrite Eqi, (rd_pred q _ Eql). cbn [bind]. rewrite (rd_pred n _ Enl), Eni. cbn [bind].
      rewrite W1. cbn [bind]. rewrite W2. cbn [bind]. rewrite En'.
      eexists. exists (zi + -1). split; [reflexivity|].
      cbn [nadd nsub nmul ndiv nofZ B64]. rewrite minus_ofZ by lia.
      replace (zl - zi) with (- (zi - zl)) by lia.
      destruct (linear_between_down qi ql (zi - zl)) as (K1 & K2); try assumption; try lia.
      { apply (finite_sub_le ql qr ql qi); try assumption; lra. }
      split; [exact K1|]. split; [lra|lia].
Qed.
End Adjust.

(** ** The invariant *)
Definition markers (lo hi : R) (K : Z) (s : p2st B64) : Prop :=
  exists q0 q1 q2 q3 q4 z0 z1 z2 z3 z4,
    m_q s = [q0; q1; q2; q3; q4] /\ m_n s = [b64_ofZ z0; b64_ofZ z1; b64_ofZ z2; b64_ofZ z3; b64_ofZ z4] /\
    length (m_np s) = 5%nat /\ length (m_dn s) = 5%nat /\
    (finite64 q0 = true /\ finite64 q1 = true /\ finite64 q2 = true /\ finite64 q3 = true /\ finite64 q4 = true) /\
    (B2R64 q0 = lo /\ B2R64 q0 <= B2R64 q1 /\ B2R64 q1 <= B2R64 q2 /\ B2R64 q2 <= B2R64 q3 /\ B2R64 q3 <= B2R64 q4 /\ B2R64 q4 = hi)%R /\
    0 <= z0 /\ z0 < z1 /\ z1 < z2 /\ z2 < z3 /\ z3 < z4 /\ z4 <= K.

Lemma finite_sub_R x y x' y' : finite64 x = true -> finite64 y = true -> finite64 x' = true -> finite64 y' = true ->
  (B2R64 x' <= B2R64 y')%R -> (B2R64 y' - B2R64 x' <= B2R64 y - B2R64 x)%R ->
  finite64 (b64_minus y x) = true -> finite64 (b64_minus y' x') = true.
Proof.
  intros Fx Fy Fx' Fy' H1 H2 FD.
  destruct (minus_xval y x Fy Fx) as (N1 & E1). destruct (minus_xval y' x' Fy' Fx') as (N2 & E2).
  apply finite_of_xval; [assumption|].
  assert (B : (xval (b64_minus y x) < TOP)%R). { apply xval_finite_iff; assumption. }
  assert (L : (0 <= xval (b64_minus y' x'))%R). { rewrite E2, <- rndc_0. apply rndc_mono. lra. }
  rewrite Rabs_pos_eq by assumption. apply Rle_lt_trans with (2 := B). rewrite E1, E2. apply rndc_mono. lra.
Qed.

Lemma adjust_markers i lo hi K s a b : 1 <= i <= 3 -> markers lo hi K s -> K <= 2 ^ 53 ->
  finite64 a = true -> finite64 b = true -> B2R64 a = lo -> B2R64 b = hi -> finite64 (b64_minus b a) = true ->
  exists s', adjust i s = Ret s' /\ markers lo hi K s'.
Proof.
  intros Hi (q0 & q1 & q2 & q3 & q4 & z0 & z1 & z2 & z3 & z4 & Eq & En & Lp & Ld & (F0 & F1 & F2 & F3 & F4) & (B0 & B1 & B2 & B3 & B4 & B5) & Z0 & Z1 & Z2 & Z3 & Z4 & Z5)
    HK Fa Fb Ea Eb FD.
  destruct s as [q n np dn]. cbn [m_q m_n m_np m_dn] in *. subst q n.
  assert (SUB : forall x y, finite64 x = true -> finite64 y = true -> (B2R64 q0 <= B2R64 x)%R -> (B2R64 x <= B2R64 y)%R -> (B2R64 y <= B2R64 q4)%R ->
    finite64 (b64_minus y x) = true).
  { intros x y Fx Fy G1 G2 G3. apply (finite_sub_R a b x y); try assumption. lra. }
  assert (CI : i = 1 \/ i = 2 \/ i = 3) by lia.
  destruct CI as [-> | [-> | ->]].
  - destruct (adjust_b64 [q0; q1; q2; q3; q4] [b64_ofZ z0; b64_ofZ z1; b64_ofZ z2; b64_ofZ z3; b64_ofZ z4] 1 q0 q1 q2 z0 z1 z2) with (np := np) (dn := dn)
      as (q' & z' & E & F' & B' & Z'); try reflexivity; try assumption; try lia.
    { apply SUB; try assumption; lra. }
    eexists. split; [exact E|]. exists q0, q', q2, q3, q4, z0, z', z2, z3, z4. cbn [m_q m_n m_np m_dn upd Z.to_nat Pos.to_nat].
    repeat split; try assumption; try reflexivity; try lra; lia.
  - destruct (adjust_b64 [q0; q1; q2; q3; q4] [b64_ofZ z0; b64_ofZ z1; b64_ofZ z2; b64_ofZ z3; b64_ofZ z4] 2 q1 q2 q3 z1 z2 z3) with (np := np) (dn := dn)
      as (q' & z' & E & F' & B' & Z'); try reflexivity; try assumption; try lia.
    { apply SUB; try assumption; lra. }
    eexists. split; [exact E|]. exists q0, q1, q', q3, q4, z0, z1, z', z3, z4. cbn [m_q m_n m_np m_dn upd Z.to_nat Pos.to_nat].
    repeat split; try assumption; try reflexivity; try lra; lia.
  - destruct (adjust_b64 [q0; q1; q2; q3; q4] [b64_ofZ z0; b64_ofZ z1; b64_ofZ z2; b64_ofZ z3; b64_ofZ z4] 3 q2 q3 q4 z2 z3 z4) with (np := np) (dn := dn)
      as (q' & z' & E & F' & B' & Z'); try reflexivity; try assumption; try lia.
    { apply SUB; try assumption; lra. }
    eexists. split; [exact E|]. exists q0, q1, q2, q', q4, z0, z1, z2, z', z4. cbn [m_q m_n m_np m_dn upd Z.to_nat Pos.to_nat].
    repeat split; try assumption; try reflexivity; try lra; lia.
Qed.

Lemma incr_ofZ z : 0 <= z < 2 ^ 53 -> nadd (n := B64) (b64_ofZ z) (nofZ 1) = b64_ofZ (z + 1).
Proof. intros H. apply (plus_ofZ z 1); lia. Qed.

Lemma incr_from_b64 k z0 z1 z2 z3 z4 : 0 <= k <= 4 -> 0 <= z0 -> z0 < z1 -> z1 < z2 -> z2 < z3 -> z3 < z4 -> z4 < 2 ^ 53 ->
  exists y0 y1 y2 y3 y4,
    incr_from (N := B64) [b64_ofZ z0; b64_ofZ z1; b64_ofZ z2; b64_ofZ z3; b64_ofZ z4] k =
      Ret [b64_ofZ y0; b64_ofZ y1; b64_ofZ y2; b64_ofZ y3; b64_ofZ y4] /\
    0 <= y0 /\ y0 < y1 /\ y1 < y2 /\ y2 < y3 /\ y3 < y4 /\ y4 = z4 + 1.
Proof.
  intros Hk H0 H1 H2 H3 H4 H5.
  pose proof (fun n0 n1 n2 n3 n4 : b64 => eq_refl : incr_from (N := B64) [n0; n1; n2; n3; n4] 0 =
    Ret [nadd (n := B64) n0 (nofZ 1); nadd (n := B64) n1 (nofZ 1); nadd (n := B64) n2 (nofZ 1); nadd (n := B64) n3 (nofZ 1); nadd (n := B64) n4 (nofZ 1)]) as I0.
  pose proof (fun n0 n1 n2 n3 n4 : b64 => eq_refl : incr_from (N := B64) [n0; n1; n2; n3; n4] 1 =
    Ret [n0; nadd (n := B64) n1 (nofZ 1); nadd (n := B64) n2 (nofZ 1); nadd (n := B64) n3 (nofZ 1); nadd (n := B64) n4 (nofZ 1)]) as I1.
  pose proof (fun n0 n1 n2 n3 n4 : b64 => eq_refl : incr_from (N := B64) [n0; n1; n2; n3; n4] 2 =
    Ret [n0; n1; nadd (n := B64) n2 (nofZ 1); nadd (n := B64) n3 (nofZ 1); nadd (n := B64) n4 (nofZ 1)]) as I2.
  pose proof (fun n0 n1 n2 n3 n4 : b64 => eq_refl : incr_from (N := B64) [n0; n1; n2; n3; n4] 3 =
    Ret [n0; n1; n2; nadd (n := B64) n3 (nofZ 1); nadd (n := B64) n4 (nofZ 1)]) as I3.
  pose proof (fun n0 n1 n2 n3 n4 : b64 => eq_refl : incr_from (N := B64) [n0; n1; n2; n3; n4] 4 =
    Ret [n0; n1; n2; n3; nadd (n := B64) n4 (nofZ 1)]) as I4.
  assert (C : k = 0 \/ k = 1 \/ k = 2 \/ k = 3 \/ k = 4) by lia.
  destruct C as [-> | [-> | [-> | [-> | ->]]]]; [rewrite I0|rewrite I1|rewrite I2|rewrite I3|rewrite I4]; rewrite !incr_ofZ by lia;
    do 5 eexists; (split; [reflexivity|]); lia.
Qed.

Lemma observe_markers lo hi K s x a b : markers lo hi K s -> K < 2 ^ 53 -> finite64 x = true ->
  finite64 a = true -> finite64 b = true -> B2R64 a = lo -> B2R64 b = hi -> finite64 (b64_minus b a) = true ->
  exists s', p2_observe s x = Ret s' /\ markers (Rmin lo (B2R64 x)) (Rmax hi (B2R64 x)) (K + 1) s'.
Proof.
  intros M HK Fx Fa Fb Ea Eb FD.
  pose proof M as (q0 & q1 & q2 & q3 & q4 & z0 & z1 & z2 & z3 & z4 & Eq & En & Lp & Ld & (F0 & F1 & F2 & F3 & F4) & (B0 & B1 & B2 & B3 & B4 & B5) & Z0 & Z1 & Z2 & Z3 & Z4 & Z5).
  destruct s as [q n np dn]. cbn [m_q m_n m_np m_dn] in *. subst q n.
  unfold p2_observe. cbn [m_q m_n m_np m_dn]. change (num B64) with b64 in *.
  change (rd [q0; q1; q2; q3; q4] 0) with (Ret q0). change (rd [q0; q1; q2; q3; q4] 4) with (Ret q4). cbn [bind].
  change (nlt (n := B64) x q0) with (b64_ltb x q0). change (nlt (n := B64) q4 x) with (b64_ltb q4 x).
  rewrite !ltb_xval by (apply finite_not_nan; assumption). rewrite !xval_finite by assumption.
  case Rlt_bool_spec; intros C1.
  { change (wr [q0; q1; q2; q3; q4] 0 x) with (Ret [x; q1; q2; q3; q4]). cbn [bind].
    eexists; split; [reflexivity|]. rewrite Rmin_right, Rmax_left by lra.
    exists x, q1, q2, q3, q4, z0, z1, z2, z3, z4. cbn [m_q m_n m_np m_dn]. repeat split; try assumption; try lra; lia. }
  case Rlt_bool_spec; intros C2.
  { change (wr [q0; q1; q2; q3; q4] 4 x) with (Ret [q0; q1; q2; q3; x]). cbn [bind].
    eexists; split; [reflexivity|]. rewrite Rmin_left, Rmax_right by lra.
    exists q0, q1, q2, q3, x, z0, z1, z2, z3, z4. cbn [m_q m_n m_np m_dn]. repeat split; try assumption; try lra; lia. }
  rewrite Rmin_left, Rmax_left by lra.
  destruct (find_cell_ok (N := B64) [q0; q1; q2; q3; q4] x eq_refl) with (k := 0) (fuel := 6%nat) as (k & Ek & Hk); [|lia|cbn; lia|].
  { intros v Hv. change (rd [q0; q1; q2; q3; q4] 4) with (Ret q4) in Hv. injection Hv as <-.
    change (b64_ltb q4 x = false). rewrite ltb_xval by (apply finite_not_nan; assumption). rewrite !xval_finite by assumption.
    apply Rlt_bool_false. assumption. }
  change (num B64) with b64 in Ek. rewrite Ek. cbn [bind].
  assert (Eu : u32 (u32 (k - 1) + 1) = k).
  { unfold u32. rewrite Z.add_mod_idemp_l by lia. replace (k - 1 + 1) with k by lia. apply Z.mod_small. lia. }
  rewrite Eu.
  destruct (incr_from_b64 k z0 z1 z2 z3 z4) as (y0 & y1 & y2 & y3 & y4 & En' & Y0 & Y1 & Y2 & Y3 & Y4 & Y5); try assumption; try lia.
  change (num B64) with b64 in En'. rewrite En'. cbn [bind].
  destruct (incr_np_ok (N := B64) np dn Lp Ld) as (np' & Enp & Lp'). change (num B64) with b64 in Enp. rewrite Enp. cbn [bind].
  assert (M1 : markers lo hi (K + 1) (MkP2 (N := B64) [q0; q1; q2; q3; q4] [b64_ofZ y0; b64_ofZ y1; b64_ofZ y2; b64_ofZ y3; b64_ofZ y4] np' dn)).
  { exists q0, q1, q2, q3, q4, y0, y1, y2, y3, y4. cbn [m_q m_n m_np m_dn]. repeat split; try assumption; lia. }
  destruct (adjust_markers 1 lo hi (K + 1) _ a b ltac:(lia) M1 ltac:(lia) Fa Fb Ea Eb FD) as (s1 & -> & M2). cbn [bind].
  destruct (adjust_markers 2 lo hi (K + 1) _ a b ltac:(lia) M2 ltac:(lia) Fa Fb Ea Eb FD) as (s2 & -> & M3). cbn [bind].
  destruct (adjust_markers 3 lo hi (K + 1) _ a b ltac:(lia) M3 ltac:(lia) Fa Fb Ea Eb FD) as (s3 & -> & M4).
  eauto.
Qed.

(** minimum and maximum of a non-empty list of doubles, as reals *)
Definition is_min (r : R) (l : list b64) : Prop := (exists x, In x l /\ B2R64 x = r) /\ forall x, In x l -> (r <= B2R64 x)%R.
Definition is_max (r : R) (l : list b64) : Prop := (exists x, In x l /\ B2R64 x = r) /\ forall x, In x l -> (B2R64 x <= r)%R.

Lemma run_markers seen xs lo hi K s : markers lo hi K s -> is_min lo seen -> is_max hi seen ->
  K + Z.of_nat (length xs) <= 2 ^ 53 ->
  (forall x, In x (seen ++ xs) -> finite64 x = true) ->
  (forall x y, In x (seen ++ xs) -> In y (seen ++ xs) -> finite64 (b64_minus x y) = true) ->
  exists s' lo' hi', p2_run s xs = Ret s' /\ markers lo' hi' (K + Z.of_nat (length xs)) s' /\
    is_min lo' (seen ++ xs) /\ is_max hi' (seen ++ xs).
Proof.
  revert seen lo hi K s. induction xs as [|x xs IH]; intros seen lo hi K s M Hmin Hmax HK HF HD.
  { exists s, lo, hi. rewrite app_nil_r, Z.add_0_r. auto. }
  cbn [length] in HK. pose proof Hmin as ((a & Ia & Ea) & Hlo). pose proof Hmax as ((b & Ib & Eb) & Hhi).
  destruct (observe_markers lo hi K s x a b M) as (s1 & E1 & M1); try assumption; try lia.
  { apply HF. apply in_or_app; right; left; reflexivity. }
  { apply HF. apply in_or_app; left; assumption. }
  { apply HF. apply in_or_app; left; assumption. }
  { apply HD; apply in_or_app; left; assumption. }
  cbn [p2_run]. rewrite E1. cbn [bind].
  destruct (IH (seen ++ [x]) _ _ _ _ M1) as (s' & lo' & hi' & E & M' & G1 & G2).
  - split.
    + unfold Rmin. destruct (Rle_dec lo (B2R64 x)); [exists a|exists x]; (split; [apply in_or_app; cbn; auto|auto]).
    + intros y Hy. apply in_app_or in Hy as [Hy|[->|[]]]; [|apply Rmin_r]. eapply Rle_trans; [apply Rmin_l|auto].
  - split.
    + unfold Rmax. destruct (Rle_dec hi (B2R64 x)); [exists x|exists b]; (split; [apply in_or_app; cbn; auto|auto]).
    + intros y Hy. apply in_app_or in Hy as [Hy|[->|[]]]; [|apply Rmax_r]. eapply Rle_trans; [|apply Rmax_l]. auto.
  - lia.
  - rewrite <- app_assoc. exact HF.
  - rewrite <- app_assoc. exact HD.
  - rewrite <- app_assoc in G1, G2. exists s', lo', hi'. repeat split; try assumption; try apply G1; try apply G2.
    cbn [length]. replace (K + Z.of_nat (S (length xs))) with (K + 1 + Z.of_nat (length xs)) by lia. exact M'.
Qed.

(** the state of the P2 estimator after all of [xs] (p2.c:112-165) *)
Definition p2_state (p : b64) (xs : list b64) : res (p2st B64) :=
  q <- sort5 (N := B64) (firstn 5 xs) ;;
  let s := init_p2 (N := B64) p in
  p2_run (MkP2 (N := B64) q (m_n s) (m_np s) (m_dn s)) (skipn 5 xs).

Lemma p2_state_markers (p : b64) (xs : list b64) : (5 <= length xs)%nat -> Z.of_nat (length xs) <= 2 ^ 53 ->
  (forall x, In x xs -> finite64 x = true) ->
  (forall x y, In x xs -> In y xs -> finite64 (b64_minus x y) = true) ->
  exists s lo hi, p2_state p xs = Ret s /\ p2_quantile (N := B64) p xs = rd (m_q s) 2 /\
    markers lo hi (Z.of_nat (length xs) - 1) s /\ is_min lo xs /\ is_max hi xs.
Proof.
  intros L5 HL HF HD.
  destruct xs as [|x0 [|x1 [|x2 [|x3 [|x4 t]]]]]; cbn [length] in L5; try lia.
  assert (Q : p2_quantile (N := B64) p (x0 :: x1 :: x2 :: x3 :: x4 :: t) =
     bind (p2_state p (x0 :: x1 :: x2 :: x3 :: x4 :: t)) (fun s => rd (m_q s) 2)).
  { unfold p2_quantile, quantile, p2_state. rewrite bind_assoc. reflexivity. }
  rewrite Q. clear Q. unfold p2_state. cbn [firstn skipn].
  destruct (sort5_spec x0 x1 x2 x3 x4) as (y0 & y1 & y2 & y3 & y4 & Es & HP & HS).
  change (num B64) with b64 in *. rewrite Es. cbn [bind].
  set (xs := x0 :: x1 :: x2 :: x3 :: x4 :: t) in *.
  assert (EX : xs = [x0; x1; x2; x3; x4] ++ t) by reflexivity.
  assert (INh : forall y, In y [y0; y1; y2; y3; y4] -> In y xs).
  { intros y Hy. rewrite EX. apply in_or_app; left. apply Permutation_in with (2 := Hy). symmetry. exact HP. }
  assert (Fh : forall y, In y [y0; y1; y2; y3; y4] -> finite64 y = true) by (intros y Hy; apply HF, INh, Hy).
  destruct HS as (S1 & S2).
  { intros y Hy. apply finite_not_nan, HF. rewrite EX. apply in_or_app; left. exact Hy. }
  rewrite !xval_finite in S1, S2 by (apply Fh; cbn; auto 7).
  destruct (run_markers [x0; x1; x2; x3; x4] t (B2R64 y0) (B2R64 y4) 4
     (MkP2 (N := B64) [y0; y1; y2; y3; y4] (m_n (init_p2 (N := B64) p)) (m_np (init_p2 (N := B64) p)) (m_dn (init_p2 (N := B64) p))))
     as (s & lo & hi & E & M & G1 & G2).
  - exists y0, y1, y2, y3, y4, 0, 1, 2, 3, 4. cbn [m_q m_n m_np m_dn init_p2]. repeat split; try (apply Fh; cbn; auto 7); try lra; lia.
  - split. { exists y0. split; [|reflexivity]. apply Permutation_in with (1 := Permutation_sym HP). left; reflexivity. }
    intros y Hy. apply Permutation_in with (1 := HP) in Hy. cbn in Hy. destruct Hy as [<-|[<-|[<-|[<-|[<-|[]]]]]]; lra.
  - split. { exists y4. split; [|reflexivity]. apply Permutation_in with (1 := Permutation_sym HP). cbn; auto 7. }
    intros y Hy. apply Permutation_in with (1 := HP) in Hy. cbn in Hy. destruct Hy as [<-|[<-|[<-|[<-|[<-|[]]]]]]; lra.
  - change (length xs) with (S (S (S (S (S (length t)))))) in HL. lia.
  - rewrite <- EX. exact HF.
  - rewrite <- EX. exact HD.
  - rewrite <- EX in G1, G2. exists s, lo, hi. change (num B64) with b64 in *.
    match goal with |- ?A = Ret s /\ _ => assert (E' : A = Ret s) by exact E end.
    rewrite E'. cbn [bind]. repeat split; try apply G1; try apply G2.
    replace (Z.of_nat (length xs) - 1) with (4 + Z.of_nat (length t)); [exact M|].
    change (length xs) with (S (S (S (S (S (length t)))))). lia.
Qed.
