(** * BrentBracket: on doubles, Brent's method never leaves its bracket, whatever the function (C61) *)
From Coq Require Import ZArith List Bool Lia Reals Lra Psatz.
From Flocq Require Import Core.Core IEEE754.BinarySingleNaN Mult_error.
From Verif Require Import Num NumFacts XMath Brent BrentLemmas B64 B64Facts Spec SpotB64 P2B64 BrentB64 FloatErr PowAcc PowAcc5.
Import ListNotations.
Open Scope R_scope.

Lemma double_exact (p : b64) : rnd (2 * B2R64 p) = 2 * B2R64 p.
Proof.
  apply round_generic; [apply valid_rnd_N|]. rewrite Rmult_comm. change 2 with (bpow radix2 1).
  apply (mult_bpow_pos_exact_FLT radix2 (-1074) 53); [apply generic_format_B2R|lia].
Qed.

Lemma fabs_nan (x : b64) : nan64 (c_fabs (N := B64) x) = nan64 x.
Proof.
  unfold c_fabs. destruct (nlt (n := B64) x (nofZ 0)); [|reflexivity]. change (nopp (n := B64) x) with (b64_opp x). apply nan_opp.
Qed.
Lemma fabs_xval (x : b64) : nan64 x = false -> xval (c_fabs (N := B64) x) = Rabs (xval x).
Proof.
  intros Nx. unfold c_fabs. change (nlt (n := B64) x (nofZ 0)) with (b64_ltb x (b64_ofZ 0)).
  rewrite ltb_xval by (assumption || reflexivity). rewrite xval_zero. case Rlt_bool_spec; intros H.
  - change (nopp (n := B64) x) with (b64_opp x). rewrite xval_opp, Rabs_left by assumption. reflexivity.
  - rewrite Rabs_pos_eq by assumption. reflexivity.
Qed.

Lemma rndc_lt_inv (p : b64) r : B2R64 p < rndc r -> B2R64 p < r.
Proof.
  intros H. destruct (Rlt_or_le (B2R64 p) r) as [L|L]; [assumption|]. apply rndc_mono in L. rewrite rndc_format in L. lra.
Qed.

Lemma fle (b : b64) r : B2R64 b <= r -> B2R64 b <= rndc r.
Proof. intros H. apply rndc_mono in H. rewrite rndc_format in H. exact H. Qed.
Lemma fge (b : b64) r : r <= B2R64 b -> rndc r <= B2R64 b.
Proof. intros H. apply rndc_mono in H. rewrite rndc_format in H. exact H. Qed.

(** doubling a finite double *)
Lemma twice (p : b64) : finite64 p = true -> nan64 (b64_mult (b64_ofZ 2) p) = false /\
  xval (b64_mult (b64_ofZ 2) p) = clamp (2 * B2R64 p).
Proof.
  intros F. destruct (ofZ_exact 2 ltac:(vm_compute; discriminate)) as (F2 & V2). destruct (mult_xval _ _ F2 F) as (H1 & H2).
  split; [assumption|]. rewrite H2, V2. unfold rndc. rewrite double_exact. reflexivity.
Qed.

Section Step.
Variables (b c tol1 xm : b64).
Hypothesis Fb : finite64 b = true.
Hypothesis Fc : finite64 c = true.
Hypothesis Ft : finite64 tol1 = true.
Hypothesis Fx : finite64 xm = true.
Let t := B2R64 c - B2R64 b.
Hypothesis Ht : 0 < B2R64 tol1.
Hypothesis Hx : B2R64 tol1 < Rabs (B2R64 xm).
(** [xm] is about half the signed width *)
Hypothesis Hxm : (0 < t /\ 0 < B2R64 xm /\ 16 / 10 * B2R64 xm <= t) \/ (t < 0 /\ B2R64 xm < 0 /\ t <= 16 / 10 * B2R64 xm).
Hypothesis Big : / 10 ^ 45 <= Rabs (B2R64 xm) <= 10 ^ 200.

(** a displacement towards [c] that does not go past it *)
Definition towards (d : b64) : Prop := finite64 d = true /\ ((0 <= B2R64 d <= t) \/ (t <= B2R64 d <= 0)).
Definition good_step (d : b64) : Prop := b64_ltb tol1 (c_fabs (N := B64) d) = false \/ towards d.

Lemma xm_towards : towards xm.
Proof. split; [exact Fx|]. destruct Hxm as [H|H]; [left|right]; lra. Qed.

Lemma between (d : b64) : towards d -> finite64 (b64_plus b d) = true /\
  ((B2R64 b <= B2R64 (b64_plus b d) <= B2R64 c) \/ (B2R64 c <= B2R64 (b64_plus b d) <= B2R64 b)).
Proof.
  intros (Fd & H). destruct (plus_xval b d Fb Fd) as (N & V). unfold t in H.
  pose proof (B2R_bounds b) as Bb. pose proof (B2R_bounds c) as Bc.
  assert (X : (B2R64 b <= xval (b64_plus b d) <= B2R64 c) \/ (B2R64 c <= xval (b64_plus b d) <= B2R64 b)).
  { rewrite V. destruct H as [H|H]; [left|right]; split; (apply fle || apply fge); lra. }
  assert (F : finite64 (b64_plus b d) = true).
  { apply xval_finite_iff; [assumption|]. lra. }
  split; [exact F|]. rewrite (xval_finite _ F) in X. exact X.
Qed.

Lemma next_between (d : b64) : good_step d -> let b' := brent_next (N := B64) tol1 xm b d in finite64 b' = true /\
  ((B2R64 b <= B2R64 b' <= B2R64 c) \/ (B2R64 c <= B2R64 b' <= B2R64 b)).
Proof.
  intros H b'. unfold b', brent_next. change (nlt (n := B64) tol1 (c_fabs (N := B64) d)) with (b64_ltb tol1 (c_fabs (N := B64) d)).
  destruct (fabs_fin tol1 Ft) as (Fa & Va). rewrite Rabs_pos_eq in Va by lra.
  destruct (b64_ltb tol1 (c_fabs (N := B64) d)) eqn:E.
  - destruct H as [H|H]; [congruence|]. exact (between d H).
  - change (nle (n := B64) (nofZ 0) xm) with (b64_leb (b64_ofZ 0) xm).
    assert (L : b64_leb (b64_ofZ 0) xm = Rle_bool 0 (B2R64 xm)).
    { rewrite leb_xval by (try apply finite_not_nan; try assumption; reflexivity). rewrite xval_zero, (xval_finite _ Fx). reflexivity. }
    rewrite L. clear L. case Rle_bool_spec; intros S.
    + apply (between (c_fabs (N := B64) tol1)). split; [exact Fa|]. left. rewrite Va. rewrite Rabs_pos_eq in Hx by assumption. lra.
    + apply (between (b64_opp (c_fabs (N := B64) tol1))). split; [rewrite finite_opp; exact Fa|]. right.
      rewrite <- (xval_finite (b64_opp _)) by (rewrite finite_opp; exact Fa). rewrite xval_opp, (xval_finite _ Fa), Va. rewrite Rabs_left in Hx by assumption. lra.
Qed.

(** the interpolation step, accepted: [p] and [q] arbitrary *)
Section Accept.
Variables (p q e : b64).
Hypothesis Hp : nan64 p = false -> 0 <= xval p.
Let A := b64_mult (b64_mult (b64_ofZ 3) xm) q.
Let Bq := c_fabs (N := B64) (b64_mult tol1 q).
Let min1 := b64_minus A Bq.
Let min2 := c_fabs (N := B64) (b64_mult e q).
Hypothesis Acc : b64_ltb (b64_mult (b64_ofZ 2) p) (if b64_ltb min1 min2 then min1 else min2) = true.

Lemma p_fin : finite64 p = true /\ 0 <= B2R64 p /\ xval (b64_mult (b64_ofZ 2) p) = 2 * B2R64 p /\ 2 * B2R64 p < TOP.
Proof.
  apply ltb_true_iff in Acc as (N1 & N2 & L). pose proof (xval_bounds (if b64_ltb min1 min2 then min1 else min2)) as B.
  assert (Np : nan64 p = false) by (destruct p; try reflexivity; discriminate N1).
  specialize (Hp Np). assert (F : finite64 p = true).
  { destruct p as [s|s| |s m x W]; try reflexivity; try discriminate Np. destruct s; [cbn [xval] in Hp; pose proof TOP_pos; lra|].
    assert (xval (b64_mult (b64_ofZ 2) (B754_infinity false)) = TOP) by reflexivity. lra. }
  rewrite (xval_finite _ F) in Hp. split; [exact F|]. split; [exact Hp|]. destruct (twice p F) as (_ & V).
  pose proof TOP_pos. destruct (Rlt_or_le (2 * B2R64 p) TOP) as [L2|L2].
  - rewrite V, clamp_id by (rewrite Rabs_pos_eq; lra). auto.
  - rewrite clamp_hi in V by assumption. lra.
Qed.

Lemma x3 : finite64 (b64_mult (b64_ofZ 3) xm) = true /\ Rabs (B2R64 (b64_mult (b64_ofZ 3) xm) - 3 * B2R64 xm) <= 1 / 100 * Rabs (B2R64 xm).
Proof.
  destruct (ofZ_exact 3 ltac:(vm_compute; discriminate)) as (F3 & V3). destruct (mult_xval _ _ F3 Fx) as (N & V). rewrite V3 in V.
  assert (T1 : 4 * 10 ^ 200 <= 10 ^ 300). { rewrite !pow_IZR, <- mult_IZR. apply IZR_le. vm_compute. discriminate. }
  assert (AB : Rabs (3 * B2R64 xm) = 3 * Rabs (B2R64 xm)) by (rewrite Rabs_mult, Rabs_pos_eq; lra).
  destruct (op_abs _ _ N V) as (F & _ & E); [lra|]. split; [exact F|]. eapply Rle_trans; [exact E|]. rewrite AB.
  assert (T2 : / 10 ^ 59 <= 1 / 1000 * / 10 ^ 45) by lra.
  unfold eps. lra.
Qed.

(** 2p < 3*xm*q in exact arithmetic, or the step is at most the tolerance *)
Lemma accepted : good_step (b64_div p q).
Proof.
  destruct p_fin as (Fp & P0 & VP & PT). destruct x3 as (F3 & E3).
  pose proof (proj1 (ltb_true_iff _ _) Acc) as (N1 & N2 & L). rewrite VP in L.
  destruct (fabs_fin tol1 Ft) as (Fat & Vat). rewrite Rabs_pos_eq in Vat by lra.
  assert (Xn : B2R64 (b64_mult (b64_ofZ 3) xm) <> 0).
  { intros Z. rewrite Z in E3. replace (0 - 3 * B2R64 xm) with (- (3 * B2R64 xm)) in E3 by lra. rewrite Rabs_Ropp, Rabs_mult, (Rabs_pos_eq 3) in E3 by lra.
    pose proof (Rabs_pos (B2R64 xm)). lra. }
  assert (small : finite64 (b64_div p q) = true -> Rabs (B2R64 (b64_div p q)) <= B2R64 tol1 -> good_step (b64_div p q)).
  { intros Fd D. left. destruct (fabs_fin _ Fd) as (F1 & V1). rewrite ltb_xval by (apply finite_not_nan; assumption).
    rewrite (xval_finite _ Ft), (xval_finite _ F1), V1. apply Rlt_bool_false. exact D. }
  destruct (nan64 q) eqn:Nq.
  { exfalso. assert (M1 : nan64 min1 = true). { unfold min1, A. destruct q; try discriminate Nq. destruct (b64_mult (b64_ofZ 3) xm); reflexivity. }
    assert (M2 : nan64 min2 = true). { unfold min2. rewrite fabs_nan. destruct q; try discriminate Nq. destruct e; reflexivity. }
    destruct (b64_ltb min1 min2); congruence. }
  destruct (finite64 q) eqn:Fq.
  2:{ (* q infinite: the quotient is a zero *)
    assert (Fd : finite64 (b64_div p q) = true /\ B2R64 (b64_div p q) = 0).
    { clear - Nq Fq Fp. destruct q as [s|s| |s m x W]; try discriminate Nq; try discriminate Fq. destruct p as [r|r| |r m x W]; try discriminate Fp; cbn; auto. }
    destruct Fd as (Fd & Vd). apply small; [exact Fd|]. rewrite Vd, Rabs_R0. lra. }
  destruct (mult_xval _ _ F3 Fq) as (NA & VA). fold A in NA, VA.
  destruct (mult_xval _ _ Ft Fq) as (NB0 & VB0).
  assert (NB : nan64 Bq = false) by (unfold Bq; rewrite fabs_nan; exact NB0).
  assert (VB : xval Bq = Rabs (rndc (B2R64 tol1 * B2R64 q))) by (unfold Bq; rewrite fabs_xval, VB0 by exact NB0; reflexivity).
  pose proof (Rabs_pos (rndc (B2R64 tol1 * B2R64 q))) as PB.
  destruct (nan64 min1) eqn:Nm.
  { (* both products overflow *)
    assert (BT : xval Bq = TOP).
    { unfold min1 in Nm. destruct (minus_cmp A Bq NA NB) as (SI & _). rewrite SI in Nm. destruct A as [s|s| |s m x W], Bq as [r|r| |r n y Z]; try discriminate Nm.
      destruct r; [cbn [xval] in VB; pose proof TOP_pos; lra|reflexivity]. }
    rewrite BT in VB. assert (QL : 2 * B2R64 p <= Rabs (B2R64 tol1 * B2R64 q)).
    { apply Rnot_lt_le. intros C. assert (G : Rabs (rndc (B2R64 tol1 * B2R64 q)) <= 2 * B2R64 p).
      { assert (R2 : rndc (2 * B2R64 p) = 2 * B2R64 p). { unfold rndc. rewrite double_exact. apply clamp_id. rewrite Rabs_pos_eq; lra. }
        apply Rabs_def2 in C. apply Rabs_le. split.
        - rewrite <- R2, <- rndc_opp. apply rndc_mono. lra.
        - rewrite <- R2. apply rndc_mono. lra. }
      lra. }
    rewrite Rabs_mult, (Rabs_pos_eq (B2R64 tol1)) in QL by lra.
    assert (Qn : B2R64 q <> 0). { intros Z. rewrite Z, Rmult_0_r, rndc_0, Rabs_R0 in VB. pose proof TOP_pos. lra. }
    destruct (div_xval p q Fp Fq Qn) as (Nd & Vd).
    assert (D : Rabs (B2R64 p / B2R64 q) <= B2R64 tol1).
    { unfold Rdiv. rewrite Rabs_mult, Rabs_inv, (Rabs_pos_eq (B2R64 p)) by assumption. pose proof (Rabs_pos_lt _ Qn).
      apply Rmult_le_reg_r with (Rabs (B2R64 q)); [assumption|]. rewrite Rmult_assoc, Rinv_l by lra. lra. }
    assert (X : Rabs (xval (b64_div p q)) <= B2R64 tol1).
    { rewrite Vd. apply Rabs_le_inv in D. apply Rabs_le. rewrite <- (rndc_format tol1). rewrite <- rndc_opp. split; apply rndc_mono; lra. }
    assert (Fd : finite64 (b64_div p q) = true) by (apply finite_of_xval; [exact Nd|]; pose proof (B2R_bounds tol1); lra).
    rewrite (xval_finite _ Fd) in X. apply small; assumption. }
  (* 2p < min1 *)
  assert (L1 : 2 * B2R64 p < xval min1).
  { destruct (b64_ltb min1 min2) eqn:E; [exact L|]. rewrite ltb_xval in E by assumption. apply Rlt_bool_false_inv in E. lra. }
  assert (L2 : 2 * B2R64 p < xval A).
  { destruct (finite64 Bq) eqn:FB.
    - destruct (finite64 A) eqn:FA.
      + destruct (minus_xval A Bq FA FB) as (_ & V). fold min1 in V. rewrite V in L1. rewrite (xval_finite _ FB) in VB.
        apply Rlt_le_trans with (1 := L1). rewrite (xval_finite _ FA). apply fge. lra.
      + destruct A as [s|s| |s m x W]; try discriminate FA; try discriminate NA. destruct s; [|cbn [xval]; lra]. exfalso.
        assert (min1 = B754_infinity true). { unfold min1. destruct Bq; try discriminate FB; reflexivity. }
        rewrite H in L1. cbn [xval] in L1. pose proof TOP_pos. lra.
    - exfalso. destruct Bq as [r|r| |r n y Z]; try discriminate FB; try discriminate NB. destruct r; [cbn [xval] in VB; pose proof TOP_pos; lra|].
      unfold min1 in L1, Nm. destruct A as [s|s| |s m x W]; try discriminate Nm; try destruct s; try discriminate Nm; cbn in L1; pose proof TOP_pos; lra. }
  rewrite VA in L2. set (X3 := B2R64 (b64_mult (b64_ofZ 3) xm)) in *.
  assert (R2 : rndc (2 * B2R64 p) = 2 * B2R64 p). { unfold rndc. rewrite double_exact. apply clamp_id. rewrite Rabs_pos_eq; lra. }
  assert (L3 : 2 * B2R64 p < X3 * B2R64 q).
  { apply Rnot_le_lt. intros C. apply rndc_mono in C. rewrite R2 in C. lra. }
  assert (Qn : B2R64 q <> 0). { intros Z. rewrite Z, Rmult_0_r in L3. lra. }
  destruct (div_xval p q Fp Fq Qn) as (Nd & Vd).
  assert (B1 : / 10 ^ 59 <= 1 / 1000 * / 10 ^ 45) by lra.
  assert (T1 : 4 * 10 ^ 200 <= 10 ^ 300). { rewrite !pow_IZR, <- mult_IZR. apply IZR_le. vm_compute. discriminate. }
  apply Rabs_le_inv in E3.
  right. destruct Hxm as [(Ha & Hb & Hc)|(Ha & Hb & Hc)].
  - rewrite (Rabs_pos_eq (B2R64 xm)) in * by lra.
    assert (Q0 : 0 < B2R64 q) by nra.
    assert (D : 0 <= B2R64 p / B2R64 q <= 151 / 100 * B2R64 xm).
    { split; [apply Rdiv_pos_nonneg_compat || (unfold Rdiv; apply Rmult_le_pos; [assumption|left; apply Rinv_0_lt_compat; assumption])|].
      apply Rmult_le_reg_r with (B2R64 q); [assumption|]. unfold Rdiv at 1. rewrite Rmult_assoc, Rinv_l by lra. nra. }
    destruct (op_abs _ _ Nd Vd) as (Fd & Er & Ed); [rewrite Rabs_pos_eq; lra|]. rewrite (Rabs_pos_eq (B2R64 p / B2R64 q)) in Ed by lra.
    split; [exact Fd|]. left. split; [rewrite Er; apply rnd_nonneg; lra|].
    apply Rabs_le_inv in Ed. unfold eps in Ed. lra.
  - rewrite (Rabs_left (B2R64 xm)) in * by lra.
    assert (Q0 : B2R64 q < 0) by nra.
    assert (D : 0 <= - (B2R64 p / B2R64 q) <= 151 / 100 * - B2R64 xm).
    { replace (- (B2R64 p / B2R64 q)) with (B2R64 p / - B2R64 q) by (field; lra). split; [unfold Rdiv; apply Rmult_le_pos; [assumption|left; apply Rinv_0_lt_compat; lra]|].
      apply Rmult_le_reg_r with (- B2R64 q); [lra|]. unfold Rdiv at 1. rewrite Rmult_assoc, Rinv_l by lra. nra. }
    destruct (op_abs _ _ Nd Vd) as (Fd & Er & Ed); [rewrite <- Rabs_Ropp, Rabs_pos_eq; lra|]. rewrite <- (Rabs_Ropp (B2R64 p / B2R64 q)), (Rabs_pos_eq (- (B2R64 p / B2R64 q))) in Ed by lra.
    split; [exact Fd|]. right. split; [|rewrite Er; apply rnd_nonpos; lra].
    apply Rabs_le_inv in Ed. unfold eps in Ed. lra.
Qed.
End Accept.

Lemma de_good (s : bst B64) : good_step (fst (brent_de (N := B64) tol1 xm s)).
Proof.
  destruct s as [a b0 c0 d e fa fb fc]. unfold brent_de.
  destruct (_ && _)%bool; [|right; exact xm_towards].
  set (pq := if neq (n := B64) a c0 then _ else _). destruct pq as [p q].
  set (q' := if nlt (n := B64) (nofZ 0) p then nopp q else q).
  match goal with |- context [if ?t then (ndiv _ _, _) else _] => destruct t eqn:E end; [|right; exact xm_towards].
  cbn [fst]. apply (accepted (c_fabs (N := B64) p) q' e).
  - intros Nn. rewrite fabs_nan in Nn. rewrite fabs_xval by exact Nn. apply Rabs_pos.
  - exact E.
Qed.
End Step.

Lemma tol1_range (tol x : b64) : finite64 x = true -> Rabs (B2R64 x) <= 10 ^ 199 -> finite64 tol = true -> / 10 ^ 40 <= B2R64 tol <= 10 ^ 199 ->
  finite64 (brent_tol1 (N := B64) tol x) = true /\ / 10 ^ 45 <= B2R64 (brent_tol1 (N := B64) tol x).
Proof.
  intros Fx Bx Ft Ht. unfold brent_tol1.
  change (finite64 (b64_plus (b64_mult eps2 (c_fabs (N := B64) x)) (b64_mult half64 tol)) = true /\
          / 10 ^ 45 <= B2R64 (b64_plus (b64_mult eps2 (c_fabs (N := B64) x)) (b64_mult half64 tol))).
  assert (I40 : 0 < / 10 ^ 40) by (apply Rinv_0_lt_compat; lra).
  destruct (fabs_fin x Fx) as (Fa & Va).
  destruct (mult_small eps2 (c_fabs (N := B64) x) eps2_fin Fa eps2_range) as (F1 & V1); [rewrite Va; apply Rabs_pos|].
  rewrite Va in V1.
  destruct (mult_small half64 tol half64_fin Ft) as (F2 & V2); [rewrite half64_val; lra|lra|].
  assert (T1 : 4 * 10 ^ 199 <= 10 ^ 300). { rewrite !pow_IZR, <- mult_IZR. apply IZR_le. vm_compute. discriminate. }
  assert (T2 : / 10 ^ 59 <= 1 / 1000 * / 10 ^ 40) by lra.
  assert (T3 : / 10 ^ 45 <= 1 / 1000 * / 10 ^ 40) by lra.
  destruct (mult_xval half64 tol half64_fin Ft) as (Nh & Vh). rewrite half64_val in Vh.
  assert (Ah : Rabs (1 / 2 * B2R64 tol) = 1 / 2 * B2R64 tol) by (apply Rabs_pos_eq; lra).
  destruct (op_abs _ _ Nh Vh) as (_ & _ & Eh); [lra|]. rewrite Ah in Eh. apply Rabs_le_inv in Eh.
  destruct (plus_xval _ _ F1 F2) as (Np & Vp).
  set (u := B2R64 (b64_mult eps2 (c_fabs (N := B64) x))) in *. set (v := B2R64 (b64_mult half64 tol)) in *.
  destruct (op_abs _ _ Np Vp) as (F & _ & E); [rewrite Rabs_pos_eq; lra|]. rewrite (Rabs_pos_eq (u + v)) in E by lra. apply Rabs_le_inv in E.
  split; [exact F|]. unfold eps in *. lra.
Qed.

Section Loop.
Variables (lo hi : R).
Hypothesis Blo : - 10 ^ 199 <= lo.
Hypothesis Bhi : hi <= 10 ^ 199.
Variables (func func' : num B64 -> res (num B64)).
Hypothesis Agree : forall x : b64, finite64 x = true -> lo <= B2R64 x <= hi -> func' x = func x.
Variable tol : b64.
Hypothesis Ft : finite64 tol = true.
Hypothesis Ht : / 10 ^ 40 <= B2R64 tol <= 10 ^ 199.

Definition inb (x : b64) : Prop := finite64 x = true /\ lo <= B2R64 x <= hi.
Definition inst (s : bst B64) : Prop := inb (b_a s) /\ inb (b_b s) /\ inb (b_c s).

Lemma inb_abs x : inb x -> Rabs (B2R64 x) <= 10 ^ 199.
Proof. intros (_ & H). apply Rabs_le. lra. Qed.

Lemma rename_inst s : inst s -> inst (brent_rename s).
Proof.
  intros (Ha & Hb & Hc). unfold brent_rename. destruct (same_sign _ _); cbn [b_a b_b b_c b_d b_e b_fa b_fb b_fc];
    destruct (nlt (n := B64) _ _); repeat split; cbn [b_a b_b b_c]; try apply Ha; try apply Hb; try apply Hc.
Qed.

Lemma point_inside s : inst s -> let tol1 := brent_tol1 (N := B64) tol (b_b s) in let xm := (c_half (N := B64) * (b_c s - b_b s))%num in
  (c_fabs xm <=? tol1)%num = false -> inb (brent_next (N := B64) tol1 xm (b_b s) (fst (brent_de (N := B64) tol1 xm s))).
Proof.
  intros (Ha & Hb & Hc) tol1 xm Stop. destruct (tol1_range tol (b_b s) (proj1 Hb) (inb_abs _ Hb) Ft Ht) as (F1 & R1). fold tol1 in F1, R1.
  set (b := b_b s : b64) in *. set (c := b_c s : b64) in *. change (num B64) with b64 in *.
  pose proof (inb_abs _ Hb) as Ab. pose proof (inb_abs _ Hc) as Ac.
  assert (T1 : 4 * 10 ^ 199 <= 10 ^ 300). { rewrite !pow_IZR, <- mult_IZR. apply IZR_le. vm_compute. discriminate. }
  assert (T2 : / 10 ^ 59 <= / 1000000 * / 10 ^ 45) by lra.
  assert (I45 : 0 < / 10 ^ 45) by (apply Rinv_0_lt_compat; lra).
  assert (At : Rabs (B2R64 c - B2R64 b) <= 2 * 10 ^ 199).
  { apply Rabs_le_inv in Ab. apply Rabs_le_inv in Ac. apply Rabs_le. lra. }
  destruct (minus_rel c b (proj1 Hc) (proj1 Hb)) as (FD & ED); [lra|].
  set (D := b64_minus c b) in *. set (t := B2R64 c - B2R64 b) in *.
  assert (AD : Rabs (B2R64 D) <= 11 / 10 * Rabs t).
  { replace (B2R64 D) with ((B2R64 D - t) + t) by lra. eapply Rle_trans; [apply Rabs_triang|]. unfold eps in ED. pose proof (Rabs_pos t). lra. }
  destruct (mult_xval half64 D half64_fin FD) as (Nx & Vx). change (b64_mult half64 D) with xm in Nx, Vx. rewrite half64_val in Vx.
  assert (AH : Rabs (1 / 2 * B2R64 D) = 1 / 2 * Rabs (B2R64 D)) by (rewrite Rabs_mult, Rabs_pos_eq; lra).
  destruct (op_abs _ _ Nx Vx) as (Fx & _ & Ex); [pose proof (Rabs_pos t); lra|]. rewrite AH in Ex.
  destruct (fabs_fin xm Fx) as (Fax & Vax).
  change (b64_leb (c_fabs (N := B64) xm) tol1 = false) in Stop. rewrite leb_xval in Stop by (apply finite_not_nan; assumption).
  rewrite (xval_finite _ Fax), (xval_finite _ F1), Vax in Stop.
  assert (Lt : B2R64 tol1 < Rabs (B2R64 xm)). { revert Stop. case Rle_bool_spec; [discriminate|auto]. }
  assert (Ext : Rabs (B2R64 xm - 1 / 2 * t) <= / 100 * Rabs t + / 1000000 * Rabs (B2R64 xm)).
  { replace (B2R64 xm - 1 / 2 * t) with ((B2R64 xm - 1 / 2 * B2R64 D) + 1 / 2 * (B2R64 D - t)) by lra.
    eapply Rle_trans; [apply Rabs_triang|]. rewrite (Rabs_mult (1 / 2)), (Rabs_pos_eq (1 / 2)) by lra. unfold eps in *. pose proof (Rabs_pos t). lra. }
  assert (Hxm : (0 < t /\ 0 < B2R64 xm /\ 16 / 10 * B2R64 xm <= t) \/ (t < 0 /\ B2R64 xm < 0 /\ t <= 16 / 10 * B2R64 xm)).
  { assert (Xp : 0 < Rabs (B2R64 xm)) by lra. apply Rabs_le_inv in Ext.
    destruct (Rtotal_order t 0) as [H|[H|H]].
    - right. rewrite (Rabs_left t) in Ext by assumption. destruct (Rle_lt_dec 0 (B2R64 xm)) as [S|S].
      + exfalso. rewrite (Rabs_pos_eq (B2R64 xm)) in * by assumption. lra.
      + rewrite (Rabs_left (B2R64 xm)) in * by assumption. lra.
    - exfalso. rewrite H, Rabs_R0 in Ext. destruct (Rle_lt_dec 0 (B2R64 xm)) as [S|S].
      + rewrite (Rabs_pos_eq (B2R64 xm)) in * by assumption. lra.
      + rewrite (Rabs_left (B2R64 xm)) in * by assumption. lra.
    - left. rewrite (Rabs_pos_eq t) in Ext by lra. destruct (Rle_lt_dec 0 (B2R64 xm)) as [S|S].
      + rewrite (Rabs_pos_eq (B2R64 xm)) in * by assumption. lra.
      + exfalso. rewrite (Rabs_left (B2R64 xm)) in * by assumption. lra. }
  assert (T3 : 3 * 10 ^ 199 <= 10 ^ 200). { rewrite !pow_IZR, <- mult_IZR. apply IZR_le. vm_compute. discriminate. }
  assert (Big : / 10 ^ 45 <= Rabs (B2R64 xm) <= 10 ^ 200).
  { split; [lra|]. apply Rle_trans with (Rabs t); [|lra]. destruct Hxm as [(H1 & H2 & H3)|(H1 & H2 & H3)].
    - rewrite !Rabs_pos_eq; lra.
    - rewrite !Rabs_left; lra. }
  assert (T0 : 0 < B2R64 tol1) by lra. assert (G : good_step b c tol1 (fst (brent_de (N := B64) tol1 xm s))) by (apply de_good; assumption).
  destruct (next_between b c tol1 xm) with (d := fst (brent_de (N := B64) tol1 xm s)) as (Fn & Bn); try assumption; try apply Hb; try apply Hc.
  split; [exact Fn|]. destruct Hb as (_ & Hb). destruct Hc as (_ & Hc). destruct Bn as [Bn|Bn]; [exact (conj (Rle_trans _ _ _ (proj1 Hb) (proj1 Bn)) (Rle_trans _ _ _ (proj2 Bn) (proj2 Hc)))|exact (conj (Rle_trans _ _ _ (proj1 Hc) (proj1 Bn)) (Rle_trans _ _ _ (proj2 Bn) (proj2 Hb)))].
Qed.

Lemma loop_inside fuel s : inst s -> brent_loop func' fuel (tol : num B64) s = brent_loop func fuel (tol : num B64) s /\
  (forall r, brent_loop func fuel (tol : num B64) s = Ret (Some r) -> inb r).
Proof.
  revert s. induction fuel as [|fuel IH]; intros s Hs. { split; [reflexivity|]. discriminate. }
  cbn [brent_loop]. apply rename_inst in Hs. set (s1 := brent_rename s) in *.
  set (tol1 := brent_tol1 (N := B64) tol (b_b s1)). set (xm := (c_half (N := B64) * (b_c s1 - b_b s1))%num).
  destruct (c_fabs xm <=? tol1)%num eqn:St; cbn [orb].
  { split; [reflexivity|]. intros r E. inversion E; subst. apply Hs. }
  destruct (b_fb s1 ==? #0)%num.
  { split; [reflexivity|]. intros r E. inversion E; subst. apply Hs. }
  pose proof (point_inside s1 Hs St) as P. fold tol1 xm in P. destruct (brent_de tol1 xm s1) as [d e]. cbn [fst] in P.
  rewrite (Agree _ (proj1 P) (proj2 P)). destruct (func _) as [fb'|w]; cbn [bind]; [|split; [reflexivity|discriminate]].
  apply IH. destruct Hs as (_ & Hb & Hc). split; [exact Hb|]. split; [exact P|exact Hc].
Qed.

Lemma brent_inside (x1 x2 : b64) : inb x1 -> inb x2 -> brent func' (x1 : num B64) x2 tol = brent func (x1 : num B64) x2 tol /\
  (forall b, brent func (x1 : num B64) x2 tol = Ret (true, b) -> inb b).
Proof.
  intros H1 H2. unfold brent. rewrite (Agree _ (proj1 H1) (proj2 H1)), (Agree _ (proj1 H2) (proj2 H2)).
  destruct (func x1) as [fa|]; cbn [bind]; [|split; [reflexivity|discriminate]].
  destruct (func x2) as [fb|]; cbn [bind]; [|split; [reflexivity|discriminate]].
  destruct (same_sign fa fb); [split; [reflexivity|discriminate]|].
  set (s := MkBst _ _ _ _ _ _ _ _). destruct (loop_inside BRENT_ITMAX s) as (E1 & E2).
  { repeat split; cbn; try apply H1; apply H2. }
  rewrite E1. split; [reflexivity|]. intros b. destruct (brent_loop func BRENT_ITMAX (tol : num B64) s) as [[r|]|]; cbn [bind]; try discriminate.
  intros E. inversion E; subst. apply E2. reflexivity.
Qed.
End Loop.

Lemma C61_lemma (func : num B64 -> res (num B64)) (x1 x2 tol : b64) :
  finite64 x1 = true -> finite64 x2 = true -> finite64 tol = true ->
  Rabs (B2R64 x1) <= 10 ^ 199 -> Rabs (B2R64 x2) <= 10 ^ 199 -> / 10 ^ 40 <= B2R64 tol <= 10 ^ 199 ->
  (forall b, brent func (x1 : num B64) x2 tol = Ret (true, b) -> finite64 b = true /\ Rmin (B2R64 x1) (B2R64 x2) <= B2R64 b <= Rmax (B2R64 x1) (B2R64 x2)) /\
  (forall func' : num B64 -> res (num B64),
     (forall x : b64, finite64 x = true -> Rmin (B2R64 x1) (B2R64 x2) <= B2R64 x <= Rmax (B2R64 x1) (B2R64 x2) -> func' x = func x) ->
     brent func' (x1 : num B64) x2 tol = brent func (x1 : num B64) x2 tol).
Proof.
  intros F1 F2 Ft B1 B2 Ht. apply Rabs_le_inv in B1. apply Rabs_le_inv in B2.
  assert (L : - 10 ^ 199 <= Rmin (B2R64 x1) (B2R64 x2)) by (apply Rmin_glb; lra).
  assert (H : Rmax (B2R64 x1) (B2R64 x2) <= 10 ^ 199) by (apply Rmax_lub; lra).
  assert (I1 : inb (Rmin (B2R64 x1) (B2R64 x2)) (Rmax (B2R64 x1) (B2R64 x2)) x1) by (split; [assumption|split; [apply Rmin_l|apply Rmax_l]]).
  assert (I2 : inb (Rmin (B2R64 x1) (B2R64 x2)) (Rmax (B2R64 x1) (B2R64 x2)) x2) by (split; [assumption|split; [apply Rmin_r|apply Rmax_r]]).
  split.
  - intros b. apply (brent_inside _ _ L H func func (fun _ _ _ => eq_refl) tol Ft Ht x1 x2 I1 I2).
  - intros func' A. apply (brent_inside _ _ L H func func' A tol Ft Ht x1 x2 I1 I2).
Qed.
