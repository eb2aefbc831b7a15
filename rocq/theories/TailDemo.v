(** * TailDemo: corollaries and witnesses for C85-C87 *)
From Coq Require Import ZArith List Bool Reals Lra Lia.
From Flocq Require Import Core.Core IEEE754.BinarySingleNaN.
From Verif Require Import Num XMath Ubend Session Peaks Brent Estimator Tail P2 Spot B64 RNum Spec B64Facts FloatErr FloatUtilsLemmas AccSpec ExpAcc PowAcc LogMono ProbBounds ExpMono MonoSpec TailMono Demo AccDemo MonoDemo.
Import ListNotations.
Open Scope R_scope.

Lemma exp_order (x y : b64) : finite64 x = true -> finite64 y = true -> B2R64 x <= B2R64 y ->
  (-33 <= B2R64 x -> B2R64 y <= 33 -> exists u v : b64, xexp (N := B64) musl_utils x = Ret u /\ xexp (N := B64) musl_utils y = Ret v /\ b64_leb u v = true) /\
  (-708 <= B2R64 x -> B2R64 y <= 708 -> B2R64 x + 1 / 10 ^ 12 <= B2R64 y ->
   exists u v : b64, xexp (N := B64) musl_utils x = Ret u /\ xexp (N := B64) musl_utils y = Ret v /\ b64_ltb u v = true).
Proof.
  intros Fx Fy H. split.
  - intros A B. destruct (xexp_mono x y Fx Fy A H B) as (u & v & Eu & Ev & Fu & Fv & _ & L). exists u, v. split; [exact Eu|]. split; [exact Ev|]. apply leb_of; assumption.
  - intros A B S. destruct (xexp_accuracy x Fx ltac:(apply Rabs_le; lra)) as (u & Eu & Fu & Au). destruct (xexp_accuracy y Fy ltac:(apply Rabs_le; lra)) as (v & Ev & Fv & Av).
    exists u, v. split; [exact Eu|]. split; [exact Ev|]. rewrite ltb_xval, !xval_finite by (try apply finite_not_nan; assumption). apply Rlt_bool_true.
    assert (Bx : Rabs (B2R64 x) <= 708) by (apply Rabs_le; lra). assert (By : Rabs (B2R64 y) <= 708) by (apply Rabs_le; lra).
    pose proof (exp_pos (B2R64 x)) as Px. set (ex := exp (B2R64 x)) in *. set (ey := exp (B2R64 y)) in *.
    assert (R : ex * (1 + 1 / 10 ^ 12) <= ey).
    { unfold ey. replace (B2R64 y) with (B2R64 x + (B2R64 y - B2R64 x)) by lra. rewrite exp_plus. fold ex. apply Rmult_le_compat_l; [lra|]. pose proof (exp_ineq1_le (B2R64 y - B2R64 x)). lra. }
    assert (Eux : (15 / 10 ^ 17 * Rabs (B2R64 x) + 3 / 10 ^ 15) * ex <= 1 / 10 ^ 12 / 8 * ex) by (apply Rmult_le_compat_r; lra).
    assert (Evy : (15 / 10 ^ 17 * Rabs (B2R64 y) + 3 / 10 ^ 15) * ey <= 1 / 10 ^ 12 / 8 * ey) by (apply Rmult_le_compat_r; lra).
    apply Rabs_le_inv in Au, Av. lra.
Qed.

Lemma dy_value m k (M e : positive) : B2SF (dy m k) = SpecFloat.S754_finite false M (Z.neg e) -> finite64 (dy m k) = true /\ B2R64 (dy m k) = IZR (Zpos M) / IZR (2 ^ Zpos e).
Proof.
  intros E. destruct (dy m k) as [s|s| |s m' e' X]; try discriminate. injection E as -> -> ->. split; [reflexivity|]. unfold B2R64, B2R, F2R. cbn [Fnum Fexp cond_Zopp]. reflexivity.
Qed.
Lemma v128 : finite64 (dy 1 7) = true /\ B2R64 (dy 1 7) = 1 / 128.
Proof. destruct (dy_value 1 7 4503599627370496 59) as (F & ->); [vm_compute; reflexivity|]. split; [exact F|]. simpl Z.pow. lra. Qed.
Lemma v64 : finite64 (dy 1 6) = true /\ B2R64 (dy 1 6) = 1 / 64.
Proof. destruct (dy_value 1 6 4503599627370496 58) as (F & ->); [vm_compute; reflexivity|]. split; [exact F|]. simpl Z.pow. lra. Qed.

Lemma ln_small x : 1 / 2 <= x <= 2 -> Rabs (ln x) <= 1.
Proof.
  intros H. assert (U : forall y, 0 < y -> ln y <= y - 1). { intros y P. pose proof (exp_ineq1_le (ln y)) as E. rewrite exp_ln in E by exact P. lra. }
  pose proof (U x ltac:(lra)). assert (0 < / x) by (apply Rinv_0_lt_compat; lra). pose proof (U (/ x) ltac:(lra)) as V. rewrite ln_Rinv in V by lra.
  assert (/ x <= 2). { rewrite <- (Rinv_inv 2). apply Rinv_le; lra. } apply Rabs_le. lra.
Qed.
Lemma e200 : 20 <= 10 ^ 200.
Proof. apply Rle_trans with (10 ^ 2); [lra|apply Rle_pow; [lra|lia]]. Qed.
Lemma demo_risk g q : relative_risk (acc_demo true g) q = 64 * q.
Proof. unfold relative_risk. cbn [acc_demo s_Nt s_n]. lra. Qed.
Lemma demo_range q : 1 / 128 <= q <= 1 / 64 -> quantile_order_range (acc_demo true (dy 1 1)) 10 2 (1 / 2) q.
Proof.
  intros H. unfold quantile_order_range, usual_range. rewrite demo_risk. pose proof e200. pose proof (ln_small (64 * q) ltac:(lra)) as L.
  assert (P14 : / 10 ^ 14 <= 1 / 10) by (simpl; lra).
  assert (A : Rabs (1 / 2 * ln (64 * q)) <= 1) by (rewrite Rabs_mult, (Rabs_pos_eq (1 / 2)) by lra; lra).
  rewrite (Rabs_pos_eq 10), (Rabs_pos_eq (1 / 2)) by lra. repeat split; try lra.
Qed.
Lemma demo_prange z : 10 <= z <= 12 -> probability_order_range 10 z 2 (1 / 2) (1 * (z - 10)).
Proof.
  intros H. unfold probability_order_range. pose proof e200. set (a := 1 + 1 / 2 * (1 * (z - 10)) / 2). assert (B : 1 <= a <= 3 / 2) by (unfold a; lra).
  pose proof (ln_small a ltac:(lra)) as L. rewrite (Rabs_pos_eq 10), (Rabs_pos_eq z) by lra. repeat split; try lra. right. rewrite (Rabs_pos_eq (1 / 2)) by lra. repeat split; try lra.
  unfold Rdiv. rewrite Rabs_mult, (Rabs_pos_eq (/ (1 * / 2))) by lra. lra.
Qed.

(** the double before 1/2 *)
Definition before_half : b64 := @B754_finite 53 1024 false 9007199254740991 (-54) eq_refl.
Lemma before_half_value : 1 / 4 <= B2R64 before_half <= 1 / 2.
Proof. unfold before_half, B2R64, B2R, F2R. simpl. lra. Qed.
Definition gt_res (r r' : res b64) : bool := match r, r' with Ret v, Ret v' => b64_ltb v v' | _, _ => false end.
Lemma quantile_rises : ~ (forall (s : spot B64) et sigma gamma (q q' v v' : b64),
  finite_detector s et 1 sigma gamma -> is_finite q = true -> is_finite q' = true -> B2R q <= B2R q' -> usual_range s et sigma gamma (B2R q) -> usual_range s et sigma gamma (B2R q') ->
  spot_quantile (c_math musl_utils) s q = Ret v -> spot_quantile (c_math musl_utils) s q' = Ret v' -> b64_leb v' v = true).
Proof.
  intros H. assert (C : gt_res (spot_quantile cm (acc_demo true (d 0)) before_half) (spot_quantile cm (acc_demo true (d 0)) (dy 1 1)) = true) by (vm_compute; reflexivity).
  destruct half_value as (Fh & Eh). pose proof before_half_value as B.
  assert (U : forall q, 1 / 4 <= q <= 1 / 2 -> usual_range (acc_demo true (d 0)) 10 2 0 q).
  { intros q Hq. unfold usual_range. pose proof e200. rewrite Rmult_0_l, Rabs_R0, (Rabs_pos_eq 10) by lra. repeat split; try lra. }
  unfold gt_res in C. destruct (spot_quantile cm (acc_demo true (d 0)) before_half) as [v|] eqn:E; [|discriminate C]. destruct (spot_quantile cm (acc_demo true (d 0)) (dy 1 1)) as [v'|] eqn:E'; [|discriminate C].
  assert (X : b64_leb v' v = true).
  { apply (H (acc_demo true (d 0)) 10 2 0 before_half (dy 1 1)); try assumption; try reflexivity.
    - apply (acc_demo_finite true); reflexivity.
    - fold B2R64. rewrite Eh. lra.
    - apply U. exact B.
    - apply U. fold B2R64. rewrite Eh. lra. }
  assert (N : nan64 v = false /\ nan64 v' = false). { destruct v as [s|s| |s m e P], v' as [s'|s'| |s' m' e' P']; try discriminate C; split; reflexivity. }
  rewrite ltb_xval in C by apply N. rewrite leb_xval in X by apply N. destruct (Rlt_bool_spec (xval v) (xval v')); [|discriminate C]. destruct (Rle_bool_spec (xval v') (xval v)); [lra|discriminate X].
Qed.
