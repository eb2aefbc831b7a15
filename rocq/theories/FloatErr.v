(** * FloatErr: relative errors of binary64 operations *)
From Coq Require Import ZArith List Bool Reals Lra Lia Psatz.
From Flocq Require Import Core.Core Relative IEEE754.BinarySingleNaN.
From Verif Require Import Num XMath B64 B64Facts.
Open Scope R_scope.

(** half an ulp of 1: 2^-53 *)
Definition eps : R := / 9007199254740992.

(** the double [v] is finite and within relative error [e] of the real [r] *)
Definition Nr (v : b64) (r e : R) : Prop := finite64 v = true /\ Rabs (B2R64 v - r) <= e * Rabs r.
(** far from underflow and overflow *)
Definition mid (r : R) : Prop := / 10 ^ 60 <= Rabs r <= 10 ^ 60.

Lemma bpow_m1022 : bpow radix2 (-1022) <= / 10 ^ 60 / 2.
Proof.
  apply Rle_trans with (bpow radix2 (-300)); [apply bpow_le; lia|].
  change (-300)%Z with (- (300))%Z. rewrite bpow_opp, <- IZR_Zpower by lia.
  change (Zpower radix2 300) with (2 ^ 300)%Z.
  replace (/ 10 ^ 60 / 2) with (/ (IZR (2 * 10 ^ 60))).
  - apply Rinv_le; [apply IZR_lt; vm_compute; reflexivity|]. apply IZR_le. vm_compute. discriminate.
  - rewrite mult_IZR. replace (IZR (10 ^ 60)) with (10 ^ 60) by (rewrite (pow_IZR 10 60); reflexivity). field.
Qed.
Lemma bpow_1024 : 10 ^ 60 * 8 <= TOP.
Proof.
  apply Rle_trans with (bpow radix2 300); [|apply bpow_le; lia].
  rewrite <- IZR_Zpower by lia. change (Zpower radix2 300) with (2 ^ 300)%Z.
  rewrite (pow_IZR 10 60), <- mult_IZR. apply IZR_le. vm_compute. discriminate.
Qed.

Lemma eps_pos : 0 < eps.
Proof. unfold eps. lra. Qed.

Lemma rnd_rel t : bpow radix2 (-1022) <= Rabs t -> Rabs (rnd t - t) <= eps * Rabs t.
Proof.
  intros H. pose proof (relative_error_N_FLT radix2 (-1074) 53 eq_refl (fun x => negb (Z.even x)) t H) as E.
  change (FLT_exp (-1074) 53) with fexp64 in E.
  eapply Rle_trans; [exact E|]. right. f_equal. unfold eps. simpl. lra.
Qed.

(** the rounding step: [t] is the exact result of the operation on the computed operands *)
Lemma op_near v t r e e' : nan64 v = false -> xval v = rndc t -> Rabs (t - r) <= e * Rabs r -> 0 <= e <= 1 / 2 -> mid r ->
  (1 + e) * (1 + eps) <= 1 + e' -> Nr v r e'.
Proof.
  intros Nv Ev Ht He (M1 & M2) He'.
  assert (T1 : Rabs r / 2 <= Rabs t).
  { pose proof (Rabs_triang_inv r (r - t)) as X. replace (r - (r - t)) with t in X by lra.
    rewrite (Rabs_minus_sym r t) in X. pose proof (Rabs_pos r). nra. }
  assert (T2 : Rabs t <= (1 + e) * Rabs r).
  { pose proof (Rabs_triang (t - r) r) as X. replace (t - r + r) with t in X by lra. lra. }
  assert (P : 0 < / 10 ^ 60) by (apply Rinv_0_lt_compat, pow_lt; lra).
  assert (R1 : Rabs (rnd t - t) <= eps * Rabs t).
  { apply rnd_rel. pose proof bpow_m1022. lra. }
  assert (R2 : Rabs (rnd t) <= 10 ^ 60 * 4).
  { pose proof (Rabs_triang (rnd t - t) t) as X. replace (rnd t - t + t) with (rnd t) in X by lra.
    assert (eps <= 1) by (unfold eps; lra). pose proof (Rabs_pos t). nra. }
  pose proof bpow_1024 as BT. assert (P2 : 0 < 10 ^ 60) by (apply pow_lt; lra).
  unfold rndc in Ev. rewrite clamp_id in Ev by lra.
  assert (F : finite64 v = true) by (apply finite_of_xval; [assumption|rewrite Ev; lra]).
  split; [assumption|]. rewrite xval_finite in Ev by assumption. rewrite Ev.
  replace (rnd t - r) with ((rnd t - t) + (t - r)) by lra.
  eapply Rle_trans; [apply Rabs_triang|].
  assert (eps * Rabs t <= eps * ((1 + e) * Rabs r)) by (apply Rmult_le_compat_l; [left; apply eps_pos|assumption]).
  assert (Q : (eps * (1 + e) + e) * Rabs r <= e' * Rabs r) by (apply Rmult_le_compat_r; [apply Rabs_pos|lra]).
  lra.
Qed.

Lemma Nr_weaken v r e e' : Nr v r e -> e <= e' -> Nr v r e'.
Proof. intros (F & H) He. split; [assumption|]. eapply Rle_trans; [exact H|]. apply Rmult_le_compat_r; [apply Rabs_pos|assumption]. Qed.
Lemma Nr_self v : finite64 v = true -> Nr v (B2R64 v) 0.
Proof. intros F. split; [assumption|]. rewrite Rminus_eq_0, Rabs_R0. lra. Qed.
Lemma Nr_ofZ z : (Z.abs z <= 2 ^ 53)%Z -> Nr (b64_ofZ z) (IZR z) 0.
Proof. intros H. destruct (ofZ_exact z H) as (F & E). rewrite <- E. apply Nr_self. assumption. Qed.
Lemma Nr_opp v r e : Nr v r e -> Nr (b64_opp v) (- r) e.
Proof.
  intros (F & H). split; [rewrite finite_opp; assumption|].
  unfold b64_opp. rewrite B2R_Bopp, Rabs_Ropp. replace (- B2R64 v - - r) with (- (B2R64 v - r)) by lra. rewrite Rabs_Ropp. assumption.
Qed.

Lemma Nr_mult a b r s e1 e2 e : Nr a r e1 -> Nr b s e2 -> 0 <= e1 -> 0 <= e2 -> (1 + e1) * (1 + e2) <= 1 + 1 / 2 -> mid (r * s) ->
  (1 + e1) * (1 + e2) * (1 + eps) <= 1 + e -> Nr (b64_mult a b) (r * s) e.
Proof.
  intros (Fa & Ha) (Fb & Hb) P1 P2 HH M He. destruct (mult_xval a b Fa Fb) as (N & E).
  apply (op_near _ _ _ ((1 + e1) * (1 + e2) - 1) e N E); try assumption; try lra; try nra.
  rewrite Rabs_mult.
  replace (B2R64 a * B2R64 b - r * s) with ((B2R64 a - r) * (B2R64 b - s) + (B2R64 a - r) * s + r * (B2R64 b - s)) by ring.
  eapply Rle_trans; [apply Rabs_triang|]. eapply Rle_trans; [apply Rplus_le_compat_r, Rabs_triang|].
  rewrite !Rabs_mult. pose proof (Rabs_pos r). pose proof (Rabs_pos s). pose proof (Rabs_pos (B2R64 a - r)). pose proof (Rabs_pos (B2R64 b - s)).
  assert (Rabs (B2R64 a - r) * Rabs (B2R64 b - s) <= (e1 * Rabs r) * (e2 * Rabs s)) by (apply Rmult_le_compat; assumption).
  assert (Rabs (B2R64 a - r) * Rabs s <= (e1 * Rabs r) * Rabs s) by (apply Rmult_le_compat_r; assumption).
  assert (Rabs r * Rabs (B2R64 b - s) <= Rabs r * (e2 * Rabs s)) by (apply Rmult_le_compat_l; assumption).
  lra.
Qed.

Lemma Nr_div a b r s e1 e2 e : Nr a r e1 -> Nr b s e2 -> s <> 0 -> 0 <= e1 -> 0 <= e2 -> 1 + e1 <= (1 + 1 / 2) * (1 - e2) -> mid (r / s) ->
  (1 + e1) * (1 + eps) <= (1 + e) * (1 - e2) -> Nr (b64_div a b) (r / s) e.
Proof.
  intros (Fa & Ha) (Fb & Hb) Hs P1 P2 HH M He.
  assert (Hs0 : 0 < Rabs s) by (apply Rabs_pos_lt; assumption).
  assert (HB : (1 - e2) * Rabs s <= Rabs (B2R64 b)).
  { pose proof (Rabs_triang_inv s (s - B2R64 b)) as X. replace (s - (s - B2R64 b)) with (B2R64 b) in X by lra.
    rewrite (Rabs_minus_sym s) in X. lra. }
  assert (E2 : e2 < 1) by lra.
  assert (HB0 : 0 < Rabs (B2R64 b)) by nra.
  assert (Bn : B2R64 b <> 0).
  { intros C. rewrite C, Rabs_R0 in HB0. lra. }
  destruct (div_xval a b Fa Fb Bn) as (N & E).
  set (e0 := (e1 + e2) / (1 - e2)).
  assert (Q : 1 + e0 = (1 + e1) / (1 - e2)) by (unfold e0; field; lra).
  assert (Q1 : (1 + e1) / (1 - e2) <= 1 + 1 / 2).
  { apply Rmult_le_reg_r with (1 - e2); [lra|]. unfold Rdiv. rewrite (Rmult_assoc _ (/ _)), Rinv_l by lra. lra. }
  assert (Q0 : 0 <= e0).
  { unfold e0. apply Rmult_le_pos; [lra|]. left. apply Rinv_0_lt_compat. lra. }
  apply (op_near _ _ _ e0 e N E); try assumption; try lra.
  - assert (X : B2R64 a / B2R64 b - r / s = ((B2R64 a - r) * s - r * (B2R64 b - s)) / (B2R64 b * s)) by (field; split; assumption).
    rewrite X. unfold Rdiv. rewrite (Rabs_mult r), Rabs_inv, Rabs_mult, Rabs_inv, (Rabs_mult (B2R64 b)).
    apply Rmult_le_reg_r with (Rabs (B2R64 b) * Rabs s); [nra|].
    rewrite Rmult_assoc, Rinv_l, Rmult_1_r by nra.
    replace (e0 * (Rabs r * / Rabs s) * (Rabs (B2R64 b) * Rabs s)) with (e0 * Rabs r * Rabs (B2R64 b)) by (field; lra).
    assert (Y : Rabs ((B2R64 a - r) * s - r * (B2R64 b - s)) <= (e1 + e2) * (Rabs r * Rabs s)).
    { eapply Rle_trans; [apply Rabs_triang|]. rewrite Rabs_Ropp, !Rabs_mult. pose proof (Rabs_pos r).
      assert (Rabs (B2R64 a - r) * Rabs s <= (e1 * Rabs r) * Rabs s) by (apply Rmult_le_compat_r; lra).
      assert (Rabs r * Rabs (B2R64 b - s) <= Rabs r * (e2 * Rabs s)) by (apply Rmult_le_compat_l; assumption).
      lra. }
    eapply Rle_trans; [exact Y|].
    replace ((e1 + e2) * (Rabs r * Rabs s)) with (e0 * Rabs r * ((1 - e2) * Rabs s)) by (unfold e0; field; lra).
    apply Rmult_le_compat_l; [|assumption]. apply Rmult_le_pos; [assumption|apply Rabs_pos].
  - rewrite Q. apply Rmult_le_reg_r with (1 - e2); [lra|].
    replace ((1 + e1) / (1 - e2) * (1 + eps) * (1 - e2)) with ((1 + e1) * (1 + eps)) by (field; lra). lra.
Qed.

Lemma Nr_plus a b r s e1 e2 e0 e : Nr a r e1 -> Nr b s e2 -> 0 <= e0 <= 1 / 2 -> e1 * Rabs r + e2 * Rabs s <= e0 * Rabs (r + s) -> mid (r + s) ->
  (1 + e0) * (1 + eps) <= 1 + e -> Nr (b64_plus a b) (r + s) e.
Proof.
  intros (Fa & Ha) (Fb & Hb) P H M He. destruct (plus_xval a b Fa Fb) as (N & E).
  apply (op_near _ _ _ e0 e N E); try assumption.
  replace (B2R64 a + B2R64 b - (r + s)) with ((B2R64 a - r) + (B2R64 b - s)) by lra.
  eapply Rle_trans; [apply Rabs_triang|]. lra.
Qed.
Lemma Nr_minus a b r s e1 e2 e0 e : Nr a r e1 -> Nr b s e2 -> 0 <= e0 <= 1 / 2 -> e1 * Rabs r + e2 * Rabs s <= e0 * Rabs (r - s) -> mid (r - s) ->
  (1 + e0) * (1 + eps) <= 1 + e -> Nr (b64_minus a b) (r - s) e.
Proof.
  intros (Fa & Ha) (Fb & Hb) P H M He. destruct (minus_xval a b Fa Fb) as (N & E).
  apply (op_near _ _ _ e0 e N E); try assumption.
  replace (B2R64 a - B2R64 b - (r - s)) with ((B2R64 a - r) - (B2R64 b - s)) by lra.
  eapply Rle_trans; [apply Rabs_triang|]. rewrite Rabs_Ropp. lra.
Qed.

Lemma mid_bounds r : / 10 ^ 50 <= r <= 10 ^ 50 -> mid r.
Proof.
  intros H. assert (0 < / 10 ^ 50) by (apply Rinv_0_lt_compat, pow_lt; lra).
  unfold mid. rewrite Rabs_pos_eq by lra. split.
  - apply Rle_trans with (/ 10 ^ 50); [|lra]. apply Rinv_le; [apply pow_lt; lra|]. apply Rle_pow; [lra|lia].
  - apply Rle_trans with (10 ^ 50); [lra|]. apply Rle_pow; [lra|lia].
Qed.
Lemma mid_opp r : mid r -> mid (- r).
Proof. unfold mid. rewrite Rabs_Ropp. auto. Qed.
