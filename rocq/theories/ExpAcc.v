(** * Lemmas: accuracy and domain of xexp (C30) *)
From Coq Require Import ZArith List Bool Reals Lra Lia Psatz.
From Flocq Require Import Core.Core IEEE754.BinarySingleNaN.
From Flocq Require Mult_error.
From Verif Require Import Num XMath B64 RNum B64Facts FloatErr FloatUtilsLemmas LogExact LogAcc ExpExact ExpB64.
Open Scope R_scope.

(** ** The constant *)
Definition L2v : b64 := LOG2 (N := B64).
Lemma L2_value : finite64 L2v = true /\ B2R64 L2v = 6243314768165359 / 9007199254740992.
Proof.
  assert (E : B2SF L2v = SpecFloat.S754_finite false 0x162e42fefa39ef (-53)) by (vm_compute; reflexivity).
  destruct L2v as [s|s| |s m e X]; try discriminate. injection E as -> -> ->.
  split; [reflexivity|]. unfold B2R, F2R. cbn [Fnum Fexp cond_Zopp].
  replace (bpow radix2 (-53)) with (/ 9007199254740992) by (simpl; lra). lra.
Qed.
Lemma lrat_at_3_4 : lrat (warg (3 / 4)) = - (2573316322805999 / 8945000642114460).
Proof.
  replace (warg (3 / 4)) with (- (1 / 7)) by (unfold warg; field).
  unfold lrat. unfold q1, q2, q3, q4, q5, q6, q7, q8, q9, q10, q11. field.
Qed.
Lemma lrat_at_2_3 : lrat (warg (2 / 3)) = - (16996940948227 / 41919614310420).
Proof.
  replace (warg (2 / 3)) with (- (1 / 5)) by (unfold warg; field).
  unfold lrat. unfold q1, q2, q3, q4, q5, q6, q7, q8, q9, q10, q11. field.
Qed.
Lemma ln2_sharp : 693147180559945309415 / 10 ^ 21 <= ln 2 <= 693147180559945309420 / 10 ^ 21.
Proof.
  destruct (cf_third (3 / 4) ltac:(lra)) as ((A1 & _) & A2). destruct (cf_third (2 / 3) ltac:(lra)) as ((B1 & _) & B2).
  replace (- warg (3 / 4)) with (1 / 7) in A2 by (unfold warg; field). replace (- warg (2 / 3)) with (1 / 5) in B2 by (unfold warg; field).
  rewrite lrat_at_3_4 in A1, A2. rewrite lrat_at_2_3 in B1, B2.
  assert (E : ln 2 = - (ln (3 / 4) + ln (2 / 3))).
  { rewrite <- ln_mult by lra. rewrite <- ln_Rinv by lra. f_equal. field. }
  rewrite E. lra.
Qed.
Lemma L2_error : Rabs (B2R64 L2v - ln 2) <= 31 / 100 * eps * ln 2.
Proof. destruct L2_value as (_ & ->). pose proof ln2_sharp. unfold eps. apply Rabs_le. lra. Qed.
Lemma L2_range : 6931471 / 10 ^ 7 <= B2R64 L2v <= 6931472 / 10 ^ 7.
Proof. destruct L2_value as (_ & ->). lra. Qed.

(** ** Truncation *)
Lemma trunc_finite (q : b64) : finite64 q = true -> 0 <= B2R64 q ->
  exists k, b64_trunc q = Some k /\ (0 <= k)%Z /\ IZR k <= B2R64 q < IZR k + 1.
Proof.
  intros F P. unfold b64_trunc. rewrite F. exists (Btrunc q). split; [reflexivity|].
  assert (E : Btrunc q = Zfloor (B2R64 q)).
  { apply eq_IZR. rewrite (Btrunc_correct 53 1024 eq_refl). unfold round, scaled_mantissa, cexp, FIX_exp, F2R. cbn [Fnum Fexp Z.opp].
    change (bpow radix2 0) with 1. rewrite !Rmult_1_r. rewrite Ztrunc_floor by assumption. reflexivity. }
  rewrite E. split.
  - rewrite <- (Zfloor_IZR 0). apply Zfloor_le. assumption.
  - split; [apply Zfloor_lb|apply Zfloor_ub].
Qed.

(** ** Argument reduction *)
Section Reduction.
Variable x : b64.
Hypothesis Fx : finite64 x = true.
Let X : R := B2R64 x.
Let L : R := B2R64 L2v.
Hypothesis H1 : L <= X.
Hypothesis H2 : X <= 10 ^ 10.
Lemma quotient : exists q, b64_div x L2v = q /\ finite64 q = true /\ (1 - eps) * X <= B2R64 q * L <= (1 + eps) * X.
Proof.
  destruct L2_value as (FL & _). pose proof L2_range as RL. fold L in RL.
  assert (Q1 : 1 <= X / L). { apply Rmult_le_reg_r with L; [lra|]. unfold Rdiv. rewrite Rmult_assoc, Rinv_l by lra. lra. }
  assert (Q2 : X / L <= 10 ^ 11). { apply Rmult_le_reg_r with L; [lra|]. unfold Rdiv. rewrite Rmult_assoc, Rinv_l by lra. lra. }
  destruct (Nr_div x L2v X L 0 0 eps) as (Fq & Nq); [apply Nr_self; assumption|apply Nr_self; assumption|lra|lra|lra|lra|apply mid_bounds; lra|lra|].
  exists (b64_div x L2v). split; [reflexivity|]. split; [assumption|]. rewrite (Rabs_pos_eq (X / L)) in Nq by lra. apply Rabs_le_inv in Nq.
  assert (E : X = X / L * L) by (field; lra). set (Q0 := X / L) in *.
  replace ((1 - eps) * X) with ((1 - eps) * Q0 * L) by (clearbody Q0; rewrite E; ring).
  replace ((1 + eps) * X) with ((1 + eps) * Q0 * L) by (clearbody Q0; rewrite E; ring).
  split; apply Rmult_le_compat_r; lra.
Qed.
Lemma reduction : exists k, b64_trunc (b64_div x L2v) = Some k /\ (0 <= k)%Z /\
  IZR k * L <= (1 + eps) * X /\ (1 - eps) * X < (IZR k + 1) * L /\
  (IZR k <= 2 ^ 33 -> let r := b64_minus x (b64_mult L2v (b64_ofZ k)) in
    finite64 r = true /\ - (1 / 1000) <= B2R64 r <= 7 / 10 /\ Rabs (B2R64 r - (X - IZR k * ln 2)) <= 1311 / 1000 * eps * X + 71 / 100 * eps).
Proof.
  destruct L2_value as (FL & _). pose proof L2_range as RL. fold L in RL.
  destruct quotient as (q & -> & Fq & Q). pose proof eps_pos as Pe.
  assert (Pq : 0 <= B2R64 q).
  { destruct (Rle_lt_dec 0 (B2R64 q)); [assumption|]. exfalso.
    assert (B2R64 q * L < 0) by nra. assert (0 <= (1 - eps) * X) by (apply Rmult_le_pos; unfold eps; lra). lra. }
  destruct (trunc_finite q Fq Pq) as (k & E & K0 & K1 & K2). exists k. split; [exact E|]. split; [exact K0|].
  assert (Kr : 0 <= IZR k) by (apply IZR_le; assumption).
  assert (B1 : IZR k * L <= (1 + eps) * X) by (eapply Rle_trans; [|apply Q]; apply Rmult_le_compat_r; lra).
  assert (B2 : (1 - eps) * X < (IZR k + 1) * L) by (eapply Rle_lt_trans; [apply Q|]; apply Rmult_lt_compat_r; lra).
  split; [exact B1|]. split; [exact B2|]. intros HK. cbv zeta.
  assert (HKz : (k <= 2 ^ 33)%Z) by (apply le_IZR; simpl (2 ^ 33)%Z; lra).
  assert (XB : eps * X <= 2 / 10 ^ 6).
  { apply Rle_trans with (eps * 10 ^ 10); [apply Rmult_le_compat_l; lra|]. unfold eps. lra. }
  destruct (ofZ_exact k ltac:(lia)) as (Fk & Ek).
  destruct (mult_xval L2v (b64_ofZ k) FL Fk) as (Np & Ep). fold L in Ep. rewrite Ek in Ep. rewrite (Rmult_comm L) in Ep.
  assert (KL : 0 <= IZR k * L <= 10 ^ 11).
  { split; [apply Rmult_le_pos; lra|]. lra. }
  pose proof (rnd_abs (IZR k * L)) as Rp. rewrite (Rabs_pos_eq (IZR k * L)) in Rp by lra.
  assert (EKL : eps * (IZR k * L) <= 10001 / 10000 * (eps * X)).
  { apply Rle_trans with (eps * ((1 + eps) * X)); [apply Rmult_le_compat_l; lra|].
    replace (eps * ((1 + eps) * X)) with ((1 + eps) * (eps * X)) by ring. apply Rmult_le_compat_r; [apply Rmult_le_pos; lra|]. unfold eps. lra. }
  assert (P59 : 0 < / 10 ^ 59 <= / 10 ^ 40) by lra.
  assert (E40 : / 10 ^ 40 <= / 10 ^ 20 * eps) by (unfold eps; lra).
  assert (E1 : eps <= 10 ^ 10 * / 10 ^ 20) by (unfold eps; lra).
  assert (Rp' : Rabs (rnd (IZR k * L)) < TOP).
  { pose proof (Rabs_triang (rnd (IZR k * L) - IZR k * L) (IZR k * L)) as T. replace (rnd (IZR k * L) - IZR k * L + IZR k * L) with (rnd (IZR k * L)) in T by lra.
    rewrite (Rabs_pos_eq (IZR k * L)) in T by lra. pose proof bpow_1024. lra. }
  unfold rndc in Ep. rewrite clamp_id in Ep by lra. set (p := b64_mult L2v (b64_ofZ k)) in *.
  assert (Fp : finite64 p = true) by (apply finite_of_xval; [assumption|rewrite Ep; assumption]).
  rewrite xval_finite in Ep by assumption. rewrite <- Ep in Rp.
  destruct (minus_xval x p Fx Fp) as (Nr' & Er). fold X in Er.
  set (t := X - B2R64 p) in *.
  assert (T1 : Rabs (t - (X - IZR k * L)) <= 10001 / 10000 * (eps * X) + / 10 ^ 40).
  { replace (t - (X - IZR k * L)) with (- (B2R64 p - IZR k * L)) by (unfold t; lra). rewrite Rabs_Ropp. lra. }
  assert (T2 : - (22 / 10) * (eps * X) - / 10 ^ 40 <= t <= L + 22 / 10 * (eps * X) + / 10 ^ 40).
  { apply Rabs_le_inv in T1. lra. }
  assert (T3 : Rabs t <= 7 / 10) by (apply Rabs_le; lra).
  pose proof (rnd_abs t) as Rt.
  assert (T4 : Rabs (rnd t - t) <= 705 / 1000 * eps).
  { eapply Rle_trans; [exact Rt|]. assert (eps * Rabs t <= eps * (7 / 10)) by (apply Rmult_le_compat_l; lra). lra. }
  assert (Ft : Rabs (rnd t) < TOP).
  { pose proof (Rabs_triang (rnd t - t) t) as T. replace (rnd t - t + t) with (rnd t) in T by lra. pose proof bpow_1024. lra. }
  unfold rndc in Er. rewrite clamp_id in Er by lra. set (r := b64_minus x p) in *.
  assert (Fr : finite64 r = true) by (apply finite_of_xval; [assumption|rewrite Er; assumption]).
  rewrite xval_finite in Er by assumption. split; [exact Fr|]. rewrite Er.
  split; [apply Rabs_le_inv in T4; lra|].
  (* the error on LOG2 *)
  assert (T5 : Rabs (IZR k * L - IZR k * ln 2) <= 3101 / 10000 * (eps * X)).
  { replace (IZR k * L - IZR k * ln 2) with (IZR k * (L - ln 2)) by ring. rewrite Rabs_mult, (Rabs_pos_eq (IZR k)) by assumption.
    pose proof L2_error as Le. fold L in Le. pose proof ln2_sharp as S.
    assert (Rabs (L - ln 2) <= 31001 / 100000 * eps * L).
    { eapply Rle_trans; [exact Le|]. replace (31001 / 100000 * eps * L) with (eps * (31001 / 100000 * L)) by ring.
      replace (31 / 100 * eps * ln 2) with (eps * (31 / 100 * ln 2)) by ring. apply Rmult_le_compat_l; [lra|].
      unfold L. destruct L2_value as (_ & ->). lra. }
    apply Rle_trans with (IZR k * (31001 / 100000 * eps * L)); [apply Rmult_le_compat_l; assumption|].
    replace (IZR k * (31001 / 100000 * eps * L)) with (31001 / 100000 * (eps * (IZR k * L))) by ring. lra. }
  replace (rnd t - (X - IZR k * ln 2)) with ((rnd t - t) + (t - (X - IZR k * L)) + (- (IZR k * L - IZR k * ln 2))) by lra.
  eapply Rle_trans; [apply Rabs_triang|]. rewrite Rabs_Ropp.
  eapply Rle_trans; [apply Rplus_le_compat_r; apply Rabs_triang|]. lra.
Qed.
End Reduction.

(** ** Non-negative arguments *)
Lemma body_nonneg fu rec (x : b64) : finite64 x = true -> 0 <= B2R64 x ->
  xexp_body (N := B64) fu rec x =
    if b64_ltb L2v x then
      (k <- to_uint32 (N := B64) (b64_div x L2v) ;;
       Ret (fu_ldexp fu (exp_cf_6 (N := B64) (b64_minus x (b64_mult L2v (b64_ofZ k)))) (to_int32 k)))
    else Ret (exp_cf_6 (N := B64) x).
Proof.
  intros F P. unfold xexp_body. rewrite is_nan_b64, (finite_not_nan x F).
  assert (L0 : b64_ltb x (b64_ofZ 0) = false).
  { rewrite ltb_xval, xval_zero, xval_finite by (try reflexivity; try apply finite_not_nan; assumption). apply Rlt_bool_false. lra. }
  change (@nlt B64 x (nofZ 0)) with (b64_ltb x (b64_ofZ 0)). rewrite L0. reflexivity.
Qed.

Lemma ltb_L2 (x : b64) : finite64 x = true -> b64_ltb L2v x = Rlt_bool (B2R64 L2v) (B2R64 x).
Proof.
  intros F. destruct L2_value as (FL & _). rewrite ltb_xval, !xval_finite by (try apply finite_not_nan; assumption). reflexivity.
Qed.

Lemma to_uint32_ret (q : b64) k : b64_trunc q = Some k -> (0 <= k < 2 ^ 32)%Z -> to_uint32 (N := B64) q = Ret k.
Proof.
  intros E H. unfold to_uint32. change (@ntrunc B64 q) with (b64_trunc q). rewrite E.
  replace (Z.leb 0 k) with true by (symmetry; apply Z.leb_le; lia). replace (Z.ltb k (2 ^ 32)) with true by (symmetry; apply Z.ltb_lt; lia). reflexivity.
Qed.
Lemma to_uint32_undef (q : b64) : (forall k, b64_trunc q = Some k -> (2 ^ 32 <= k)%Z) -> to_uint32 (N := B64) q = Undef CastRange.
Proof.
  intros E. unfold to_uint32. change (@ntrunc B64 q) with (b64_trunc q). destruct (b64_trunc q) as [k|]; [|reflexivity].
  specialize (E k eq_refl). replace (Z.ltb k (2 ^ 32)) with false by (symmetry; apply Z.ltb_ge; lia). rewrite andb_false_r. reflexivity.
Qed.

(** the shape of the result *)
Lemma exp_ready fu rec (x : b64) : finite64 x = true -> B2R64 L2v < B2R64 x <= 2977044471 ->
  exists k c, (0 <= k < 2 ^ 32)%Z /\ xexp_body (N := B64) fu rec x = Ret (fu_ldexp fu c (to_int32 k)) /\
    IZR k * B2R64 L2v <= (1 + eps) * B2R64 x /\ (1 - eps) * B2R64 x < (IZR k + 1) * B2R64 L2v /\
    exists r, - (1 / 1000) <= r <= 7 / 10 /\ Rabs (r - (B2R64 x - IZR k * ln 2)) <= 1311 / 1000 * eps * B2R64 x + 71 / 100 * eps /\
      finite64 c = true /\ Rabs (B2R64 c - exp r) <= 27 / 10 ^ 16 * exp r.
Proof.
  intros F (H1 & H2). pose proof L2_range as RL.
  destruct (reduction x F ltac:(lra) ltac:(lra)) as (k & Ek & K0 & K1 & K2 & K3).
  assert (HK : IZR k < 4294967296).
  { apply Rmult_lt_reg_r with (B2R64 L2v); [lra|]. eapply Rle_lt_trans; [exact K1|].
    apply Rle_lt_trans with ((1 + eps) * 2977044471); [apply Rmult_le_compat_l; [unfold eps; lra|assumption]|].
    destruct L2_value as (_ & ->). unfold eps. lra. }
  assert (HKz : (k < 2 ^ 32)%Z) by (apply lt_IZR; simpl (2 ^ 32)%Z; lra).
  destruct (K3 ltac:(lra)) as (Fr & Rr & Er). cbv zeta in *. set (r := b64_minus x (b64_mult L2v (b64_ofZ k))) in *.
  destruct (exp_cf_b64 r Fr Rr) as (Fc & Ac).
  exists k, (exp_cf_6 (N := B64) r). split; [lia|]. split.
  { rewrite (body_nonneg fu rec x F) by lra. rewrite ltb_L2, Rlt_bool_true by assumption.
    rewrite (to_uint32_ret _ k Ek ltac:(lia)). reflexivity. }
  split; [exact K1|]. split; [exact K2|]. exists (B2R64 r). auto.
Qed.

Lemma pow2_exp k : bpow radix2 k = exp (IZR k * ln 2).
Proof. rewrite bpow_powerRZ. change (IZR radix2) with 2. rewrite powerRZ_Rpower by lra. reflexivity. Qed.

Lemma exp_near d D : Rabs d <= D -> D <= 1 / 10 ^ 9 -> Rabs (exp d - 1) <= D + 2 * (D * D).
Proof.
  intros H HD. pose proof (Rabs_pos d). apply Rabs_le_inv in H. pose proof (exp_ineq1_le d). assert (0 <= D * D) by nra.
  apply Rabs_le. split; [lra|]. apply Rle_trans with (exp D - 1).
  - pose proof (exp_le_compat d D). lra.
  - pose proof (exp_small D). lra.
Qed.

(** recombination *)
Lemma recombine C r X k th D : Rabs (C - exp r) <= th * exp r -> Rabs (r - (X - IZR k * ln 2)) <= D -> D <= 1 / 10 ^ 9 -> 0 <= th <= 1 / 10 ^ 9 ->
  Rabs (C * bpow radix2 k - exp X) <= (th + D + 1 / 10 ^ 8 * (D + th)) * exp X.
Proof.
  intros HC HD D1 Ht. rewrite pow2_exp. set (d := r - (X - IZR k * ln 2)) in *.
  assert (D0 : 0 <= D) by (pose proof (Rabs_pos d); lra).
  assert (E : exp r * exp (IZR k * ln 2) = exp X * exp d) by (rewrite <- !exp_plus; f_equal; unfold d; lra).
  pose proof (exp_near d D HD D1) as N. pose proof (exp_pos X) as PX. pose proof (exp_pos (IZR k * ln 2)) as PK. pose proof (exp_pos d) as Pd.
  replace (C * exp (IZR k * ln 2) - exp X) with ((C - exp r) * exp (IZR k * ln 2) + exp X * (exp d - 1)) by lra.
  eapply Rle_trans; [apply Rabs_triang|]. rewrite !Rabs_mult, (Rabs_pos_eq (exp (IZR k * ln 2))), (Rabs_pos_eq (exp X)) by lra.
  assert (A : Rabs (C - exp r) * exp (IZR k * ln 2) <= th * (exp X * exp d)).
  { rewrite <- E, <- Rmult_assoc. apply Rmult_le_compat_r; lra. }
  assert (DD : D * D <= 1 / 10 ^ 9 * D) by (apply Rmult_le_compat_r; lra).
  assert (B : exp d <= 1 + 3 / 10 ^ 9) by (apply Rabs_le_inv in N; lra).
  assert (A2 : th * (exp X * exp d) <= th * (exp X * (1 + 3 / 10 ^ 9))).
  { apply Rmult_le_compat_l; [lra|]. apply Rmult_le_compat_l; lra. }
  assert (A3 : exp X * Rabs (exp d - 1) <= exp X * (D + 2 * (D * D))) by (apply Rmult_le_compat_l; lra).
  assert (A4 : exp X * (D + 2 * (D * D)) <= exp X * (D + 2 / 10 ^ 9 * D)) by (apply Rmult_le_compat_l; lra).
  eapply Rle_trans; [apply Rplus_le_compat; [eapply Rle_trans; [exact A|exact A2]|eapply Rle_trans; [exact A3|exact A4]]|].
  replace (th * (exp X * (1 + 3 / 10 ^ 9)) + exp X * (D + 2 / 10 ^ 9 * D)) with ((th * (1 + 3 / 10 ^ 9) + (D + 2 / 10 ^ 9 * D)) * exp X) by ring.
  apply Rmult_le_compat_r; lra.
Qed.

Lemma format_scaled (c : b64) k : finite64 c = true -> 1 / 2 <= B2R64 c -> (0 <= k)%Z -> rnd (B2R64 c * bpow radix2 k) = B2R64 c * bpow radix2 k.
Proof.
  intros F H K. apply round_generic; [apply valid_rnd_N|].
  apply (Mult_error.mult_bpow_exact_FLT radix2 (-1074) 53); [exact (generic_format_B2R 53 1024 c)|].
  assert (0 <= mag radix2 (B2R64 c))%Z.
  { apply mag_ge_bpow. rewrite Rabs_pos_eq by lra. replace (bpow radix2 (0 - 1)) with (1 / 2) by (simpl; lra). assumption. }
  lia.
Qed.

Lemma pexp_accuracy rec (x : b64) : finite64 x = true -> 0 <= B2R64 x <= 709 ->
  exists v, xexp_body (N := B64) musl_utils rec x = Ret v /\ finite64 v = true /\
    Rabs (B2R64 v - exp (B2R64 x)) <= (147 / 10 ^ 18 * B2R64 x + 28 / 10 ^ 16) * exp (B2R64 x).
Proof.
  intros F H. pose proof L2_range as RL.
  destruct (Rle_lt_dec (B2R64 x) (B2R64 L2v)) as [C|C].
  - destruct (exp_cf_b64 x F ltac:(lra)) as (Fc & Ac). exists (exp_cf_6 (N := B64) x).
    rewrite (body_nonneg _ rec x F) by lra. rewrite ltb_L2, Rlt_bool_false by assumption.
    split; [reflexivity|]. split; [exact Fc|]. eapply Rle_trans; [exact Ac|]. apply Rmult_le_compat_r; [left; apply exp_pos|lra].
  - destruct (exp_ready musl_utils rec x F ltac:(lra)) as (k & c & Hk & E & K1 & K2 & r & Rr & Er & Fc & Ac).
    assert (K : IZR k < 1023).
    { apply Rmult_lt_reg_r with (B2R64 L2v); [lra|]. eapply Rle_lt_trans; [exact K1|].
      apply Rle_lt_trans with ((1 + eps) * 709); [apply Rmult_le_compat_l; [unfold eps; lra|lra]|]. unfold eps. lra. }
    assert (Kz : (k <= 1022)%Z) by (apply lt_IZR in K; lia).
    assert (Ti : to_int32 k = k) by (unfold to_int32; replace (k <? 2 ^ 31)%Z with true; [reflexivity|symmetry; apply Z.ltb_lt; lia]).
    rewrite Ti in E. change (fu_ldexp musl_utils c k) with (musl_ldexp c k) in E.
    assert (Ce : 9 / 10 <= B2R64 c <= 3).
    { pose proof (exp_ineq1_le r). pose proof (exp_le_compat r (7 / 10) ltac:(lra)).
      pose proof (exp_ineq1_le (- (7 / 10))) as I. rewrite exp_Ropp in I. 
      assert (exp (7 / 10) <= 28 / 10).
      { pose proof (exp_small (35 / 100) ltac:(lra)) as S. replace (7 / 10) with (35 / 100 + 35 / 100) by lra. rewrite exp_plus.
        pose proof (exp_pos (35 / 100)). apply Rle_trans with ((1 + 35 / 100 + 2 * (35 / 100 * (35 / 100))) * (1 + 35 / 100 + 2 * (35 / 100 * (35 / 100)))); [apply Rmult_le_compat; lra|lra]. }
      apply Rabs_le_inv in Ac. lra. }
    pose proof (format_scaled c k Fc ltac:(lra) ltac:(lia)) as Fm.
    destruct (C27_lemma c k) as (C27 & _). destruct (C27 Fc) as (C27a & _). rewrite Fm in C27a.
    pose proof (bpow_gt_0 radix2 k) as Bk.
    assert (Top : Rabs (B2R64 c * bpow radix2 k) < TOP).
    { rewrite Rabs_pos_eq by (apply Rmult_le_pos; lra). apply Rle_lt_trans with (3 * bpow radix2 1022).
      - apply Rmult_le_compat; try lra. apply bpow_le. assumption.
      - unfold TOP. change 1024%Z with (2 + 1022)%Z. rewrite bpow_plus. apply Rmult_lt_compat_r; [apply bpow_gt_0|simpl; lra]. }
    destruct (C27a Top) as (Fv & Ev & _).
    exists (musl_ldexp c k). split; [exact E|]. split; [exact Fv|]. rewrite Ev.
    eapply Rle_trans; [apply (recombine _ r _ k (27 / 10 ^ 16) _ Ac Er); [unfold eps; lra|lra]|].
    apply Rmult_le_compat_r; [left; apply exp_pos|]. unfold eps. lra.
Qed.

(** ** Large arguments *)
Lemma exp_c_range C r : - (1 / 1000) <= r <= 7 / 10 -> Rabs (C - exp r) <= 27 / 10 ^ 16 * exp r -> 9 / 10 <= C <= 3 /\ (1 / 10 <= r -> 1 <= C).
Proof.
  intros Hr Ac. pose proof (exp_ineq1_le r). pose proof (exp_le_compat r (7 / 10) ltac:(lra)).
  assert (exp (7 / 10) <= 28 / 10).
  { pose proof (exp_small (35 / 100) ltac:(lra)) as S. replace (7 / 10) with (35 / 100 + 35 / 100) by lra. rewrite exp_plus.
    pose proof (exp_pos (35 / 100)). apply Rle_trans with ((1 + 35 / 100 + 2 * (35 / 100 * (35 / 100))) * (1 + 35 / 100 + 2 * (35 / 100 * (35 / 100)))); [apply Rmult_le_compat; lra|lra]. }
  apply Rabs_le_inv in Ac. split; [lra|]. intros. lra.
Qed.
Lemma sign_of_pos (c : b64) : finite64 c = true -> 0 < B2R64 c -> Bsign c = false.
Proof. intros F H. destruct (Bsign c) eqn:S; [|reflexivity]. pose proof (Bsign_neg c F S). lra. Qed.

Lemma pexp_overflow rec (x : b64) : finite64 x = true -> 710 <= B2R64 x <= 1488522235 ->
  xexp_body (N := B64) musl_utils rec x = Ret (B754_infinity false : b64).
Proof.
  intros F H. pose proof L2_range as RL. pose proof ln2_sharp as S.
  destruct (exp_ready musl_utils rec x F ltac:(lra)) as (k & c & Hk & E & K1 & K2 & r & Rr & Er & Fc & Ac).
  assert (Ku : IZR k < 2147483648).
  { apply Rmult_lt_reg_r with (B2R64 L2v); [lra|]. eapply Rle_lt_trans; [exact K1|].
    apply Rle_lt_trans with ((1 + eps) * 1488522235); [apply Rmult_le_compat_l; [unfold eps; lra|lra]|].
    destruct L2_value as (_ & ->). unfold eps. lra. }
  assert (Kl : 1023 < IZR k).
  { assert (1024 < IZR k + 1); [|lra]. apply Rmult_lt_reg_r with (B2R64 L2v); [lra|]. eapply Rle_lt_trans; [|exact K2].
    apply Rle_trans with ((1 - eps) * 710); [|apply Rmult_le_compat_l; [unfold eps; lra|lra]]. unfold eps. lra. }
  assert (Kz : (k < 2 ^ 31)%Z) by (apply lt_IZR; simpl (2 ^ 31)%Z; lra). apply lt_IZR in Kl.
  assert (Ti : to_int32 k = k) by (unfold to_int32; replace (k <? 2 ^ 31)%Z with true; [reflexivity|symmetry; apply Z.ltb_lt; lia]).
  rewrite Ti in E. change (fu_ldexp musl_utils c k) with (musl_ldexp c k) in E. rewrite E. f_equal.
  destruct (exp_c_range (B2R64 c) r Rr Ac) as (Ce & Ce1).
  destruct (C27_lemma c k) as (C27 & _). destruct (C27 Fc) as (_ & C27b).
  assert (Top : TOP <= Rabs (rnd (B2R64 c * bpow radix2 k))).
  { apply abs_round_ge_generic; [apply FLT_exp_valid; reflexivity|apply valid_rnd_N|apply generic_format_bpow; vm_compute; discriminate|].
    pose proof (bpow_gt_0 radix2 k). rewrite Rabs_pos_eq by (apply Rmult_le_pos; lra).
    destruct (Z.eq_dec k 1024) as [->|Hk1].
    - assert (1 <= B2R64 c); [|unfold TOP; pose proof (bpow_gt_0 radix2 1024); nra].
      apply Ce1. apply Rabs_le_inv in Er.
      assert (Ex : 1311 / 1000 * eps * B2R64 x <= 1311 / 1000 * eps * 1488522235) by (apply Rmult_le_compat_l; [unfold eps; lra|lra]).
      unfold eps in *. lra.
    - apply Rle_trans with (9 / 10 * bpow radix2 1025).
      + unfold TOP. change 1025%Z with (1 + 1024)%Z. rewrite bpow_plus. pose proof (bpow_gt_0 radix2 1024). simpl (bpow radix2 1). lra.
      + apply Rmult_le_compat; try lra; [left; apply bpow_gt_0|apply bpow_le; lia]. }
  rewrite (C27b Top), sign_of_pos by (assumption || lra). reflexivity.
Qed.

(** the unsigned quotient is passed as an int: from 2^31 on it is negative *)
Lemma pexp_wrap rec (x : b64) : finite64 x = true -> 1488522236 <= B2R64 x <= 2977043000 ->
  xexp_body (N := B64) musl_utils rec x = Ret (B754_zero false : b64).
Proof.
  intros F H. pose proof L2_range as RL. pose proof ln2_sharp as S.
  destruct (exp_ready musl_utils rec x F ltac:(lra)) as (k & c & Hk & E & K1 & K2 & r & Rr & Er & Fc & Ac).
  assert (Ku : IZR k < 4294966196).
  { apply Rmult_lt_reg_r with (B2R64 L2v); [lra|]. eapply Rle_lt_trans; [exact K1|].
    apply Rle_lt_trans with ((1 + eps) * 2977043000); [apply Rmult_le_compat_l; [unfold eps; lra|lra]|].
    destruct L2_value as (_ & ->). unfold eps. lra. }
  assert (Kl : 2147483647 < IZR k).
  { assert (2147483648 < IZR k + 1); [|lra]. apply Rmult_lt_reg_r with (B2R64 L2v); [lra|]. eapply Rle_lt_trans; [|exact K2].
    apply Rle_trans with ((1 - eps) * 1488522236); [|apply Rmult_le_compat_l; [unfold eps; lra|lra]].
    destruct L2_value as (_ & ->). unfold eps. lra. }
  apply lt_IZR in Kl. apply lt_IZR in Ku.
  assert (Ti : to_int32 k = (k - 2 ^ 32)%Z) by (unfold to_int32; replace (k <? 2 ^ 31)%Z with false; [reflexivity|symmetry; apply Z.ltb_ge; lia]).
  rewrite Ti in E. set (n := (k - 2 ^ 32)%Z) in *. assert (Hn : (n <= -1100)%Z) by (unfold n; lia).
  change (fu_ldexp musl_utils c n) with (musl_ldexp c n) in E. rewrite E. f_equal.
  destruct (exp_c_range (B2R64 c) r Rr Ac) as (Ce & _).
  destruct (C27_lemma c n) as (C27 & _). destruct (C27 Fc) as (C27a & _).
  assert (Z0 : rnd (B2R64 c * bpow radix2 n) = 0).
  { pose proof (bpow_gt_0 radix2 n) as Bn. assert (Pn : 0 < B2R64 c * bpow radix2 n) by (apply Rmult_lt_0_compat; lra).
    assert (U : B2R64 c * bpow radix2 n < bpow radix2 (-1098)).
    { apply Rle_lt_trans with (3 * bpow radix2 (-1100)).
      - apply Rmult_le_compat; try lra. apply bpow_le. assumption.
      - change (-1098)%Z with (2 + -1100)%Z. rewrite bpow_plus. apply Rmult_lt_compat_r; [apply bpow_gt_0|simpl; lra]. }
    destruct (mag radix2 (B2R64 c * bpow radix2 n)) as (ex & Hex). specialize (Hex ltac:(lra)). rewrite Rabs_pos_eq in Hex by lra.
    apply (round_N_small_pos radix2 fexp64 (fun z => negb (Z.even z)) _ ex Hex).
    assert (bpow radix2 (ex - 1) < bpow radix2 (-1098)) by lra. apply lt_bpow in H0. rewrite fexp64_eq. lia. }
  rewrite Z0, Rabs_R0 in C27a. destruct (C27a ltac:(apply TOP_pos)) as (Fv & Ev & Sv).
  rewrite (sign_of_pos c) in Sv by (assumption || lra).
  destruct (musl_ldexp c n) as [s|s| |s m e X]; try discriminate; cbn in Sv.
  - rewrite Sv. reflexivity.
  - exfalso. apply (F2R_neq_0 radix2) in Ev; [assumption|]. destruct s; discriminate.
Qed.

(** ** The domain of the conversion *)
Lemma pexp_undefined fu rec (x : b64) : nan64 x = false -> 2977044472 <= xval x ->
  xexp_body (N := B64) fu rec x = Undef CastRange.
Proof.
  intros Nx H. destruct L2_value as (FL & VL). pose proof L2_range as RL.
  assert (Q : forall k, b64_trunc (b64_div x L2v) = Some k -> (2 ^ 32 <= k)%Z).
  { destruct (finite64 x) eqn:F.
    - rewrite xval_finite in H by assumption. destruct (div_xval x L2v F FL ltac:(lra)) as (Nq & Eq).
      intros k Ek. unfold b64_trunc in Ek. destruct (BinarySingleNaN.is_finite (b64_div x L2v)) eqn:Fq; [|discriminate].
      assert (G : IZR (2 ^ 32) <= B2R64 (b64_div x L2v)).
      { rewrite <- (xval_finite _ Fq), Eq. rewrite <- (clamp_id (IZR (2 ^ 32))).
        - unfold rndc. apply clamp_mono. rewrite <- (round_generic radix2 fexp64 ZnearestE (IZR (2 ^ 32))).
          + apply round_le; [apply FLT_exp_valid; reflexivity|apply valid_rnd_N|].
            simpl (2 ^ 32)%Z. apply Rmult_le_reg_r with (B2R64 L2v); [lra|]. unfold Rdiv. rewrite Rmult_assoc, Rinv_l by lra.
            rewrite VL. lra.
          + apply format_IZR. lia.
        - pose proof bpow_1024. simpl (2 ^ 32)%Z. rewrite Rabs_pos_eq by lra. lra. }
      assert (P : 0 <= B2R64 (b64_div x L2v)) by (simpl (2 ^ 32)%Z in G; lra).
      destruct (trunc_finite _ Fq P) as (k' & Ek' & _ & K). unfold b64_trunc in Ek'. rewrite Fq, Ek in Ek'. injection Ek' as <-.
      assert (IZR (2 ^ 32) < IZR (k + 1)) by (rewrite plus_IZR; lra). apply lt_IZR in H0. lia.
    - intros k Ek. exfalso. destruct x as [s|s| |s m e X]; [discriminate F| |discriminate Nx|discriminate F].
      assert (T : b64_trunc (b64_div (B754_infinity s) L2v) = None) by (destruct s; vm_compute; reflexivity).
      rewrite T in Ek. discriminate Ek. }
  unfold xexp_body. rewrite is_nan_b64, Nx.
  assert (N0 : nan64 (b64_ofZ 0) = false) by reflexivity.
  change (@nlt B64 x (nofZ 0)) with (b64_ltb x (b64_ofZ 0)). rewrite ltb_xval, xval_zero, Rlt_bool_false by (assumption || lra).
  change (@nlt B64 LOG2 x) with (b64_ltb L2v x). rewrite ltb_xval by (assumption || (apply finite_not_nan; assumption)).
  rewrite (xval_finite L2v) by assumption. rewrite Rlt_bool_true by lra.
  change (@ndiv B64 x LOG2) with (b64_div x L2v). rewrite (to_uint32_undef _ Q). reflexivity.
Qed.
Lemma pexp_defined fu rec (x : b64) : finite64 x = true -> 0 <= B2R64 x <= 2977044471 ->
  exists v, xexp_body (N := B64) fu rec x = Ret v.
Proof.
  intros F H. destruct (Rle_lt_dec (B2R64 x) (B2R64 L2v)) as [C|C].
  - eexists. rewrite (body_nonneg _ rec x F) by lra. rewrite ltb_L2, Rlt_bool_false by assumption. reflexivity.
  - destruct (exp_ready fu rec x F ltac:(lra)) as (k & c & _ & E & _). eexists. exact E.
Qed.

(** ** Every argument *)
Lemma xexp_nonneg fu (x : b64) : nan64 x = false -> 0 <= xval x ->
  xexp (N := B64) fu x = xexp_body (N := B64) fu (fun _ => Undef Diverge) x.
Proof.
  intros Nx P. unfold xexp, xexp_body. rewrite is_nan_b64, Nx.
  change (@nlt B64 x (nofZ 0)) with (b64_ltb x (b64_ofZ 0)). rewrite ltb_xval, xval_zero, Rlt_bool_false by (reflexivity || assumption). reflexivity.
Qed.
Lemma xexp_neg fu (x : b64) : nan64 x = false -> xval x < 0 ->
  xexp (N := B64) fu x = (y <- xexp_body (N := B64) fu (fun _ => Undef Diverge) (b64_opp x : num B64) ;; Ret (b64_div (b64_ofZ 1) y : num B64)).
Proof.
  intros Nx P. unfold xexp. unfold xexp_body at 1. rewrite is_nan_b64, Nx.
  change (@nlt B64 x (nofZ 0)) with (b64_ltb x (b64_ofZ 0)). rewrite ltb_xval, xval_zero, Rlt_bool_true by (reflexivity || assumption). reflexivity.
Qed.
Lemma xexp_nan fu (x : b64) : nan64 x = true -> xexp (N := B64) fu x = Ret (B754_nan : b64).
Proof. intros Nx. unfold xexp, xexp_body. rewrite is_nan_b64, Nx, c_nan_b64. reflexivity. Qed.
Lemma xexp_zero fu s : xexp (N := B64) fu (B754_zero s : b64) = Ret (b64_ofZ 1 : b64).
Proof.
  rewrite xexp_nonneg by (reflexivity || (cbn; lra)). rewrite body_nonneg by (reflexivity || (cbn; lra)).
  rewrite ltb_L2 by reflexivity. pose proof L2_range. rewrite Rlt_bool_false by (cbn [B2R]; lra). f_equal.
  apply B2SF_inj. destruct s; vm_compute; reflexivity.
Qed.
Lemma xexp_no_diverge fu (x : b64) : xexp (N := B64) fu x <> Undef Diverge.
Proof.
  assert (B : forall y : b64, nan64 y = false -> 0 <= xval y -> xexp_body (N := B64) fu (fun _ => Undef Diverge) y <> Undef Diverge).
  { intros y Ny P. unfold xexp_body. rewrite is_nan_b64, Ny.
    change (@nlt B64 y (nofZ 0)) with (b64_ltb y (b64_ofZ 0)). rewrite ltb_xval, xval_zero, Rlt_bool_false by (reflexivity || assumption).
    destruct (@nlt B64 LOG2 y); [|discriminate]. unfold to_uint32. destruct (@ntrunc B64 _) as [k|]; [|discriminate]. destruct (_ && _)%bool; discriminate. }
  destruct (nan64 x) eqn:Nx; [rewrite xexp_nan by assumption; discriminate|].
  destruct (Rlt_le_dec (xval x) 0) as [H|H].
  - rewrite xexp_neg by assumption. intros E. destruct (xexp_body fu (fun _ => Undef Diverge) (b64_opp x)) eqn:E2; cbn in E; [discriminate|].
    injection E as ->. revert E2. apply B; [rewrite nan_opp; assumption|rewrite xval_opp; lra].
  - rewrite xexp_nonneg by assumption. apply B; assumption.
Qed.

Lemma Nr_inverse y r e : Nr y r e -> 0 < r -> 0 <= e <= 1 / 10 ^ 9 -> Rabs (rnd (1 / B2R64 y) - / r) <= (e + 112 / 10 ^ 18 + 1 / 10 ^ 8 * e) * / r \/ ~ bpow radix2 (-1022) <= 1 / B2R64 y.
Proof.
  intros (F & A) Pr He. rewrite (Rabs_pos_eq r) in A by lra. apply Rabs_le_inv in A.
  assert (Er : 0 <= e * r <= 1 / 10 ^ 9 * r) by nra.
  assert (Py : 0 < B2R64 y) by lra.
  destruct (Rle_lt_dec (bpow radix2 (-1022)) (1 / B2R64 y)) as [H|H]; [left|right; lra].
  assert (P1 : 0 < 1 / B2R64 y) by (apply Rdiv_lt_0_compat; lra).
  pose proof (rnd_rel (1 / B2R64 y)) as R1. rewrite (Rabs_pos_eq (1 / B2R64 y)) in R1 by lra. specialize (R1 H).
  pose proof (Rinv_0_lt_compat r Pr) as Pi.
  assert (Q : Rabs (1 / B2R64 y - / r) <= e * (1 + 2 / 10 ^ 9) * / r).
  { replace (1 / B2R64 y - / r) with ((r - B2R64 y) * (1 / B2R64 y) * / r) by (field; lra).
    rewrite Rabs_mult, (Rabs_pos_eq (/ r)) by lra. apply Rmult_le_compat_r; [lra|].
    rewrite Rabs_mult, (Rabs_pos_eq (1 / B2R64 y)) by lra.
    apply Rmult_le_reg_r with (B2R64 y); [assumption|]. unfold Rdiv. rewrite Rmult_1_l, Rmult_assoc, Rinv_l, Rmult_1_r by lra.
    apply Rle_trans with (e * r); [apply Rabs_le; lra|].
    rewrite Rmult_assoc. apply Rmult_le_compat_l; [lra|]. nra. }
  assert (Q2 : 1 / B2R64 y <= (1 + 2 / 10 ^ 9) * / r).
  { apply Rabs_le_inv in Q. assert (e * (1 + 2 / 10 ^ 9) * / r <= 2 / 10 ^ 9 * / r) by (apply Rmult_le_compat_r; lra). lra. }
  replace (rnd (1 / B2R64 y) - / r) with ((rnd (1 / B2R64 y) - 1 / B2R64 y) + (1 / B2R64 y - / r)) by lra.
  eapply Rle_trans; [apply Rabs_triang|].
  eapply Rle_trans; [apply Rplus_le_compat; [exact R1|exact Q]|].
  assert (eps * (1 / B2R64 y) <= eps * ((1 + 2 / 10 ^ 9) * / r)) by (apply Rmult_le_compat_l; [unfold eps; lra|assumption]).
  eapply Rle_trans; [apply Rplus_le_compat_r; exact H0|].
  replace (eps * ((1 + 2 / 10 ^ 9) * / r) + e * (1 + 2 / 10 ^ 9) * / r) with ((eps * (1 + 2 / 10 ^ 9) + e * (1 + 2 / 10 ^ 9)) * / r) by ring.
  apply Rmult_le_compat_r; [lra|]. unfold eps. lra.
Qed.

Lemma exp_m708 : bpow radix2 (-1022) * (1 + 1 / 10 ^ 6) <= exp (- 708).
Proof.
  rewrite pow2_exp. pose proof ln2_sharp.
  apply Rle_trans with (exp (-1022 * ln 2) * exp (1 / 10 ^ 6)).
  - apply Rmult_le_compat_l; [left; apply exp_pos|]. apply exp_ineq1_le.
  - rewrite <- exp_plus. apply exp_le_compat. lra.
Qed.

Lemma xexp_accuracy (x : b64) : finite64 x = true -> Rabs (B2R64 x) <= 708 ->
  exists v, xexp (N := B64) musl_utils x = Ret (v : num B64) /\ finite64 v = true /\
    Rabs (B2R64 v - exp (B2R64 x)) <= (15 / 10 ^ 17 * Rabs (B2R64 x) + 3 / 10 ^ 15) * exp (B2R64 x).
Proof.
  intros F H. pose proof (finite_not_nan x F) as Nx. destruct (Rlt_le_dec (B2R64 x) 0) as [C|C].
  - rewrite (Rabs_left _ C) in *.
    assert (Fo : finite64 (b64_opp x) = true) by (rewrite finite_opp; assumption).
    assert (Eo : B2R64 (b64_opp x) = - B2R64 x) by (unfold b64_opp; apply B2R_Bopp).
    destruct (pexp_accuracy (fun _ => Undef Diverge) (b64_opp x) Fo ltac:(lra)) as (y & Ey & Fy & Ay). rewrite Eo in Ay.
    rewrite xexp_neg by (assumption || (rewrite xval_finite; assumption)). rewrite Ey. cbn [bind].
    set (X := B2R64 x) in *. set (e := 147 / 10 ^ 18 * - X + 28 / 10 ^ 16) in *.
    assert (He : 0 <= e <= 2 / 10 ^ 13) by (unfold e; lra).
    assert (Ny : Nr y (exp (- X)) e). { split; [exact Fy|]. rewrite (Rabs_pos_eq (exp (- X))) by (left; apply exp_pos). exact Ay. }
    pose proof (exp_pos (- X)) as Pe.
    assert (Py : 0 < B2R64 y). { apply Rabs_le_inv in Ay. assert (e * exp (- X) <= 2 / 10 ^ 13 * exp (- X)) by (apply Rmult_le_compat_r; lra). lra. }
    destruct (ofZ_exact 1 ltac:(lia)) as (F1 & E1).
    destruct (div_xval (b64_ofZ 1) y F1 Fy ltac:(lra)) as (Nv & Ev). rewrite E1 in Ev.
    assert (Ix : / exp (- X) = exp X) by (rewrite exp_Ropp, Rinv_inv; reflexivity).
    pose proof (exp_pos X) as PX.
    assert (Big : bpow radix2 (-1022) <= 1 / B2R64 y).
    { apply Rle_trans with (exp (- 708) * (1 - 1 / 10 ^ 9)).
      - pose proof exp_m708. pose proof (exp_pos (-708)). pose proof (bpow_gt_0 radix2 (-1022)). nra.
      - apply Rle_trans with (exp X * (1 - 1 / 10 ^ 9)); [apply Rmult_le_compat_r; [lra|apply exp_le_compat; lra]|].
        apply Rmult_le_reg_r with (B2R64 y); [assumption|]. unfold Rdiv at 2. rewrite Rmult_1_l, Rinv_l by lra.
        apply Rabs_le_inv in Ay. assert (Y : B2R64 y <= exp (- X) * (1 + 2 / 10 ^ 13)).
        { assert (e * exp (- X) <= 2 / 10 ^ 13 * exp (- X)) by (apply Rmult_le_compat_r; lra). lra. }
        apply Rle_trans with (exp X * (1 - 1 / 10 ^ 9) * (exp (- X) * (1 + 2 / 10 ^ 13))).
        + apply Rmult_le_compat_l; [apply Rmult_le_pos; lra|exact Y].
        + replace (exp X * (1 - 1 / 10 ^ 9) * (exp (- X) * (1 + 2 / 10 ^ 13))) with ((exp X * exp (- X)) * ((1 - 1 / 10 ^ 9) * (1 + 2 / 10 ^ 13))) by ring.
          rewrite <- Ix at 1. rewrite Rinv_l by lra. lra. }
    destruct (Nr_inverse y (exp (- X)) e Ny Pe ltac:(lra)) as [Q|Q]; [|contradiction]. rewrite Ix in Q.
    assert (Small : Rabs (rnd (1 / B2R64 y)) < TOP).
    { assert (exp X <= 1) by (rewrite <- exp_0; apply exp_le_compat; lra). pose proof bpow_1024.
      assert ((e + 112 / 10 ^ 18 + 1 / 10 ^ 8 * e) * exp X <= 1 * exp X) by (apply Rmult_le_compat_r; lra).
      apply Rabs_le_inv in Q. apply Rabs_def1; lra. }
    unfold rndc in Ev. rewrite clamp_id in Ev by lra.
    assert (Fv : finite64 (b64_div (b64_ofZ 1) y) = true) by (apply finite_of_xval; [assumption|rewrite Ev; assumption]).
    rewrite xval_finite in Ev by assumption.
    exists (b64_div (b64_ofZ 1) y). split; [reflexivity|]. split; [exact Fv|]. rewrite Ev.
    eapply Rle_trans; [exact Q|]. apply Rmult_le_compat_r; [lra|]. unfold e. lra.
  - rewrite Rabs_pos_eq in * by assumption.
    destruct (pexp_accuracy (fun _ => Undef Diverge) x F ltac:(lra)) as (v & Ev & Fv & Av).
    exists v. rewrite xexp_nonneg by (assumption || (rewrite xval_finite; assumption)). split; [exact Ev|]. split; [exact Fv|].
    eapply Rle_trans; [exact Av|]. apply Rmult_le_compat_r; [left; apply exp_pos|lra].
Qed.

Lemma xexp_large (x : b64) : finite64 x = true ->
  (710 <= B2R64 x <= 1488522235 -> xexp (N := B64) musl_utils x = Ret (B754_infinity false : b64)) /\
  (-1488522235 <= B2R64 x <= -710 -> xexp (N := B64) musl_utils x = Ret (B754_zero false : b64)).
Proof.
  intros F. pose proof (finite_not_nan x F) as Nx. split; intros H.
  - rewrite xexp_nonneg by (assumption || (rewrite xval_finite by assumption; lra)). apply pexp_overflow; assumption.
  - rewrite xexp_neg by (assumption || (rewrite xval_finite by assumption; lra)).
    rewrite pexp_overflow; [reflexivity|rewrite finite_opp; assumption|]. unfold b64_opp. rewrite B2R_Bopp. lra.
Qed.
Lemma xexp_wrapped (x : b64) : finite64 x = true ->
  (1488522236 <= B2R64 x <= 2977043000 -> xexp (N := B64) musl_utils x = Ret (B754_zero false : b64)) /\
  (-2977043000 <= B2R64 x <= -1488522236 -> xexp (N := B64) musl_utils x = Ret (B754_infinity false : b64)).
Proof.
  intros F. pose proof (finite_not_nan x F) as Nx. split; intros H.
  - rewrite xexp_nonneg by (assumption || (rewrite xval_finite by assumption; lra)). apply pexp_wrap; assumption.
  - rewrite xexp_neg by (assumption || (rewrite xval_finite by assumption; lra)).
    rewrite pexp_wrap; [reflexivity|rewrite finite_opp; assumption|]. unfold b64_opp. rewrite B2R_Bopp. lra.
Qed.
Lemma xexp_domain fu (x : b64) :
  (nan64 x = true \/ (finite64 x = true /\ Rabs (B2R64 x) <= 2977044471) -> exists v, xexp (N := B64) fu x = Ret v) /\
  ((exists s, x = B754_infinity s) \/ (finite64 x = true /\ 2977044472 <= Rabs (B2R64 x)) -> xexp (N := B64) fu x = Undef CastRange).
Proof.
  split.
  - intros [N|(F & H)]; [eexists; apply xexp_nan; assumption|].
    pose proof (finite_not_nan x F) as Nx. destruct (Rlt_le_dec (B2R64 x) 0) as [C|C].
    + rewrite (Rabs_left _ C) in H. rewrite xexp_neg by (assumption || (rewrite xval_finite by assumption; lra)).
      destruct (pexp_defined fu (fun _ => Undef Diverge) (b64_opp x)) as (v & ->); [rewrite finite_opp; assumption|unfold b64_opp; rewrite B2R_Bopp; lra|].
      eexists. reflexivity.
    + rewrite Rabs_pos_eq in H by assumption. rewrite xexp_nonneg by (assumption || (rewrite xval_finite by assumption; lra)). apply pexp_defined; [assumption|lra].
  - assert (G : forall y : b64, nan64 y = false -> 2977044472 <= Rabs (xval y) -> xexp (N := B64) fu y = Undef CastRange).
    { intros y Ny H. destruct (Rlt_le_dec (xval y) 0) as [C|C].
      - rewrite (Rabs_left _ C) in H. rewrite xexp_neg by assumption.
        rewrite (pexp_undefined fu _ (b64_opp y)); [reflexivity|rewrite nan_opp; assumption|rewrite xval_opp; lra].
      - rewrite Rabs_pos_eq in H by assumption. rewrite xexp_nonneg by assumption. apply pexp_undefined; assumption. }
    intros [(s & ->)|(F & H)].
    + apply G; [reflexivity|]. pose proof bpow_1024. destruct s; cbn [xval]; [rewrite Rabs_Ropp|]; rewrite Rabs_pos_eq; lra.
    + apply G; [apply finite_not_nan; assumption|rewrite xval_finite by assumption; assumption].
Qed.

(** ** The continued fraction in exact arithmetic *)
Lemma exp_exact_cf (z : R) :
  (0 <= z <= ln 2 -> exists v, exp_cf_6 (N := RNum) (Some z) = Some v /\ 0 <= exp z - v <= 16 / 10 ^ 16 * exp z) /\
  (z = ln 2 -> exists v, exp_cf_6 (N := RNum) (Some z) = Some v /\ 14 / 10 ^ 16 * exp z <= exp z - v).
Proof.
  pose proof ln2_sharp. split; intros Hz; exists (erat z); (split; [apply exp_cf_exact; lra|]).
  - apply cf_exp_ln2. assumption.
  - subst z. apply cf_exp_at_ln2.
Qed.
