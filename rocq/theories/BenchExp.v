(** * BenchExp: lemmas on the exponential of the benchmarks (C75) *)
From Coq Require Import ZArith List Bool Reals Lra Lia Psatz.
From Flocq Require Import Core.Core IEEE754.BinarySingleNaN.
From Verif Require Import Num XMath B64 RNum B64Facts FloatErr FloatUtilsLemmas LogExact LogAcc ExpExact ExpB64 ExpAcc Bench BenchBits.
Open Scope R_scope.

Lemma to_uint64_ret (q : b64) k : b64_trunc q = Some k -> (0 <= k < 2 ^ 64)%Z -> to_uint64 q = Ret k.
Proof.
  intros E H. unfold to_uint64. rewrite E.
  replace (Z.leb 0 k) with true by (symmetry; apply Z.leb_le; lia). replace (Z.ltb k (2 ^ 64)) with true by (symmetry; apply Z.ltb_lt; lia). reflexivity.
Qed.

Lemma expo_small (c : b64) : finite64 c = true -> 9 / 10 <= B2R64 c <= 3 -> (expo_field c <= 1024)%Z.
Proof.
  intros F H. destruct (normal_shape c F) as (s & m & e & X & -> & Hm).
  { rewrite Rabs_pos_eq by lra. apply Rle_trans with (bpow radix2 (-1)); [apply bpow_le; lia|simpl; lra]. }
  rewrite (expo_normal s m e X Hm). pose proof (bounded_inv m e X) as (H1 & H2 & _). pose proof (mant_range m ltac:(lia)) as Rm.
  rewrite normal_value in H. pose proof (bpow_gt_0 radix2 e) as Be. pose proof (bpow_gt_0 radix2 52) as B52.
  assert (P : 0 < IZR (Z.pos m) * bpow radix2 e) by (apply Rmult_lt_0_compat; lra).
  destruct s; [lra|].
  assert (Q : bpow radix2 (52 + e) < bpow radix2 2).
  { rewrite bpow_plus. apply Rle_lt_trans with (IZR (Z.pos m) * bpow radix2 e); [apply Rmult_le_compat_r; lra|]. simpl (bpow radix2 2). lra. }
  apply lt_bpow in Q. lia.
Qed.

Lemma bench_exp_nonneg rec rec' (x : b64) : finite64 x = true -> 0 <= B2R64 x <= 709 ->
  bench_exp_body rec x = xexp_body (N := B64) musl_utils rec' x.
Proof.
  intros F H. rewrite (body_nonneg musl_utils rec' x F) by lra.
  unfold bench_exp_body. change (LOG2 (N := B64)) with L2v.
  assert (L0 : b64_ltb x (b64_ofZ 0) = false).
  { rewrite ltb_xval, xval_zero, xval_finite by (try reflexivity; try apply finite_not_nan; assumption). apply Rlt_bool_false. lra. }
  rewrite L0. rewrite ltb_L2 by assumption. pose proof L2_range as RL.
  destruct (Rlt_le_dec (B2R64 L2v) (B2R64 x)) as [C|C]; [rewrite Rlt_bool_true by assumption|rewrite Rlt_bool_false by assumption; reflexivity].
  destruct (reduction x F ltac:(lra) ltac:(lra)) as (k & Ek & K0 & K1 & K2 & K3).
  assert (K : IZR k < 1023).
  { apply Rmult_lt_reg_r with (B2R64 L2v); [lra|]. eapply Rle_lt_trans; [exact K1|].
    apply Rle_lt_trans with ((1 + eps) * 709); [apply Rmult_le_compat_l; [unfold eps; lra|lra]|]. unfold eps. lra. }
  pose proof K as Kr. apply lt_IZR in K.
  rewrite (to_uint64_ret _ k Ek ltac:(lia)), (to_uint32_ret _ k Ek ltac:(lia)). cbn [bind].
  destruct (K3 ltac:(lra)) as (Fr & Rr & Er). cbv zeta in *. set (r := b64_minus x (b64_mult L2v (b64_ofZ k))) in *.
  destruct (exp_cf_b64 r Fr Rr) as (Fc & Ac). set (c := exp_cf_6 (N := B64) r) in *.
  assert (Ti : to_int32 k = k) by (unfold to_int32; replace (k <? 2 ^ 31)%Z with true; [reflexivity|symmetry; apply Z.ltb_lt; lia]).
  rewrite Ti. change (fu_ldexp musl_utils c k) with (musl_ldexp c k).
  destruct (exp_c_range (B2R64 c) (B2R64 r) Rr Ac) as (Ce & _). f_equal.
  apply add_exponent; [exact Fc| |lia|].
  - rewrite Rabs_pos_eq by lra. apply Rle_trans with (bpow radix2 (-1)); [apply bpow_le; lia|simpl; lra].
  - pose proof (expo_small c Fc Ce). lia.
Qed.

Lemma bench_exp_same (x : b64) : finite64 x = true -> Rabs (B2R64 x) <= 709 ->
  bench_exp x = xexp (N := B64) musl_utils x.
Proof.
  intros F H. apply Rabs_le_inv in H. pose proof (finite_not_nan x F) as Nx.
  destruct (Rlt_le_dec (B2R64 x) 0) as [C|C].
  - rewrite xexp_neg by (try rewrite xval_finite; assumption).
    unfold bench_exp. unfold bench_exp_body at 1.
    rewrite ltb_xval, xval_zero, xval_finite, Rlt_bool_true by (reflexivity || assumption).
    rewrite (bench_exp_nonneg _ (fun _ => Undef Diverge) (b64_opp x)).
    + reflexivity.
    + unfold b64_opp. rewrite is_finite_Bopp. exact F.
    + unfold b64_opp. rewrite B2R_Bopp. lra.
  - rewrite xexp_nonneg by (try rewrite xval_finite; assumption). unfold bench_exp. apply bench_exp_nonneg; [assumption|lra].
Qed.
Lemma bench_exp_nan : bench_exp B754_nan = xexp (N := B64) musl_utils (B754_nan : b64).
Proof. rewrite xexp_nan by reflexivity. vm_compute. reflexivity. Qed.

(** ** The continued fractions over the reals *)
Lemma exp_cf_speed_same (z : R) : exp_cf_6_speed (N := RNum) (Some z) = exp_cf_6 (N := RNum) (Some z).
Proof.
  unfold exp_cf_6_speed, exp_cf_6. cbn [nadd nsub nmul nopp nofZ RNum xr2 xr_opp ndiv].
  assert (Hz : 0 <= z * z) by nra. set (y := z * z) in *.
  assert (Dv : forall a b, 0 < b -> xr_div (Some a) (Some b) = Some (a / b)).
  { intros a b Hb. unfold xr_div. rewrite Req_bool_false by lra. reflexivity. }
  rewrite (Dv (y * (y + 396)) (6 * (y + 154))) by lra.
  rewrite (Dv (7 * y) 11) by lra. cbn [xr2].
  assert (D5 : 0 < 7 * y / 11 + 252) by lra. rewrite (Dv _ (7 * y / 11 + 252) D5). cbn [xr2].
  assert (D4 : 0 < 140 * y / (7 * y / 11 + 252) + 140).
  { assert (0 <= 140 * y / (7 * y / 11 + 252)) by (apply Rmult_le_pos; [lra|left; apply Rinv_0_lt_compat; assumption]). lra. }
  rewrite (Dv _ _ D4). cbn [xr2].
  replace (60 * y / (140 * y / (7 * y / 11 + 252) + 140)) with (y * (y + 396) / (6 * (y + 154))); [reflexivity|].
  field. repeat split; lra.
Qed.

Lemma xdivp a b : 0 < b -> xr_div (Some a) (Some b) = Some (a / b).
Proof. intros H. unfold xr_div. rewrite Req_bool_false by lra. reflexivity. Qed.

(** one level of the recursive form: c_m (1 + K_m) is the level of the unrolled form *)
Lemma exp_K_level n (y k : R) (m : Z) : (1 <= m)%Z -> 0 <= y -> 0 <= k -> exp_K (N := RNum) n (Some y) (m + 1) = Some k ->
  exists k', exp_K (N := RNum) (S n) (Some y) m = Some k' /\ 0 <= k' /\ k' = y / (4 * (2 * IZR m - 1) * (2 * IZR m + 1) * (1 + k)).
Proof.
  intros Hm Hy Hk E. assert (M : 1 <= IZR m) by (apply IZR_le; assumption).
  cbn [exp_K]. rewrite E. cbn [nadd nsub nmul nopp nofZ RNum xr2 xr_opp ndiv]. rewrite mult_IZR.
  assert (D : 0 < 4 * (2 * IZR m - 1) * (2 * IZR m + 1)) by nra.
  rewrite (xdivp 1 _ D). cbn [xr2]. rewrite xdivp by lra. eexists. split; [reflexivity|].
  assert (X : y * (1 / (4 * (2 * IZR m - 1) * (2 * IZR m + 1))) / (1 + k) = y / (4 * (2 * IZR m - 1) * (2 * IZR m + 1) * (1 + k))).
  { field. repeat split; try lra; nra. }
  split; [|exact X]. rewrite X. apply Rmult_le_pos; [assumption|]. left. apply Rinv_0_lt_compat. apply Rmult_lt_0_compat; lra.
Qed.

Lemma exp_cf_6_same (z : R) : exp_cf (N := RNum) 6 (Some z) = exp_cf_6 (N := RNum) (Some z).
Proof.
  unfold exp_cf, exp_cf_6. change (6 - 1)%nat with 5%nat. cbn [nmul RNum xr2].
  assert (Hz : 0 <= z * z) by nra. set (y := z * z) in *.
  assert (E6 : exp_K (N := RNum) 0 (Some y) (5 + 1) = Some 0) by reflexivity.
  destruct (exp_K_level 0 y 0 5 ltac:(lia) Hz ltac:(lra) E6) as (k5 & E5 & P5 & V5).
  destruct (exp_K_level 1 y k5 4 ltac:(lia) Hz P5 E5) as (k4 & E4 & P4 & V4).
  destruct (exp_K_level 2 y k4 3 ltac:(lia) Hz P4 E4) as (k3 & E3 & P3 & V3).
  destruct (exp_K_level 3 y k3 2 ltac:(lia) Hz P3 E3) as (k2 & E2 & P2 & V2).
  destruct (exp_K_level 4 y k2 1 ltac:(lia) Hz P2 E2) as (k1 & E1 & P1 & V1).
  rewrite E1. cbn [nadd nsub nmul nopp nofZ RNum xr2 xr_opp ndiv].
  rewrite (xdivp (7 * y) 11) by lra. cbn [xr2].
  replace (7 * y / 11 + 252) with (252 * (1 + k5)) by (rewrite V5; field).
  rewrite (xdivp _ (252 * (1 + k5))) by lra. cbn [xr2].
  replace (140 * y / (252 * (1 + k5)) + 140) with (140 * (1 + k4)) by (rewrite V4; field; lra).
  rewrite (xdivp _ (140 * (1 + k4))) by lra. cbn [xr2].
  replace (60 * y / (140 * (1 + k4)) + 60) with (60 * (1 + k3)) by (rewrite V3; field; lra).
  rewrite (xdivp _ (60 * (1 + k3))) by lra. cbn [xr2].
  replace (12 * y / (60 * (1 + k3)) + 12) with (12 * (1 + k2)) by (rewrite V2; field; lra).
  rewrite (xdivp _ (12 * (1 + k2))) by lra. cbn [xr2].
  replace (2 * y / (12 * (1 + k2))) with (2 * k1) by (rewrite V1; field; lra).
  replace (2 * k1 - z + 2) with (2 - z + 2 * k1) by ring.
  destruct (xr_div (Some (2 * z)) (Some (2 - z + 2 * k1))) as [q|]; cbn [xr2]; [f_equal; ring|reflexivity].
Qed.

(** ** Logarithm *)
Lemma log_K_level n (x : R) (k : R) (m : Z) : (1 <= m)%Z -> 0 < (2 * IZR m + 1) * (2 + x) + k -> log_K (N := RNum) n (Some x) (m + 1) = Some k ->
  log_K (N := RNum) (S n) (Some x) m = Some (- (IZR m * IZR m) * (x * x) / ((2 * IZR m + 1) * (2 + x) + k)).
Proof.
  intros Hm D E. cbn [log_K]. rewrite E. cbn [nadd nsub nmul nopp nofZ RNum xr2 xr_opp ndiv].
  replace ((IZR m + IZR m + 1) * (2 + x) + k) with ((2 * IZR m + 1) * (2 + x) + k) by ring.
  rewrite xdivp by exact D. f_equal. f_equal. ring.
Qed.

(** the term of level m + 1 is less than m + 1 times xx in absolute value *)
Lemma log_K_small (m x xx D : R) : 1 <= m -> 0 < xx -> x * x <= xx * xx -> m * xx <= D -> - (m * xx) <= - (m * m) * (x * x) / D <= 0.
Proof.
  intros Hm Hxx Hx HD. assert (D0 : 0 < D) by nra.
  assert (A : 0 <= m * m * (x * x) / D) by (apply Rmult_le_pos; [nra|left; apply Rinv_0_lt_compat; assumption]).
  assert (B : m * m * (x * x) / D <= m * xx).
  { apply Rmult_le_reg_r with D; [assumption|]. unfold Rdiv. rewrite Rmult_assoc, Rinv_l, Rmult_1_r by lra.
    assert (m * m * (x * x) <= m * m * (xx * xx)) by (apply Rmult_le_compat_l; nra).
    assert (m * xx * (m * xx) <= m * xx * D) by (apply Rmult_le_compat_l; nra). lra. }
  unfold Rdiv in *. lra.
Qed.

Lemma log_cf_11_same (z : R) : 0 < z -> log_cf (N := RNum) 11 (Some z) = log_cf_11 (N := RNum) (Some z).
Proof.
  intros Hz. unfold log_cf, log_cf_11. change (11 - 1)%nat with 10%nat. cbn [nsub nofZ RNum xr2].
  set (x := z - 1). set (xx := 2 + x). assert (Hxx : 0 < xx) by (unfold xx, x; lra). assert (Hx : x * x <= xx * xx) by (unfold xx, x; nra).
  assert (E11 : log_K (N := RNum) 0 (Some x) (10 + 1) = Some 0) by reflexivity.
  assert (S11 : - (11 * xx) <= 0 <= 0) by lra.
  assert (Step : forall n (k : R) (m : Z), (1 <= m)%Z -> - ((IZR m + 1) * xx) <= k <= 0 -> log_K (N := RNum) n (Some x) (m + 1) = Some k ->
    exists k', log_K (N := RNum) (S n) (Some x) m = Some k' /\ - (IZR m * xx) <= k' <= 0 /\ k' = - (IZR m * IZR m) * (x * x) / ((2 * IZR m + 1) * xx + k) /\ 0 < (2 * IZR m + 1) * xx + k).
  { intros n k m Hm Hk E. assert (M : 1 <= IZR m) by (apply IZR_le; assumption).
    assert (D : IZR m * xx <= (2 * IZR m + 1) * xx + k) by lra.
    assert (D0 : 0 < (2 * IZR m + 1) * xx + k) by nra.
    eexists. split; [apply (log_K_level n x k m Hm D0 E)|]. split; [apply log_K_small; assumption|]. split; [reflexivity|exact D0]. }
  destruct (Step 0%nat 0 10%Z ltac:(lia) ltac:(lra) E11) as (k10 & E10 & S10 & V10 & D10).
  destruct (Step 1%nat k10 9%Z ltac:(lia) ltac:(lra) E10) as (k9 & E9 & S9 & V9 & D9).
  destruct (Step 2%nat k9 8%Z ltac:(lia) ltac:(lra) E9) as (k8 & E8 & S8 & V8 & D8).
  destruct (Step 3%nat k8 7%Z ltac:(lia) ltac:(lra) E8) as (k7 & E7 & S7 & V7 & D7).
  destruct (Step 4%nat k7 6%Z ltac:(lia) ltac:(lra) E7) as (k6 & E6 & S6 & V6 & D6).
  destruct (Step 5%nat k6 5%Z ltac:(lia) ltac:(lra) E6) as (k5 & E5 & S5 & V5 & D5).
  destruct (Step 6%nat k5 4%Z ltac:(lia) ltac:(lra) E5) as (k4 & E4 & S4 & V4 & D4).
  destruct (Step 7%nat k4 3%Z ltac:(lia) ltac:(lra) E4) as (k3 & E3 & S3 & V3 & D3).
  destruct (Step 8%nat k3 2%Z ltac:(lia) ltac:(lra) E3) as (k2 & E2 & S2 & V2 & D2).
  destruct (Step 9%nat k2 1%Z ltac:(lia) ltac:(lra) E2) as (k1 & E1 & S1 & V1 & D1).
  clear Step. rewrite E1. cbn [nadd nsub nmul nopp nofZ RNum xr2 xr_opp ndiv].
  replace (x + 2) with xx by (unfold xx; ring).
  replace (xx + (xx + xx)) with (3 * xx) by lra. replace (3 * xx + (xx + xx)) with (5 * xx) by lra.
  replace (5 * xx + (xx + xx)) with (7 * xx) by lra. replace (7 * xx + (xx + xx)) with (9 * xx) by lra.
  replace (9 * xx + (xx + xx)) with (11 * xx) by lra. replace (11 * xx + (xx + xx)) with (13 * xx) by lra.
  replace (13 * xx + (xx + xx)) with (15 * xx) by lra. replace (15 * xx + (xx + xx)) with (17 * xx) by lra.
  replace (17 * xx + (xx + xx)) with (19 * xx) by lra. replace (19 * xx + (xx + xx)) with (21 * xx) by lra.
  rewrite (xdivp _ (21 * xx)) by lra. cbn [xr2].
  replace (-100 * (x * x) / (21 * xx) + 19 * xx) with ((2 * 9 + 1) * xx + k10) by (rewrite V10; field; lra).
  rewrite (xdivp _ _ D9). cbn [xr2].
  replace (-81 * (x * x) / ((2 * 9 + 1) * xx + k10) + 17 * xx) with ((2 * 8 + 1) * xx + k9) by (rewrite V9; field; lra).
  rewrite (xdivp _ _ D8). cbn [xr2].
  replace (-64 * (x * x) / ((2 * 8 + 1) * xx + k9) + 15 * xx) with ((2 * 7 + 1) * xx + k8) by (rewrite V8; field; lra).
  rewrite (xdivp _ _ D7). cbn [xr2].
  replace (-49 * (x * x) / ((2 * 7 + 1) * xx + k8) + 13 * xx) with ((2 * 6 + 1) * xx + k7) by (rewrite V7; field; lra).
  rewrite (xdivp _ _ D6). cbn [xr2].
  replace (-36 * (x * x) / ((2 * 6 + 1) * xx + k7) + 11 * xx) with ((2 * 5 + 1) * xx + k6) by (rewrite V6; field; lra).
  rewrite (xdivp _ _ D5). cbn [xr2].
  replace (-25 * (x * x) / ((2 * 5 + 1) * xx + k6) + 9 * xx) with ((2 * 4 + 1) * xx + k5) by (rewrite V5; field; lra).
  rewrite (xdivp _ _ D4). cbn [xr2].
  replace (-16 * (x * x) / ((2 * 4 + 1) * xx + k5) + 7 * xx) with ((2 * 3 + 1) * xx + k4) by (rewrite V4; field; lra).
  rewrite (xdivp _ _ D3). cbn [xr2].
  replace (-9 * (x * x) / ((2 * 3 + 1) * xx + k4) + 5 * xx) with ((2 * 2 + 1) * xx + k3) by (rewrite V3; field; lra).
  rewrite (xdivp _ _ D2). cbn [xr2].
  replace (-4 * (x * x) / ((2 * 2 + 1) * xx + k3) + 3 * xx) with ((2 * 1 + 1) * xx + k2) by (rewrite V2; field; lra).
  rewrite (xdivp _ _ D1). cbn [xr2].
  replace (- (x * x) / ((2 * 1 + 1) * xx + k2) + xx) with (xx + k1) by (rewrite V1; field; lra).
  reflexivity.
Qed.

(** ** Beyond the range *)
Lemma bench_exp_beyond :
  exists x y z : b64, B2R64 x = 710 /\ B2R64 y = 1000 /\ B2R64 z = -1000 /\
    bench_exp x = Ret (B754_nan : b64) /\ xexp (N := B64) musl_utils x = Ret (B754_infinity false : b64) /\
    (exists v, bench_exp y = Ret v /\ b64_ltb v (b64_ofZ 1) = true) /\ xexp (N := B64) musl_utils y = Ret (B754_infinity false : b64) /\
    (exists v, bench_exp z = Ret v /\ b64_ltb (b64_ofZ 1) v = true) /\ xexp (N := B64) musl_utils z = Ret (B754_zero false : b64) /\
    bench_exp (B754_infinity false) = Undef CastRange.
Proof.
  exists (b64_ofZ 710), (b64_ofZ 1000), (b64_ofZ (-1000)).
  destruct (ofZ_exact 710 ltac:(lia)) as (_ & ->). destruct (ofZ_exact 1000 ltac:(lia)) as (_ & ->). destruct (ofZ_exact (-1000) ltac:(lia)) as (_ & ->).
  assert (RET : forall (r : res b64) (v : SpecFloat.spec_float), match r with Ret a => B2SF a | Undef _ => SpecFloat.S754_zero true end = v -> v <> SpecFloat.S754_zero true ->
    exists a, r = Ret a /\ B2SF a = v).
  { intros [a|w] v E N; [exists a; auto|]. congruence. }
  assert (B : forall (r : res b64) (t : b64 -> bool), match r with Ret a => t a | Undef _ => false end = true -> exists v, r = Ret v /\ t v = true).
  { intros [a|w] t E; [exists a; auto|discriminate]. }
  assert (EQ : forall (r : res b64) (c : b64), match r with Ret a => B2SF a | Undef _ => SpecFloat.S754_zero true end = B2SF c -> B2SF c <> SpecFloat.S754_zero true -> r = Ret c).
  { intros r c E N. destruct (RET r _ E N) as (a & -> & E2). f_equal. apply B2SF_inj. exact E2. }
  do 3 (split; [reflexivity|]). split; [|split; [|split; [|split; [|split; [|split]]]]].
  - apply EQ; [vm_compute; reflexivity|discriminate].
  - apply EQ; [vm_compute; reflexivity|discriminate].
  - apply (B (bench_exp (b64_ofZ 1000)) (fun v => b64_ltb v (b64_ofZ 1))). vm_compute. reflexivity.
  - apply EQ; [vm_compute; reflexivity|discriminate].
  - apply (B (bench_exp (b64_ofZ (-1000))) (fun v => b64_ltb (b64_ofZ 1) v)). vm_compute. reflexivity.
  - apply EQ; [vm_compute; reflexivity|discriminate].
  - vm_compute. reflexivity.
Qed.
