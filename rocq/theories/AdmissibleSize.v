(** * AdmissibleSize: neighbours of one, size of the parameters of the method of moments (for C62) *)
From Coq Require Import ZArith List Bool Reals Lra Lia Psatz.
From Flocq Require Import Core.Core IEEE754.BinarySingleNaN.
From Verif Require Import Num NumFacts XMath Ubend UbendFacts Peaks PeaksFacts Brent BrentB64 Estimator Tail P2 Spot B64 B64Facts LogAcc Spec FitLemmas
  FloatErr SpotB64 P2B64 LogExact CastLemmas PowAcc PowAcc4 PowAcc5 TinyFit BrentBracket AdmissibleFit.
Import ListNotations.
Open Scope R_scope.

(** ** Neighbours of one, sums of logarithms *)
Lemma away_from_one (v : b64) : B2R64 v <> 1 -> / 10 ^ 16 <= Rabs (B2R64 v - 1).
Proof.
  intros H. assert (FV : generic_format radix2 fexp64 (B2R64 v)) by apply generic_format_B2R.
  assert (F1 : generic_format radix2 fexp64 1). { change 1 with (bpow radix2 0). apply generic_format_bpow. vm_compute. discriminate. }
  assert (VE : Valid_exp fexp64) by (apply FLT_exp_valid; reflexivity).
  destruct (Rtotal_order (B2R64 v) 1) as [L|[E|L]]; [|contradiction|].
  - assert (X := pred_ge_gt radix2 fexp64 _ _ FV F1 L). change 1 with (bpow radix2 0) in X at 1. rewrite pred_bpow in X. change (fexp64 0) with (-53)%Z in X.
    rewrite Rabs_left by lra. replace (bpow radix2 0) with 1 in X by reflexivity. assert (/ 10 ^ 16 <= bpow radix2 (-53)); [|lra].
    change (bpow radix2 (-53)) with (/ 9007199254740992). apply Rinv_le; lra.
  - assert (X := succ_le_lt radix2 fexp64 _ _ F1 FV L). rewrite succ_eq_pos in X by lra. change 1 with (bpow radix2 0) in X at 2. rewrite ulp_bpow in X. change (fexp64 (0 + 1)) with (-52)%Z in X.
    rewrite Rabs_pos_eq by lra. assert (/ 10 ^ 16 <= bpow radix2 (-52)); [|lra]. change (bpow radix2 (-52)) with (/ 4503599627370496). apply Rinv_le; lra.
Qed.

Lemma one_plus_tiny (z : b64) : finite64 z = true -> Rabs (B2R64 z) <= / 10 ^ 17 -> b64_plus (b64_ofZ 1) z = b64_ofZ 1.
Proof.
  intros F H. destruct (ofZ_exact 1 ltac:(lia)) as (F1 & E1). destruct (plus_xval _ _ F1 F) as (N & V). rewrite E1 in V. apply Rabs_le_inv in H.
  destruct (op_abs _ _ N V) as (Fs & Rs & _); [rewrite Rabs_pos_eq by lra; apply Rle_trans with (10 ^ 1); [lra|apply Rle_pow; [lra|lia]]|].
  apply one_unique; [exact Fs|]. destruct (Req_dec (B2R64 (b64_plus (b64_ofZ 1) z)) 1) as [E|E]; [exact E|exfalso].
  apply away_from_one in E. rewrite Rs in E.
  assert (FF : generic_format radix2 fexp64 1). { change 1 with (bpow radix2 0). apply generic_format_bpow. vm_compute. discriminate. }
  assert (VE : Valid_exp fexp64) by (apply FLT_exp_valid; reflexivity).
  destruct (round_N_pt radix2 fexp64 (fun x => negb (Z.even x)) (1 + B2R64 z)) as (_ & B). specialize (B 1 FF). change (Rabs (rnd (1 + B2R64 z) - (1 + B2R64 z)) <= Rabs (1 - (1 + B2R64 z))) in B.
  replace (1 - (1 + B2R64 z)) with (- B2R64 z) in B by lra. rewrite Rabs_Ropp in B. assert (Z : Rabs (B2R64 z) <= / 10 ^ 17) by (apply Rabs_le; lra).
  pose proof (Rabs_triang (rnd (1 + B2R64 z) - (1 + B2R64 z)) (B2R64 z)) as T. replace (rnd (1 + B2R64 z) - (1 + B2R64 z) + B2R64 z) with (rnd (1 + B2R64 z) - 1) in T by lra. lra.
Qed.

Lemma plus_fin_inv (a b : b64) : finite64 (b64_plus a b) = true -> finite64 b = true.
Proof. intros H. destruct b as [s|s| |s m e W]; try reflexivity; destruct a as [r|r| |r m' e' W']; try discriminate H; destruct r, s; discriminate H. Qed.
Lemma plus_fin_inv_l (a b : b64) : finite64 (b64_plus a b) = true -> finite64 a = true.
Proof. intros H. destruct a as [r|r| |r m' e' W']; try reflexivity; destruct b as [s|s| |s m e W]; try discriminate H; destruct r, s; discriminate H. Qed.
Lemma minus_fin_inv (a b : b64) : finite64 (b64_minus a b) = true -> finite64 a = true.
Proof. intros H. destruct a as [r|r| |r m' e' W']; try reflexivity; destruct b as [s|s| |s m e W]; try discriminate H; destruct r, s; discriminate H. Qed.

Lemma xlog_small (s : b64) : finite64 (xlog (N := B64) musl_utils s) = true -> Rabs (B2R64 (xlog (N := B64) musl_utils s)) <= 746.
Proof.
  intros F. destruct (xlog_range s) as [N|[(z & ->)|(_ & H)]]; [|exfalso|exact H].
  - exfalso. cbv zeta in N. rewrite (finite_not_nan _ F) in N. discriminate.
  - destruct (xlog_special musl_utils (B754_zero z)) as (_ & _ & C & _). rewrite (C z eq_refl) in F. discriminate.
Qed.

Lemma fold_bound (f : b64 -> b64) : (forall y, finite64 (f y) = true -> Rabs (B2R64 (f y)) <= 746) ->
  forall (w : list b64) (r : b64) (k : Z), (0 <= k)%Z -> (k + Z.of_nat (length w) <= 2 ^ 50)%Z -> Rabs (B2R64 r) <= 1000 * IZR k ->
  finite64 (fold_left (fun r v => b64_plus r (f v)) w r) = true ->
  Rabs (B2R64 (fold_left (fun r v => b64_plus r (f v)) w r)) <= 1000 * IZR (k + Z.of_nat (length w)).
Proof.
  intros B w. induction w as [|y w IH]; intros r k K0 KL HR F; cbn [fold_left length] in *; [rewrite Z.add_0_r; exact HR|].
  assert (FP : finite64 (b64_plus r (f y)) = true). { clear - F. revert F. generalize (b64_plus r (f y)). induction w as [|z w IH]; intros a F; cbn [fold_left] in F; [exact F|]. apply IH in F. apply plus_fin_inv_l in F. exact F. }
  pose proof (plus_fin_inv _ _ FP) as Ff. pose proof (plus_fin_inv_l _ _ FP) as Fr. specialize (B y Ff) as By.
  destruct (plus_xval _ _ Fr Ff) as (N & V). assert (K1 : IZR k <= 1125899906842624) by (apply IZR_le; lia). assert (K2 : 0 <= IZR k) by (apply IZR_le; lia).
  pose proof (Rabs_triang (B2R64 r) (B2R64 (f y))) as T.
  assert (T3 : 10 ^ 20 <= 10 ^ 300) by (apply Rle_pow; [lra|lia]).
  destruct (op_abs _ _ N V ltac:(lra)) as (_ & _ & A). set (q := B2R64 (b64_plus r (f y))) in *. set (t := B2R64 r + B2R64 (f y)) in *.
  pose proof (Rabs_triang (q - t) t) as T2. replace (q - t + t) with q in T2 by lra. pose proof inv59_le as I59.
  replace (k + Z.of_nat (S (length w)))%Z with ((k + 1) + Z.of_nat (length w))%Z by lia.
  apply IH; [lia|lia| |exact F]. fold q. rewrite plus_IZR. unfold eps in A. lra.
Qed.

(** ** The parameters of the method of moments *)
Section Moments.
Variable p : peaks B64.
Hypothesis FE : finite64 (peaks_mean p) = true.
Hypothesis HE : / 10 ^ 80 <= B2R64 (peaks_mean p) <= 10 ^ 31.
Hypothesis FVar : finite64 (peaks_var p) = true.
Hypothesis HVar : B2R64 (peaks_mean p) * B2R64 (peaks_mean p) <= 10 ^ 6 * B2R64 (peaks_var p).

Lemma mom_size : finite64 (mom_ratio p) = true /\ 0 <= B2R64 (mom_ratio p) <= 12 / 10 * 10 ^ 6.
Proof.
  unfold mom_ratio. set (E := B2R64 (peaks_mean p)) in *. set (Vr := B2R64 (peaks_var p)) in *. assert (P80 : 0 < / 10 ^ 80) by (apply Rinv_0_lt_compat, pow_lt; lra).
  assert (EL : / 10 ^ 80 <= E) by lra. assert (EE : / 10 ^ 80 * / 10 ^ 80 <= E * E <= 10 ^ 62).
  { split; [apply Rmult_le_compat; lra|]. apply Rle_trans with (10 ^ 31 * 10 ^ 31); [apply Rmult_le_compat; lra|lra]. }
  assert (P160 : 0 < / 10 ^ 80 * / 10 ^ 80) by (apply Rmult_lt_0_compat; exact P80).
  assert (VP : 0 < Vr) by lra.
  destruct (mult_xval _ _ FE FE) as (N1 & V1). fold E in V1. assert (T : 10 ^ 62 <= 10 ^ 300) by (apply Rle_pow; [lra|lia]).
  destruct (op_abs _ _ N1 V1 ltac:(rewrite Rabs_pos_eq; lra)) as (F1 & R1 & _). set (e2 := b64_mult (peaks_mean p) (peaks_mean p)) in *.
  assert (RR := rnd_rel (E * E)). rewrite <- R1, (Rabs_pos_eq (E * E)) in RR by lra.
  assert (L : bpow radix2 (-1022) <= E * E).
  { apply Rle_trans with (2 := proj1 EE). rewrite <- Rinv_mult, <- pow_add. change (bpow radix2 (-1022)) with (/ IZR (2 ^ 1022)). apply Rinv_le; [apply pow_lt; lra|]. rewrite pow_IZR. apply IZR_le. vm_compute. discriminate. }
  specialize (RR L). apply Rabs_le_inv in RR.
  assert (E2B : 0 <= B2R64 e2 <= 11 / 10 * (E * E)) by (unfold eps in RR; lra).
  destruct (div_xval e2 (peaks_var p) F1 FVar ltac:(fold Vr; lra)) as (N2 & V2). fold Vr in V2.
  assert (QB : 0 <= B2R64 e2 / Vr <= 11 / 10 * 10 ^ 6).
  { assert (0 < / Vr) by (apply Rinv_0_lt_compat; lra). split; [unfold Rdiv; apply Rmult_le_pos; lra|]. apply Rmult_le_reg_r with Vr; [exact VP|]. unfold Rdiv. rewrite Rmult_assoc, Rinv_l by lra. lra. }
  assert (T7 : 10 ^ 7 <= 10 ^ 300) by (apply Rle_pow; [lra|lia]).
  destruct (op_abs _ _ N2 V2 ltac:(rewrite Rabs_pos_eq; lra)) as (F2 & R2 & A2). rewrite (Rabs_pos_eq (B2R64 e2 / Vr)) in A2 by lra. apply Rabs_le_inv in A2. pose proof inv59_le.
  split; [exact F2|]. split; [rewrite R2; apply rnd_nonneg; lra|]. unfold eps in A2. lra.
Qed.

Lemma mom_ratio_range : B2R64 (mom_gamma p) = 0 \/ (Rabs (B2R64 (mom_gamma p)) <= 10 ^ 6 /\ / 10 ^ 300 <= B2R64 (mom_sigma p) / Rabs (B2R64 (mom_gamma p)) <= 10 ^ 300).
Proof.
  destruct mom_size as (FR & BR). unfold mom_gamma, mom_sigma. set (R := mom_ratio p) in *. change half with half64 in *. change (Spec.d 1) with (b64_ofZ 1) in *.
  destruct (ofZ_exact 1 ltac:(lia)) as (F1 & E1). pose proof inv59_le as I59. pose proof inv59_pos as I59'. assert (T3 : 10 ^ 40 <= 10 ^ 300) by (apply Rle_pow; [lra|lia]).
  assert (B1 : Rabs (1 - B2R64 R) <= 13 / 10 * 10 ^ 6) by (apply Rabs_le; lra).
  destruct (minus_rel (b64_ofZ 1) R F1 FR) as (Fd & Rd); [rewrite E1; lra|]. rewrite E1 in Rd. set (dd := b64_minus (b64_ofZ 1) R) in *.
  destruct (Req_dec (B2R64 R) 1) as [C|C].
  { left. replace (B2R64 R) with 1 in Rd by lra. replace (1 - 1) with 0 in Rd by lra. rewrite Rabs_R0, Rmult_0_r in Rd. pose proof (Rabs_pos (B2R64 dd - 0)).
    assert (D0 : B2R64 dd = 0). { destruct (Req_dec (B2R64 dd - 0) 0) as [Q|Q]; [lra|]. apply Rabs_no_R0 in Q. lra. }
    destruct (mult_xval half64 dd half64_fin Fd) as (Nm & Vm). rewrite D0, Rmult_0_r, rndc_0 in Vm.
    assert (Fm' : finite64 (b64_mult half64 dd) = true) by (apply finite_of_xval; [exact Nm|]; rewrite Vm, Rabs_R0; apply TOP_pos). rewrite (xval_finite _ Fm') in Vm. exact Vm. }
  right. pose proof (away_from_one R C) as AW. assert (AW' : / 10 ^ 16 <= Rabs (1 - B2R64 R)) by (rewrite Rabs_minus_sym; exact AW).
  pose proof (Rabs_triang (B2R64 dd - (1 - B2R64 R)) (1 - B2R64 R)) as T1. replace (B2R64 dd - (1 - B2R64 R) + (1 - B2R64 R)) with (B2R64 dd) in T1 by lra.
  pose proof (Rabs_triang (- (B2R64 dd - (1 - B2R64 R))) (B2R64 dd)) as T2. rewrite Rabs_Ropp in T2. replace (- (B2R64 dd - (1 - B2R64 R)) + B2R64 dd) with (1 - B2R64 R) in T2 by lra.
  assert (DB : 9 / 10 ^ 17 <= Rabs (B2R64 dd) <= 14 / 10 * 10 ^ 6) by (unfold eps in Rd; lra).
  destruct (mult_xval half64 dd half64_fin Fd) as (Nm & Vm). rewrite half64_val in Vm.
  assert (HB : Rabs (1 / 2 * B2R64 dd) = 1 / 2 * Rabs (B2R64 dd)) by (rewrite Rabs_mult, (Rabs_pos_eq (1 / 2)) by lra; reflexivity).
  destruct (op_abs _ _ Nm Vm ltac:(rewrite HB; lra)) as (Fg & _ & Ag). rewrite HB in Ag. set (g := b64_mult half64 dd) in *.
  pose proof (Rabs_triang (B2R64 g - 1 / 2 * B2R64 dd) (1 / 2 * B2R64 dd)) as T4. replace (B2R64 g - 1 / 2 * B2R64 dd + 1 / 2 * B2R64 dd) with (B2R64 g) in T4 by lra.
  pose proof (Rabs_triang (- (B2R64 g - 1 / 2 * B2R64 dd)) (B2R64 g)) as T5. rewrite Rabs_Ropp in T5. replace (- (B2R64 g - 1 / 2 * B2R64 dd) + B2R64 g) with (1 / 2 * B2R64 dd) in T5 by lra.
  rewrite HB in T4, T5. assert (GB : / 10 ^ 17 <= Rabs (B2R64 g) <= 8 / 10 * 10 ^ 6) by (unfold eps in Ag; lra).
  set (E := B2R64 (peaks_mean p)) in *. assert (P80 : 0 < / 10 ^ 80) by (apply Rinv_0_lt_compat, pow_lt; lra).
  destruct (mult_xval half64 (peaks_mean p) half64_fin FE) as (Nh & Vh). rewrite half64_val in Vh. fold E in Vh.
  destruct (op_abs _ _ Nh Vh ltac:(rewrite Rabs_pos_eq; lra)) as (Fh & Rh & _). pose proof (rnd_rel (1 / 2 * E)) as RRh. rewrite <- Rh, (Rabs_pos_eq (1 / 2 * E)) in RRh by lra.
  assert (Lh : bpow radix2 (-1022) <= 1 / 2 * E).
  { apply Rle_trans with (/ 2 * / 10 ^ 80); [|lra]. change (bpow radix2 (-1022)) with (/ IZR (2 ^ 1022)). rewrite <- Rinv_mult. apply Rinv_le; [apply Rmult_lt_0_compat; [lra|apply pow_lt; lra]|]. rewrite pow_IZR, <- mult_IZR. apply IZR_le. vm_compute. discriminate. }
  specialize (RRh Lh). apply Rabs_le_inv in RRh. set (h := b64_mult half64 (peaks_mean p)) in *.
  assert (HB2 : 4 / 10 * E <= B2R64 h <= 6 / 10 * E) by (unfold eps in RRh; lra).
  destruct (plus_xval _ _ F1 FR) as (Np & Vp). rewrite E1 in Vp. destruct (op_abs _ _ Np Vp ltac:(rewrite Rabs_pos_eq; lra)) as (Fp & _ & Ap). rewrite (Rabs_pos_eq (1 + B2R64 R)) in Ap by lra.
  apply Rabs_le_inv in Ap. set (o := b64_plus (b64_ofZ 1) R) in *. assert (OB : 9 / 10 <= B2R64 o <= 13 / 10 * 10 ^ 6) by (unfold eps in Ap; lra).
  destruct (mult_xval h o Fh Fp) as (Ns & Vs).
  assert (PB : / 10 * / 10 ^ 80 <= B2R64 h * B2R64 o <= 10 ^ 38).
  { split; [apply Rle_trans with (4 / 10 * E * (9 / 10)); [lra|apply Rmult_le_compat; lra]|]. apply Rle_trans with (10 ^ 31 * (13 / 10 * 10 ^ 6)); [apply Rmult_le_compat; lra|lra]. }
  destruct (op_abs _ _ Ns Vs ltac:(rewrite Rabs_pos_eq; lra)) as (Fs & Rs & _). pose proof (rnd_rel (B2R64 h * B2R64 o)) as RRs. rewrite <- Rs, (Rabs_pos_eq (B2R64 h * B2R64 o)) in RRs by lra.
  assert (Ls : bpow radix2 (-1022) <= B2R64 h * B2R64 o).
  { apply Rle_trans with (2 := proj1 PB). change (bpow radix2 (-1022)) with (/ IZR (2 ^ 1022)). rewrite <- Rinv_mult. apply Rinv_le; [apply Rmult_lt_0_compat; [lra|apply pow_lt; lra]|]. rewrite pow_IZR, <- mult_IZR. apply IZR_le. vm_compute. discriminate. }
  specialize (RRs Ls). apply Rabs_le_inv in RRs. set (s := b64_mult h o) in *.
  assert (SB : / 10 ^ 82 <= B2R64 s <= 10 ^ 39).
  { assert (/ 10 ^ 82 <= / 10 * / 10 ^ 80 * / 2). { rewrite <- !Rinv_mult. apply Rinv_le; [repeat apply Rmult_lt_0_compat; try apply pow_lt; lra|lra]. } unfold eps in RRs. split; lra. }
  set (ag := Rabs (B2R64 g)) in *. assert (P17 : 0 < / 10 ^ 17) by (apply Rinv_0_lt_compat, pow_lt; lra). assert (A0 : 0 < ag) by lra. assert (P82 : 0 < / 10 ^ 82) by (apply Rinv_0_lt_compat, pow_lt; lra).
  split; [lra|]. unfold Rdiv. assert (IA : / 10 ^ 6 <= / ag <= 10 ^ 17).
  { split; [apply Rinv_le; lra|]. replace (10 ^ 17) with (/ / 10 ^ 17) by (rewrite Rinv_inv; reflexivity). apply Rinv_le; lra. }
  assert (P6 : 0 < / 10 ^ 6) by (apply Rinv_0_lt_compat, pow_lt; lra).
  split.
  - apply Rle_trans with (/ 10 ^ 82 * / 10 ^ 6); [|apply Rmult_le_compat; lra]. rewrite <- Rinv_mult, <- pow_add. apply Rinv_le; [apply pow_lt; lra|]. apply Rle_pow; [lra|lia].
  - apply Rle_trans with (10 ^ 39 * 10 ^ 17); [apply Rmult_le_compat; lra|]. rewrite <- pow_add. apply Rle_pow; [lra|lia].
Qed.
End Moments.
