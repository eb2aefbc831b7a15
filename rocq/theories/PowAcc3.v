(** * Lemmas: loss of the quantile for shapes near zero (C55) *)
From Coq Require Import ZArith List Bool Reals Lra Lia Psatz.
From Flocq Require Import Core.Core IEEE754.BinarySingleNaN.
From Verif Require Import Num XMath B64 RNum B64Facts FloatErr FloatUtilsLemmas LogExact LogAcc ExpExact ExpB64 ExpAcc
  Ubend Peaks Brent Estimator Tail Spot CastLemmas AccSpec PowAcc PowAcc2.
Open Scope R_scope.

(** crude enclosures of the operations *)
Definition inr (v : b64) (lo hi : R) : Prop := finite64 v = true /\ lo <= B2R64 v <= hi.
Lemma inr_of v t lo hi : nan64 v = false -> xval v = rndc t -> lo <= t <= hi -> 0 <= hi <= 10 ^ 6 -> - 10 ^ 6 <= lo ->
  inr v (lo - 1 / 10 ^ 9 * (Rabs t) - 1 / 10 ^ 50) (hi + 1 / 10 ^ 9 * Rabs t + 1 / 10 ^ 50).
Proof.
  intros N V H Hh Hl. assert (A : Rabs t <= 10 ^ 6) by (apply Rabs_le; lra).
  assert (10 ^ 6 <= 10 ^ 300) by (apply Rle_pow; [lra|lia]).
  destruct (op_abs v t N V ltac:(lra)) as (F & _ & R). split; [exact F|]. pose proof inv59_le. pose proof (Rabs_pos t).
  apply Rabs_le_inv in R. unfold eps in R. lra.
Qed.
Lemma inr_Z z : (Z.abs z <= 2 ^ 53)%Z -> inr (b64_ofZ z) (IZR z) (IZR z).
Proof. intros H. destruct (ofZ_exact z H) as (F & E). split; [exact F|]. rewrite E. lra. Qed.

Lemma inr_mult a b A B C : inr a 0 A -> inr b 0 B -> A * B <= C -> C <= 1000 -> inr (b64_mult a b) 0 (C * (1 + 1 / 10 ^ 8) + 1 / 10 ^ 50).
Proof.
  intros (Fa & Ha) (Fb & Hb) HC H3. destruct (mult_xval a b Fa Fb) as (N & V).
  assert (P : 0 <= B2R64 a * B2R64 b <= C). { split; [apply Rmult_le_pos; lra|]. apply Rle_trans with (A * B); [apply Rmult_le_compat; lra|lra]. }
  destruct (inr_of _ _ 0 C N V P ltac:(lra) ltac:(lra)) as (F & R). split; [exact F|].
  assert (O : 0 <= xval (b64_mult a b)) by (rewrite V, <- rndc_0; apply rndc_mono; apply P). rewrite xval_finite in O by exact F.
  rewrite Rabs_pos_eq in R by apply P. lra.
Qed.
(** numerator in [0, A], denominator at least 1 *)
Lemma inr_div a b A B : inr a 0 A -> inr b 1 B -> A <= 1000 -> inr (b64_div a b) 0 (A * (1 + 1 / 10 ^ 8) + 1 / 10 ^ 50).
Proof.
  intros (Fa & Ha) (Fb & Hb) HA. destruct (div_xval a b Fa Fb ltac:(lra)) as (N & V).
  assert (P : 0 <= B2R64 a / B2R64 b <= A).
  { split.
    - apply Rmult_le_pos; [lra|]. left. apply Rinv_0_lt_compat. lra.
    - apply Rmult_le_reg_r with (B2R64 b); [lra|]. unfold Rdiv. rewrite Rmult_assoc, Rinv_l by lra. nra. }
  destruct (inr_of _ _ 0 A N V P ltac:(lra) ltac:(lra)) as (F & R). split; [exact F|].
  assert (O : 0 <= xval (b64_div a b)) by (rewrite V, <- rndc_0; apply rndc_mono; apply P). rewrite xval_finite in O by exact F.
  rewrite Rabs_pos_eq in R by apply P. lra.
Qed.
(** a small number plus a constant *)
Lemma inr_plus a A z : inr a (- A) A -> 0 <= A <= 1 / 10 -> (0 < z <= 1000)%Z -> inr (b64_plus a (b64_ofZ z)) (IZR z - 2 / 10) (IZR z + 2 / 10).
Proof.
  intros (Fa & Ha) HA Hz. destruct (inr_Z z ltac:(lia)) as (Fz & Ez). destruct (plus_xval a _ Fa Fz) as (N & V).
  assert (0 < IZR z) by (apply IZR_lt; lia). assert (IZR z <= 1000) by (apply IZR_le; lia).
  assert (P : IZR z - 1 / 10 <= B2R64 a + B2R64 (b64_ofZ z) <= IZR z + 1 / 10) by lra.
  destruct (inr_of _ _ _ _ N V P ltac:(lra) ltac:(lra)) as (F & R). split; [exact F|].
  assert (Rabs (B2R64 a + B2R64 (b64_ofZ z)) <= 1001) by (apply Rabs_le; lra). lra.
Qed.

Lemma one_plus_tiny (t : b64) : finite64 t = true -> 0 <= B2R64 t <= / 9007199254740992 -> B2R64 (b64_plus t (b64_ofZ 1)) = 1 /\ finite64 (b64_plus t (b64_ofZ 1)) = true.
Proof.
  intros F H. destruct (ofZ_exact 1 ltac:(lia)) as (F1 & E1). destruct (plus_xval t _ F F1) as (N & V). rewrite E1 in V.
  set (h := b64_div (b64_ofZ 1) (b64_ofZ (2 ^ 53)) : b64).
  assert (Eh : finite64 h = true /\ B2R64 h = / 9007199254740992).
  { assert (E : B2SF h = SpecFloat.S754_finite false 4503599627370496 (-105)) by (vm_compute; reflexivity).
    destruct h as [s|s| |s m e X]; try discriminate. injection E as -> -> ->. split; [reflexivity|].
    unfold B2R, F2R. cbn [Fnum Fexp cond_Zopp]. replace (bpow radix2 (-105)) with (/ 40564819207303340847894502572032) by (simpl; lra). lra. }
  destruct Eh as (Fh & Eh). destruct (plus_xval h _ Fh F1) as (_ & Vh). rewrite E1, Eh in Vh.
  assert (Th : xval (b64_plus h (b64_ofZ 1)) = 1).
  { assert (E : B2SF (b64_plus h (b64_ofZ 1)) = SpecFloat.S754_finite false 4503599627370496 (-52)) by (vm_compute; reflexivity).
    destruct (b64_plus h (b64_ofZ 1)) as [s|s| |s m e X]; try discriminate. injection E as -> -> ->.
    cbn [xval]. unfold B2R, F2R. cbn [Fnum Fexp cond_Zopp]. replace (bpow radix2 (-52)) with (/ 4503599627370496) by (simpl; lra). lra. }
  assert (A : 1 <= xval (b64_plus t (b64_ofZ 1))).
  { rewrite V. apply Rle_trans with (rndc 1); [|apply rndc_mono; lra]. rewrite <- E1 at 2. rewrite rndc_format, E1. lra. }
  assert (B : xval (b64_plus t (b64_ofZ 1)) <= 1). { rewrite V, <- Th, Vh. apply rndc_mono. lra. }
  assert (FF : finite64 (b64_plus t (b64_ofZ 1)) = true).
  { apply finite_of_xval; [exact N|]. rewrite Rabs_pos_eq by lra. pose proof TOP_300. pose proof ten300. lra. }
  rewrite xval_finite in A, B by exact FF. split; [lra|exact FF].
Qed.

(** the continued fraction is one plus a nonnegative double *)
Lemma exp_cf_quotient (z : b64) : finite64 z = true -> 0 <= B2R64 z <= 1 / 1000 ->
  exists q, exp_cf_6 (N := B64) z = b64_plus q (b64_ofZ 1) /\ finite64 q = true /\ 0 <= B2R64 q <= 1112 / 1000 * B2R64 z + 1 / 10 ^ 40.
Proof.
  intros F H. assert (Iz : inr z 0 (1 / 1000)) by (split; [exact F|lra]).
  unfold exp_cf_6. change (@nmul B64) with b64_mult. change (@ndiv B64) with b64_div. change (@nadd B64) with b64_plus. change (@nsub B64) with b64_minus. change (@nofZ B64) with b64_ofZ.
  set (z2 := b64_mult z z).
  assert (I2 : inr z2 0 (2 / 10 ^ 6)). { destruct (inr_mult z z _ _ (1 / 10 ^ 6) Iz Iz ltac:(lra) ltac:(lra)) as (A & B). fold z2 in A, B. split; [exact A|lra]. }
  assert (M : forall k, (0 <= k <= 140)%Z -> inr (b64_mult (b64_ofZ k) z2) 0 (3 / 10 ^ 4)).
  { intros k Hk. assert (0 <= IZR k) by (apply IZR_le; lia). assert (IZR k <= 140) by (apply IZR_le; lia).
    destruct (inr_mult (b64_ofZ k) z2 140 (2 / 10 ^ 6) (280 / 10 ^ 6)) as (A & B); try lra; [|exact I2|].
    - destruct (inr_Z k ltac:(lia)) as (Fk & Ek). split; [exact Fk|lra].
    - split; [exact A|lra]. }
  assert (D : forall k b B, (0 <= k <= 140)%Z -> inr b 1 B -> inr (b64_div (b64_mult (b64_ofZ k) z2) b) (- (1 / 100)) (1 / 100)).
  { intros k b B Hk Hb. destruct (inr_div _ b _ B (M k Hk) Hb ltac:(lra)) as (A1 & A2). split; [exact A1|lra]. }
  assert (S : forall a k, (2 <= k <= 252)%Z -> inr a (- (1 / 100)) (1 / 100) -> inr (b64_plus a (b64_ofZ k)) 1 1000).
  { intros a k Hk (Fa & Ha). assert (2 <= IZR k) by (apply IZR_le; lia). assert (IZR k <= 252) by (apply IZR_le; lia).
    destruct (inr_plus a (1 / 100) k) as (A1 & A2); try lra; [split; [exact Fa|lra]|lia|]. split; [exact A1|lra]. }
  assert (I11 : inr (b64_ofZ 11) 1 11) by (destruct (inr_Z 11 ltac:(lia)) as (A & B); split; [exact A|lra]).
  pose proof (S _ 252%Z ltac:(lia) (D 7%Z _ _ ltac:(lia) I11)) as S5.
  pose proof (S _ 140%Z ltac:(lia) (D 140%Z _ _ ltac:(lia) S5)) as S4.
  pose proof (S _ 60%Z ltac:(lia) (D 60%Z _ _ ltac:(lia) S4)) as S3.
  pose proof (S _ 12%Z ltac:(lia) (D 12%Z _ _ ltac:(lia) S3)) as S2.
  pose proof (D 2%Z _ _ ltac:(lia) S2) as S1. set (d1 := b64_div (b64_mult (b64_ofZ 2) z2) _) in *.
  assert (S0 : inr (b64_minus d1 z) (- (2 / 100)) (2 / 100)).
  { destruct S1 as (F1 & H1). destruct (minus_xval d1 z F1 F) as (N & V).
    destruct (inr_of _ _ (- (12 / 1000)) (12 / 1000) N V ltac:(lra) ltac:(lra) ltac:(lra)) as (A & B). split; [exact A|].
    assert (Rabs (B2R64 d1 - B2R64 z) <= 1) by (apply Rabs_le; lra). lra. }
  assert (Sd : inr (b64_plus (b64_minus d1 z) (b64_ofZ 2)) (18 / 10) (22 / 10)).
  { destruct (inr_plus _ (2 / 100) 2 S0 ltac:(lra) ltac:(lia)) as (A & B). split; [exact A|lra]. }
  set (d0 := b64_plus (b64_minus d1 z) (b64_ofZ 2)) in *.
  assert (T : inr (b64_mult (b64_ofZ 2) z) 0 (2 * B2R64 z * (1 + 1 / 10 ^ 8) + 1 / 10 ^ 50)).
  { destruct (inr_Z 2 ltac:(lia)) as (F2 & E2). apply (inr_mult (b64_ofZ 2) z 2 (B2R64 z)); [split; [exact F2|lra]|split; [exact F|lra]|lra|lra]. }
  destruct T as (Ft & Ht). destruct Sd as (Fd & Hd).
  destruct (div_xval _ d0 Ft Fd ltac:(lra)) as (N & V). exists (b64_div (b64_mult (b64_ofZ 2) z) d0). split; [reflexivity|].
  assert (Q : 0 <= B2R64 (b64_mult (b64_ofZ 2) z) / B2R64 d0 <= 11115 / 10000 * B2R64 z + 1 / 10 ^ 45).
  { split.
    - apply Rmult_le_pos; [lra|]. left. apply Rinv_0_lt_compat. lra.
    - apply Rmult_le_reg_r with (B2R64 d0); [lra|]. unfold Rdiv at 1. rewrite Rmult_assoc, Rinv_l by lra. nra. }
  destruct (inr_of _ _ _ _ N V Q ltac:(lra) ltac:(lra)) as (Fq & Hq). rewrite Rabs_pos_eq in Hq by apply Q.
  assert (O : 0 <= xval (b64_div (b64_mult (b64_ofZ 2) z) d0)) by (rewrite V, <- rndc_0; apply rndc_mono; apply Q). rewrite xval_finite in O by exact Fq.
  split; [exact Fq|]. lra.
Qed.

Lemma exp_cf_tiny (z : b64) : finite64 z = true -> 0 <= B2R64 z <= 99 / 10 ^ 18 ->
  finite64 (exp_cf_6 (N := B64) z) = true /\ B2R64 (exp_cf_6 (N := B64) z) = 1.
Proof.
  intros F H. destruct (exp_cf_quotient z F ltac:(lra)) as (q & -> & Fq & Hq).
  destruct (one_plus_tiny q Fq ltac:(lra)) as (A & B). auto.
Qed.

Lemma inverse_of_one (v : b64) : finite64 v = true -> B2R64 v = 1 -> finite64 (b64_div (b64_ofZ 1) v) = true /\ B2R64 (b64_div (b64_ofZ 1) v) = 1.
Proof.
  intros F E. destruct (ofZ_exact 1 ltac:(lia)) as (F1 & E1). destruct (div_xval (b64_ofZ 1) v F1 F ltac:(lra)) as (N & V).
  rewrite E1, E in V. replace (1 / 1) with (B2R64 (b64_ofZ 1)) in V by lra. rewrite rndc_format, E1 in V.
  assert (FF : finite64 (b64_div (b64_ofZ 1) v) = true).
  { apply finite_of_xval; [exact N|]. rewrite V, Rabs_R1. pose proof TOP_300. pose proof ten300. lra. }
  rewrite xval_finite in V by exact FF. auto.
Qed.

Lemma xexp_tiny (y : b64) : finite64 y = true -> Rabs (B2R64 y) <= 99 / 10 ^ 18 ->
  exists v, xexp (N := B64) musl_utils y = Ret (v : num B64) /\ finite64 v = true /\ B2R64 v = 1.
Proof.
  intros F H. pose proof (finite_not_nan y F) as Ny. pose proof L2_range as RL.
  assert (P : forall x : b64, finite64 x = true -> 0 <= B2R64 x <= 99 / 10 ^ 18 ->
    exists v, xexp_body (N := B64) musl_utils (fun _ => Undef Diverge) x = Ret (v : num B64) /\ finite64 v = true /\ B2R64 v = 1).
  { intros x Fx Hx. destruct (exp_cf_tiny x Fx Hx) as (A & B). exists (exp_cf_6 (N := B64) x). split; [|auto].
    rewrite body_nonneg by (assumption || apply Hx). rewrite ltb_L2, Rlt_bool_false by (assumption || lra). reflexivity. }
  destruct (Rlt_le_dec (B2R64 y) 0) as [C|C].
  - rewrite Rabs_left in H by assumption. destruct (P (b64_opp y)) as (v & E & Fv & Ev).
    { rewrite finite_opp. assumption. } { unfold b64_opp. rewrite B2R_Bopp. lra. }
    rewrite xexp_neg by (assumption || (rewrite xval_finite; assumption)). 
    match goal with |- context [xexp_body ?a ?b ?c] => change (xexp_body a b c) with (xexp_body (N := B64) musl_utils (fun _ => Undef Diverge) (b64_opp y)) end.
    rewrite E. destruct (inverse_of_one v Fv Ev) as (A & B). exists (b64_div (b64_ofZ 1) v). auto.
  - rewrite Rabs_pos_eq in H by assumption. rewrite xexp_nonneg by (assumption || (rewrite xval_finite by assumption; assumption)). apply P; [assumption|lra].
Qed.

Lemma plus_zero (e y : b64) : finite64 e = true -> finite64 y = true -> B2R64 y = 0 -> finite64 (b64_plus e y) = true /\ B2R64 (b64_plus e y) = B2R64 e.
Proof.
  intros Fe Fy Ey. destruct (plus_xval e y Fe Fy) as (N & V). rewrite Ey, Rplus_0_r, rndc_format in V.
  assert (FF : finite64 (b64_plus e y) = true). { apply finite_of_xval; [exact N|]. rewrite V. apply abs_B2R_TOP. }
  rewrite xval_finite in V by exact FF. auto.
Qed.
Lemma mult_zero (c w : b64) : finite64 c = true -> finite64 w = true -> B2R64 w = 0 -> finite64 (b64_mult c w) = true /\ B2R64 (b64_mult c w) = 0.
Proof.
  intros Fc Fw Ew. destruct (mult_xval c w Fc Fw) as (N & V). rewrite Ew, Rmult_0_r, rndc_0 in V.
  assert (FF : finite64 (b64_mult c w) = true). { apply finite_of_xval; [exact N|]. rewrite V, Rabs_R0. apply TOP_pos. }
  rewrite xval_finite in V by exact FF. auto.
Qed.

Lemma quantile_collapse (s : spot B64) et dir sigma gamma (q : b64) :
  finite_detector s et dir sigma gamma -> finite64 q = true -> / 10 ^ 30 <= sigma <= 10 ^ 30 -> / 10 ^ 200 <= Rabs gamma ->
  / 10 ^ 40 <= B2R64 q <= 1 -> Rabs gamma * (Rabs (ln (relative_risk s (B2R64 q))) + 1 / 10 ^ 3) <= 98 / 10 ^ 18 ->
  exists v : b64, spot_quantile (c_math musl_utils) s q = Ret v /\ finite64 v = true /\ B2R64 v = et.
Proof.
  intros (Fe & Ee & Hd & Fs & Es & Ps & Fg & Eg & HN & Hn) Fq Hs Hg Hq HL. set (rho := relative_risk s (B2R64 q)) in *.
  destruct (risk_near q _ _ Fq Hq HN Hn) as (Nx & B). change (B2R64 q / (IZR (s_Nt s) / IZR (s_n s))) with rho in Nx, B.
  set (r := b64_div q (b64_div (b64_ofZ (s_Nt s)) (b64_ofZ (s_n s)))) in *.
  assert (P40 : 0 < / 10 ^ 40) by (apply Rinv_0_lt_compat, pow_lt; lra).
  assert (P200 : 0 < / 10 ^ 200) by (apply Rinv_0_lt_compat, pow_lt; lra).
  assert (P30 : 0 < / 10 ^ 30) by (apply Rinv_0_lt_compat, pow_lt; lra).
  assert (G0 : gamma <> 0) by (intros X; rewrite X, Rabs_R0 in Hg; lra).
  destruct (xlog_near r rho _ Nx ltac:(lra) ltac:(unfold eps; lra)) as (Fl & _ & El). set (l := xlog (N := B64) musl_utils r : b64) in *.
  pose proof (ln_rho rho B) as LR. pose proof (Rabs_pos (ln rho)) as L0.
  assert (K1 : log_error (1 / 5) (3 / 5) rho <= 1 / 10 ^ 9). { unfold log_error. destruct Rle_dec; [destruct Rlt_dec|]; lra. }
  set (e := b64_opp (t_gamma (s_tail s)) : b64). assert (Fe2 : finite64 e = true) by (unfold e; rewrite finite_opp; exact Fg).
  assert (Ve : B2R64 e = - gamma) by (unfold e, b64_opp; rewrite B2R_Bopp, Eg; reflexivity).
  destruct (mult_xval e l Fe2 Fl) as (N & V).
  assert (LL : Rabs (B2R64 l) <= Rabs (ln rho) + 1 / 10 ^ 8).
  { pose proof (Rabs_triang (B2R64 l - ln rho) (ln rho)) as T. replace (B2R64 l - ln rho + ln rho) with (B2R64 l) in T by lra. unfold eps in El. lra. }
  assert (PR : Rabs (B2R64 e * B2R64 l) <= 98 / 10 ^ 18).
  { rewrite Rabs_mult, Ve, Rabs_Ropp. eapply Rle_trans; [|exact HL]. apply Rmult_le_compat_l; [apply Rabs_pos|lra]. }
  pose proof ten300. destruct (op_abs _ _ N V ltac:(lra)) as (Fy & _ & Ry). pose proof inv59_le.
  assert (YY : Rabs (B2R64 (b64_mult e l)) <= 99 / 10 ^ 18).
  { pose proof (Rabs_triang (B2R64 (b64_mult e l) - B2R64 e * B2R64 l) (B2R64 e * B2R64 l)) as T.
    replace (B2R64 (b64_mult e l) - B2R64 e * B2R64 l + B2R64 e * B2R64 l) with (B2R64 (b64_mult e l)) in T by lra. unfold eps in Ry. lra. }
  destruct (xexp_tiny _ Fy YY) as (p & Ep & Fp & Vp).
  assert (Fw : finite64 (b64_minus p (b64_ofZ 1)) = true /\ B2R64 (b64_minus p (b64_ofZ 1)) = 0).
  { assert (10 ^ 0 <= 10 ^ 200) by (apply Rle_pow; [lra|lia]). destruct (minus_one_rel p Fp) as (A & C); [rewrite Vp, Rabs_R1; simpl in *; lra|]. split; [exact A|].
    rewrite Vp, Rminus_eq_0, Rabs_R0, Rminus_0_r in C. rewrite Rmult_0_r in C. pose proof (Rabs_pos (B2R64 (b64_minus p (b64_ofZ 1)))) as C2.
    destruct (Req_dec (B2R64 (b64_minus p (b64_ofZ 1))) 0) as [X|X]; [exact X|]. apply Rabs_pos_lt in X. lra. }
  destruct Fw as (Fw & Vw).
  assert (Fc : finite64 (b64_div (t_sigma (s_tail s)) (t_gamma (s_tail s))) = true).
  { destruct (div_xval _ _ Fs Fg ltac:(rewrite Eg; exact G0)) as (Nc & Vc). apply (op_abs _ _ Nc Vc). rewrite Es, Eg.
    unfold Rdiv. rewrite Rabs_mult, Rabs_inv, (Rabs_pos_eq sigma) by lra.
    apply Rmult_le_reg_r with (Rabs gamma); [lra|]. rewrite Rmult_assoc, Rinv_l, Rmult_1_r by lra.
    apply Rle_trans with (10 ^ 300 * / 10 ^ 200); [|apply Rmult_le_compat_l; lra]. apply Rle_trans with (10 ^ 30); [lra|].
    apply Rmult_le_reg_r with (10 ^ 200); [apply pow_lt; lra|]. rewrite Rmult_assoc, Rinv_l, Rmult_1_r by (apply pow_nonzero; lra).
    rewrite <- pow_add. apply Rle_pow; [lra|lia]. }
  destruct (mult_zero _ _ Fc Fw Vw) as (Fz & Vz). set (z := b64_mult (b64_div (t_sigma (s_tail s)) (t_gamma (s_tail s))) (b64_minus p (b64_ofZ 1))) in *.
  assert (Fu : finite64 (s_updown s) = true) by (destruct Hd as [(-> & _)|(-> & _)]; apply ofZ_exact; lia).
  destruct (mult_zero _ _ Fu Fz Vz) as (Fm & Vm).
  destruct (plus_zero (s_et s) _ Fe Fm Vm) as (Fv & Vv). exists (b64_plus (s_et s) (b64_mult (s_updown s) z)).
  split; [|rewrite Vv; auto]. unfold spot_quantile, tail_quantile. change (@neq B64 (t_gamma (s_tail s)) (nofZ 0)) with (b64_eqb (t_gamma (s_tail s)) (b64_ofZ 0)).
  rewrite eqb_xval, xval_zero, xval_finite by (try apply finite_not_nan; assumption || reflexivity). rewrite Req_bool_false by (rewrite Eg; exact G0).
  cbn [m_pow c_math]. assert (Ep' : xpow (N := B64) musl_utils (r : num B64) (e : num B64) = Ret p) by exact Ep.
  match goal with |- context [xpow ?u ?a ?b] => change (xpow u a b) with (xpow (N := B64) musl_utils (r : num B64) (e : num B64)) end.
  rewrite Ep'. reflexivity.
Qed.
