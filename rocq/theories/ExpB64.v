(** * Lemmas: rounding errors in the continued fraction of the exponential (C30) *)
From Coq Require Import ZArith List Bool Reals Lra Lia Psatz.
From Flocq Require Import Core.Core IEEE754.BinarySingleNaN.
From Verif Require Import Num XMath B64 RNum B64Facts FloatErr LogExact LogAcc ExpExact.
Open Scope R_scope.

(** ** Absolute errors *)
(** the double [v] is finite and within [e] of the real [r] *)
Definition Ab (v : b64) (r e : R) : Prop := finite64 v = true /\ Rabs (B2R64 v - r) <= e.

Lemma op_abs v t r d M e : nan64 v = false -> xval v = rndc t -> Rabs (t - r) <= d -> Rabs r <= M -> M <= 10 ^ 50 -> d <= 1 ->
  d * (1 + eps) + eps * M + / 10 ^ 59 <= e -> Ab v r e.
Proof.
  intros Nv Ev Ht Hr HM Hd He. pose proof (rnd_abs t) as Rt. pose proof eps_pos as Pe.
  assert (Tt : Rabs t <= M + d).
  { pose proof (Rabs_triang (t - r) r) as X. replace (t - r + r) with t in X by lra. lra. }
  assert (Et : eps * Rabs t <= eps * (M + d)) by (apply Rmult_le_compat_l; lra).
  assert (Er : Rabs (rnd t - r) <= e).
  { replace (rnd t - r) with ((rnd t - t) + (t - r)) by lra. eapply Rle_trans; [apply Rabs_triang|]. lra. }
  assert (P59 : 0 < / 10 ^ 59) by (apply Rinv_0_lt_compat, pow_lt; lra).
  assert (Fs : Rabs (rnd t) < TOP).
  { pose proof (Rabs_triang (rnd t - t) t) as X. replace (rnd t - t + t) with (rnd t) in X by lra.
    pose proof bpow_1024. assert (eps <= 1) by (unfold eps; lra). assert (/ 10 ^ 59 <= 1) by lra. 
    assert (eps * (M + d) <= 1 * (M + d)) by (apply Rmult_le_compat_r; [pose proof (Rabs_pos r); pose proof (Rabs_pos (t - r)); lra|lra]).
    lra. }
  unfold rndc in Ev. rewrite clamp_id in Ev by lra.
  assert (Fr : finite64 v = true) by (apply finite_of_xval; [assumption|rewrite Ev; assumption]).
  rewrite xval_finite in Ev by assumption. split; [exact Fr|]. rewrite Ev. exact Er.
Qed.

Lemma Ab_self v : finite64 v = true -> Ab v (B2R64 v) 0.
Proof. intros F. split; [assumption|]. rewrite Rminus_eq_0, Rabs_R0. lra. Qed.
Lemma Ab_ofZ z : (Z.abs z <= 2 ^ 53)%Z -> Ab (b64_ofZ z) (IZR z) 0.
Proof. intros H. destruct (ofZ_exact z H) as (F & E). rewrite <- E. apply Ab_self. assumption. Qed.

Lemma Ab_plus a b r s e1 e2 M e : Ab a r e1 -> Ab b s e2 -> Rabs (r + s) <= M -> M <= 10 ^ 50 -> e1 + e2 <= 1 ->
  (e1 + e2) * (1 + eps) + eps * M + / 10 ^ 59 <= e -> Ab (b64_plus a b) (r + s) e.
Proof.
  intros (Fa & Ha) (Fb & Hb) HM HM2 H1 He. destruct (plus_xval a b Fa Fb) as (N & E).
  apply (op_abs _ _ _ (e1 + e2) M e N E); try assumption.
  replace (B2R64 a + B2R64 b - (r + s)) with ((B2R64 a - r) + (B2R64 b - s)) by lra.
  eapply Rle_trans; [apply Rabs_triang|]. lra.
Qed.
Lemma Ab_minus a b r s e1 e2 M e : Ab a r e1 -> Ab b s e2 -> Rabs (r - s) <= M -> M <= 10 ^ 50 -> e1 + e2 <= 1 ->
  (e1 + e2) * (1 + eps) + eps * M + / 10 ^ 59 <= e -> Ab (b64_minus a b) (r - s) e.
Proof.
  intros (Fa & Ha) (Fb & Hb) HM HM2 H1 He. destruct (minus_xval a b Fa Fb) as (N & E).
  apply (op_abs _ _ _ (e1 + e2) M e N E); try assumption.
  replace (B2R64 a - B2R64 b - (r - s)) with ((B2R64 a - r) + - (B2R64 b - s)) by lra.
  eapply Rle_trans; [apply Rabs_triang|]. rewrite Rabs_Ropp. lra.
Qed.
(** multiplication by an exact constant *)
Lemma Ab_scale c b s e2 M e : (0 <= c <= 2 ^ 53)%Z -> Ab b s e2 -> Rabs s <= M -> IZR c * M <= 10 ^ 50 -> IZR c * e2 <= 1 ->
  IZR c * e2 * (1 + eps) + eps * (IZR c * M) + / 10 ^ 59 <= e -> Ab (b64_mult (b64_ofZ c) b) (IZR c * s) e.
Proof.
  intros Hc (Fb & Hb) HM HM2 H1 He. destruct (ofZ_exact c ltac:(lia)) as (Fc & Ec).
  assert (0 <= IZR c) by (apply IZR_le; lia).
  destruct (mult_xval (b64_ofZ c) b Fc Fb) as (N & E). rewrite Ec in E.
  apply (op_abs _ _ _ (IZR c * e2) (IZR c * M) e N E); try assumption.
  - replace (IZR c * B2R64 b - IZR c * s) with (IZR c * (B2R64 b - s)) by ring. rewrite Rabs_mult, Rabs_pos_eq by assumption.
    apply Rmult_le_compat_l; assumption.
  - rewrite Rabs_mult, (Rabs_pos_eq (IZR c)) by assumption. apply Rmult_le_compat_l; assumption.
Qed.
(** division by a positive quantity *)
Lemma Ab_div a b r s e1 e2 m Q d e : Ab a r e1 -> Ab b s e2 -> 0 < m -> m + e2 <= s -> Rabs r <= Q * s -> 0 <= Q <= 10 ^ 50 ->
  e1 + Q * e2 <= d * m -> d <= 1 ->
  d * (1 + eps) + eps * Q + / 10 ^ 59 <= e -> Ab (b64_div a b) (r / s) e.
Proof.
  intros (Fa & Ha) (Fb & Hb) Hm Hs HQ HQ2 Hd H1 He.
  assert (P2 : 0 <= e2) by (pose proof (Rabs_pos (B2R64 b - s)); lra).
  pose proof Hb as Hb'. apply Rabs_le_inv in Hb'.
  assert (Bm : m <= B2R64 b) by lra. assert (Hs0 : 0 < s) by lra.
  destruct (div_xval a b Fa Fb ltac:(lra)) as (N & E).
  apply (op_abs _ _ _ d Q e N E); try lra.
  - apply Rmult_le_reg_r with (B2R64 b); [lra|].
    rewrite <- (Rabs_pos_eq (B2R64 b)) at 2 by lra. rewrite <- Rabs_mult.
    replace ((B2R64 a / B2R64 b - r / s) * B2R64 b) with ((B2R64 a - r) + - (r / s * (B2R64 b - s))) by (field; lra).
    eapply Rle_trans; [apply Rabs_triang|]. rewrite Rabs_Ropp, Rabs_mult.
    assert (Qs : Rabs (r / s) <= Q).
    { unfold Rdiv. rewrite Rabs_mult, (Rabs_pos_eq (/ s)) by (left; apply Rinv_0_lt_compat; assumption).
      apply Rmult_le_reg_r with s; [assumption|]. rewrite Rmult_assoc, Rinv_l by lra. lra. }
    assert (Rabs (r / s) * Rabs (B2R64 b - s) <= Q * e2) by (apply Rmult_le_compat; try assumption; apply Rabs_pos).
    assert (D0 : 0 <= d).
    { apply Rmult_le_reg_r with m; [assumption|]. rewrite Rmult_0_l. eapply Rle_trans; [|exact Hd].
      apply Rplus_le_le_0_compat; [pose proof (Rabs_pos (B2R64 a - r)); lra|apply Rmult_le_pos; lra]. }
    assert (d * m <= d * B2R64 b) by (apply Rmult_le_compat_l; assumption). lra.
  - unfold Rdiv. rewrite Rabs_mult, (Rabs_pos_eq (/ s)) by (left; apply Rinv_0_lt_compat; assumption).
    apply Rmult_le_reg_r with s; [assumption|]. rewrite Rmult_assoc, Rinv_l by lra. lra.
Qed.

(** ** The continued fraction *)
Section Cf.
Variable z : b64.
Hypothesis Fz : finite64 z = true.
Let zr : R := B2R64 z.
Hypothesis Hz : - (1 / 1000) <= zr <= 7 / 10.
Let y : R := zr * zr.
Let yv : b64 := b64_mult z z.
Lemma y_range : 0 <= y <= 49 / 100.
Proof. unfold y. nra. Qed.
Lemma yv_near : Ab yv y (1 / 2 * eps).
Proof.
  destruct (mult_xval z z Fz Fz) as (N & E). pose proof y_range.
  apply (op_abs _ _ _ 0 (49 / 100) _ N E); try lra.
  - fold zr y. rewrite Rminus_eq_0, Rabs_R0. lra.
  - rewrite Rabs_pos_eq by lra. lra.
  - unfold eps. lra.
Qed.
Lemma scaled (c : Z) : (1 <= c <= 140)%Z -> Ab (b64_mult (b64_ofZ c) yv) (IZR c * y) (IZR c * eps).
Proof.
  intros H. pose proof y_range. assert (1 <= IZR c <= 140) by (split; apply IZR_le; lia).
  apply (Ab_scale c yv y (1 / 2 * eps) (49 / 100)); [lia|apply yv_near|rewrite Rabs_pos_eq; lra|lra|unfold eps; lra|unfold eps; lra].
Qed.

(** one level: c y / D + c *)
Lemma exp_level (Dv : b64) (D eD m Q d e1 e2 : R) (c : Z) : (1 <= c <= 140)%Z -> Ab Dv D eD -> 0 < m -> m + eD <= D ->
  IZR c * (49 / 100) <= Q * m -> 0 <= Q <= 1 -> IZR c * eps + Q * eD <= d * m -> d <= 1 / 2 -> d * (1 + eps) + eps * Q + / 10 ^ 59 <= e1 -> e1 <= 1 ->
  (e1 + 0) * (1 + eps) + eps * (Q + IZR c) + / 10 ^ 59 <= e2 ->
  Ab (b64_plus (b64_div (b64_mult (b64_ofZ c) yv) Dv) (b64_ofZ c)) (IZR c * y / D + IZR c) e2 /\ IZR c <= IZR c * y / D + IZR c <= Q + IZR c.
Proof.
  intros Hc ND Hm HD HQ HQ1 Hd Hd1 He1 He1' He2. pose proof y_range as Hy. assert (Hc' : 1 <= IZR c <= 140) by (split; apply IZR_le; lia).
  assert (P2 : 0 <= eD) by (destruct ND as (_ & X); pose proof (Rabs_pos (B2R64 Dv - D)); lra).
  assert (R0 : 0 <= IZR c * y) by (apply Rmult_le_pos; lra).
  assert (RQ : IZR c * y <= Q * D).
  { apply Rle_trans with (IZR c * (49 / 100)); [apply Rmult_le_compat_l; lra|]. apply Rle_trans with (Q * m); [assumption|].
    apply Rmult_le_compat_l; lra. }
  assert (RR : 0 <= IZR c * y / D <= Q).
  { split.
    - apply Rmult_le_pos; [assumption|]. left. apply Rinv_0_lt_compat. lra.
    - apply Rmult_le_reg_r with D; [lra|]. unfold Rdiv. rewrite Rmult_assoc, Rinv_l by lra. lra. }
  split; [|lra].
  apply (Ab_plus _ _ _ _ e1 0 (Q + IZR c) e2); [|apply Ab_ofZ; lia|rewrite Rabs_pos_eq; lra|lra|lra|assumption].
  apply (Ab_div _ Dv _ D (IZR c * eps) eD m Q d e1); try assumption; try lra.
  - apply scaled; assumption.
  - rewrite Rabs_pos_eq by assumption. assumption.
Qed.

Let d5v := b64_plus (b64_div (b64_mult (b64_ofZ 7) yv) (b64_ofZ 11)) (b64_ofZ 252).
Let d5 := 7 * y / 11 + 252.
Lemma d5_near : Ab d5v d5 (255 * eps) /\ 252 <= d5 <= 253.
Proof.
  pose proof y_range. split; [|unfold d5; lra].
  apply (Ab_plus _ _ _ _ eps 0 253); [|apply (Ab_ofZ 252); lia|rewrite Rabs_pos_eq; lra|lra|unfold eps; lra|unfold eps; lra].
  apply (Ab_div _ (b64_ofZ 11) _ 11 (7 * eps) 0 11 (32 / 100) (64 / 100 * eps)); [apply (scaled 7); lia|apply (Ab_ofZ 11); lia|lra|lra|rewrite Rabs_pos_eq; lra|lra|unfold eps; lra|unfold eps; lra|unfold eps; lra].
Qed.
Let d4v := b64_plus (b64_div (b64_mult (b64_ofZ 140) yv) d5v) (b64_ofZ 140).
Let d4 := 140 * y / d5 + 140.
Lemma d4_near : Ab d4v d4 (143 * eps) /\ 140 <= d4 <= 141.
Proof.
  destruct d5_near as (N & R). destruct (exp_level d5v d5 (255 * eps) 251 (28 / 100) (85 / 100 * eps) (5 / 4 * eps) (143 * eps) 140) as (A & B);
    try assumption; try lia; try (unfold eps; lra). split; [exact A|]. unfold d4. lra.
Qed.
Let d3v := b64_plus (b64_div (b64_mult (b64_ofZ 60) yv) d4v) (b64_ofZ 60).
Let d3 := 60 * y / d4 + 60.
Lemma d3_near : Ab d3v d3 (63 * eps) /\ 60 <= d3 <= 61.
Proof.
  destruct d4_near as (N & R). destruct (exp_level d4v d4 (143 * eps) 139 (22 / 100) (67 / 100 * eps) eps (63 * eps) 60) as (A & B);
    try assumption; try lia; try (unfold eps; lra). split; [exact A|]. unfold d3. lra.
Qed.
Let d2v := b64_plus (b64_div (b64_mult (b64_ofZ 12) yv) d3v) (b64_ofZ 12).
Let d2 := 12 * y / d3 + 12.
Lemma d2_near : Ab d2v d2 (14 * eps) /\ 12 <= d2 <= 13.
Proof.
  destruct d3_near as (N & R). destruct (exp_level d3v d3 (63 * eps) 59 (10 / 100) (33 / 100 * eps) (1 / 2 * eps) (14 * eps) 12) as (A & B);
    try assumption; try lia; try (unfold eps; lra). split; [exact A|]. unfold d2. lra.
Qed.
Let d1v := b64_plus (b64_minus (b64_div (b64_mult (b64_ofZ 2) yv) d2v) z) (b64_ofZ 2).
Let d1 := 2 * y / d2 - zr + 2.
Lemma d1_near : Ab d1v d1 (34 / 10 * eps) /\ 13 / 10 <= d1 <= 21 / 10.
Proof.
  destruct d2_near as (N & R). pose proof y_range as Hy.
  assert (Q : 0 <= 2 * y / d2 <= 9 / 100).
  { split; [apply Rmult_le_pos; [lra|left; apply Rinv_0_lt_compat; lra]|].
    apply Rmult_le_reg_r with d2; [lra|]. unfold Rdiv. rewrite Rmult_assoc, Rinv_l by lra. lra. }
  split; [|unfold d1; lra].
  apply (Ab_plus _ _ _ _ (5 / 4 * eps) 0 (21 / 10)); [|apply (Ab_ofZ 2); lia|rewrite Rabs_pos_eq; lra|lra|unfold eps; lra|unfold eps; lra].
  apply (Ab_minus _ _ _ _ (1 / 2 * eps) 0 (71 / 100)); [|apply Ab_self; assumption|apply Rabs_le; fold zr; lra|lra|unfold eps; lra|unfold eps; lra].
  apply (Ab_div _ d2v _ d2 (2 * eps) (14 * eps) 11 (9 / 100) (3 / 10 * eps)); [apply (scaled 2); lia|assumption|lra|unfold eps; lra|rewrite Rabs_pos_eq; lra|lra|unfold eps; lra|unfold eps; lra|unfold eps; lra].
Qed.
Lemma exp_cf_rounded : Ab (exp_cf_6 (N := B64) z) (erat zr) (72 / 10 * eps).
Proof.
  destruct d1_near as (N & R). destruct d2_near as (_ & R2). destruct d3_near as (_ & R3). destruct d4_near as (_ & R4). destruct d5_near as (_ & R5).
  assert (E : erat zr = 2 * zr / d1 + 1).
  { pose proof (exp_cf_exact zr ltac:(lra)) as X.
    assert (Dv : forall a b, b <> 0 -> xr_div (Some a) (Some b) = Some (a / b)).
    { intros a b Hb. unfold xr_div. rewrite Req_bool_false by lra. reflexivity. }
    assert (X2 : exp_cf_6 (N := RNum) (Some zr) = Some (2 * zr / d1 + 1)).
    { unfold exp_cf_6. cbn [nadd nsub nmul ndiv nopp nofZ RNum xr2 xr_opp]. fold y.
      rewrite Dv by lra. cbn [xr2]. fold d5. rewrite Dv by lra. cbn [xr2]. fold d4. rewrite Dv by lra. cbn [xr2]. fold d3.
      rewrite Dv by lra. cbn [xr2]. fold d2. rewrite Dv by lra. cbn [xr2]. fold d1. rewrite Dv by lra. reflexivity. }
    rewrite X2 in X. injection X as X. symmetry. exact X. }
  rewrite E.
  assert (Q : Rabs (2 * zr / d1) <= 108 / 100).
  { unfold Rdiv. rewrite Rabs_mult, (Rabs_pos_eq (/ d1)) by (left; apply Rinv_0_lt_compat; lra).
    apply Rmult_le_reg_r with d1; [lra|]. rewrite Rmult_assoc, Rinv_l by lra.
    assert (Rabs (2 * zr) <= 14 / 10) by (apply Rabs_le; lra). lra. }
  change (exp_cf_6 (N := B64) z) with (b64_plus (b64_div (b64_mult (b64_ofZ 2) z) d1v) (b64_ofZ 1)).
  apply (Ab_plus _ _ _ _ (505 / 100 * eps) 0 (208 / 100)); [|apply (Ab_ofZ 1); lia| |lra|unfold eps; lra|unfold eps; lra].
  2:{ apply Rabs_le_inv in Q. apply Rabs_le. lra. }
  apply (Ab_div _ d1v _ d1 (141 / 100 * eps) (34 / 10 * eps) (129 / 100) (108 / 100) (395 / 100 * eps)).
  - apply (Ab_scale 2 z zr 0 (7 / 10)); [lia|apply Ab_self; assumption|apply Rabs_le; lra|lra|lra|unfold eps; lra].
  - exact N.
  - lra.
  - unfold eps. lra.
  - assert (Rabs (2 * zr) <= 14 / 10) by (apply Rabs_le; lra). lra.
  - lra.
  - unfold eps. lra.
  - unfold eps. lra.
  - unfold eps. lra.
Qed.
(** relative to the exponential itself *)
Lemma exp_cf_b64 : finite64 (exp_cf_6 (N := B64) z) = true /\ Rabs (B2R64 (exp_cf_6 (N := B64) z) - exp zr) <= 27 / 10 ^ 16 * exp zr.
Proof.
  destruct exp_cf_rounded as (F & A). split; [exact F|].
  pose proof (cf_exp_near zr ltac:(lra)) as B. pose proof (exp_ineq1_le zr) as I.
  replace (B2R64 (exp_cf_6 (N := B64) z) - exp zr) with ((B2R64 (exp_cf_6 (N := B64) z) - erat zr) + (erat zr - exp zr)) by lra.
  eapply Rle_trans; [apply Rabs_triang|]. unfold eps in A. lra.
Qed.
End Cf.
