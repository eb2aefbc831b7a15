(** * ExpMono: the rounded exponential of the library is monotone on [-33,33] (C85) *)
From Coq Require Import ZArith List Bool Reals Lra Lia Psatz.
From Flocq Require Import Core.Core IEEE754.BinarySingleNaN.
From Verif Require Import Num XMath B64 RNum B64Facts FloatErr FloatUtilsLemmas LogExact LogAcc ExpExact ExpB64 ExpAcc PowAcc4 LogMono.
From Flocq Require Mult_error.
Import ListNotations.
Open Scope R_scope.

(** ** Gaps between neighbouring doubles *)
Definition adjacent (a b : b64) : bool :=
  match a, b with
  | B754_finite false ma ea _, B754_finite false mb eb _ => (ea =? eb)%Z && (Z.pos mb =? Z.pos ma + 1)%Z && (2 ^ 52 <=? Z.pos ma)%Z
  | _, _ => false
  end.
Lemma value_pos m e H : B2R64 (B754_finite false m e H) = IZR (Z.pos m) * bpow radix2 e.
Proof. reflexivity. Qed.
Lemma value_neg m e H : B2R64 (B754_finite true m e H) < 0.
Proof.
  assert (E : B2R64 (B754_finite true m e H) = IZR (Z.neg m) * bpow radix2 e) by reflexivity. rewrite E.
  pose proof (IZR_lt (Z.neg m) 0 ltac:(lia)). pose proof (bpow_gt_0 radix2 e). nra.
Qed.
(** the exponent of a larger double is at least that of a smaller one *)
Lemma exponent_le ma ea Ha mb eb Hb : B2R64 (B754_finite false ma ea Ha) < B2R64 (B754_finite false mb eb Hb) -> (ea <= eb)%Z.
Proof.
  rewrite !value_pos. intros H. destruct (bounded_inv _ _ Ha) as (A1 & A2 & A3). destruct (bounded_inv _ _ Hb) as (B1 & B2 & B3).
  destruct (Z_le_gt_dec ea eb) as [G|G]; [exact G|exfalso].
  assert (Hm : (2 ^ 52 <= Z.pos ma)%Z) by (destruct (Z_lt_le_dec (Z.pos ma) (2 ^ 52)) as [X|X]; [specialize (A3 X); lia|exact X]).
  apply IZR_le in Hm. apply IZR_lt in B1. change (2 ^ 52)%Z with 4503599627370496%Z in Hm. change (2 ^ 53)%Z with 9007199254740992%Z in B1.
  assert (P : bpow radix2 eb * 2 <= bpow radix2 ea).
  { change 2 with (bpow radix2 1). rewrite <- bpow_plus. apply bpow_le. lia. }
  pose proof (bpow_gt_0 radix2 eb). pose proof (bpow_gt_0 radix2 ea). nra.
Qed.
Lemma common (ea eb : Z) (mb : positive) : (ea <= eb)%Z -> IZR (Z.pos mb) * bpow radix2 eb = IZR (Z.pos mb * 2 ^ (eb - ea)) * bpow radix2 ea.
Proof.
  intros H. rewrite mult_IZR, (IZR_Zpower radix2) by lia. rewrite Rmult_assoc, <- bpow_plus. replace (eb - ea + ea)%Z with eb by lia. reflexivity.
Qed.
(** two doubles are at least half a unit in the last place of the smaller apart *)
Lemma gap (a b : b64) : finite64 a = true -> finite64 b = true -> 0 <= B2R64 a -> B2R64 a < B2R64 b -> eps * B2R64 a <= B2R64 b - B2R64 a.
Proof.
  intros Fa Fb Pa H. destruct a as [sa|sa| |sa ma ea Ha]; try discriminate; [cbn in *; lra|].
  destruct b as [sb|sb| |sb mb eb Hb]; try discriminate; [cbn [B2R] in *; lra|].
  destruct sa; [pose proof (value_neg ma ea Ha); lra|]. destruct sb; [pose proof (value_neg mb eb Hb); lra|].
  pose proof (exponent_le _ _ _ _ _ _ H) as L. destruct (bounded_inv _ _ Ha) as (A1 & _ & _). rewrite !value_pos in *. rewrite (common ea eb mb L) in *.
  apply IZR_lt in A1. change (2 ^ 53)%Z with 9007199254740992%Z in A1. pose proof (bpow_gt_0 radix2 ea) as Pe. clear Pa Fa Fb.
  assert (K : (Z.pos ma + 1 <= Z.pos mb * 2 ^ (eb - ea))%Z).
  { assert (Z.pos ma < Z.pos mb * 2 ^ (eb - ea))%Z; [|lia]. apply lt_IZR. apply Rmult_lt_reg_r with (bpow radix2 ea); [exact Pe|exact H]. }
  apply IZR_le in K. rewrite plus_IZR in K. set (n := IZR (Z.pos mb * 2 ^ (eb - ea))) in *.
  assert (bpow radix2 ea * 1 <= bpow radix2 ea * (n - IZR (Z.pos ma))) by (apply Rmult_le_compat_l; lra).
  assert (eps * IZR (Z.pos ma) <= 1) by (unfold eps; lra).
  assert (bpow radix2 ea * (eps * IZR (Z.pos ma)) <= bpow radix2 ea * 1) by (apply Rmult_le_compat_l; lra). lra.
Qed.
Lemma adjacent_spec (a b : b64) : adjacent a b = true ->
  finite64 a = true /\ finite64 b = true /\ 0 < B2R64 a < B2R64 b /\ (forall x : b64, finite64 x = true -> B2R64 x < B2R64 b -> B2R64 x <= B2R64 a).
Proof.
  destruct a as [sa|sa| |[|] ma ea Ha]; try discriminate. destruct b as [sb|sb| |[|] mb eb Hb]; try discriminate.
  cbn [adjacent]. rewrite !andb_true_iff. intros ((E1 & E2) & E3). apply Z.eqb_eq in E1, E2. apply Z.leb_le in E3. subst eb.
  pose proof (bpow_gt_0 radix2 ea) as Pe. split; [reflexivity|]. split; [reflexivity|]. rewrite !value_pos, E2, plus_IZR.
  assert (Pa : 0 < IZR (Z.pos ma)) by (apply IZR_lt; lia). split.
  { split; [apply Rmult_lt_0_compat; lra|]. apply Rmult_lt_compat_r; lra. }
  intros x Fx Hx. destruct x as [s|s| |[|] m e H]; try discriminate.
  - cbn [B2R]. apply Rmult_le_pos; lra.
  - pose proof (value_neg m e H). assert (0 <= IZR (Z.pos ma) * bpow radix2 ea) by (apply Rmult_le_pos; lra). lra.
  - destruct (Rle_lt_dec (B2R64 (B754_finite false m e H)) (IZR (Z.pos ma) * bpow radix2 ea)) as [G|G]; [exact G|exfalso].
    rewrite <- (value_pos ma ea Ha) in G. pose proof (exponent_le _ _ _ _ _ _ G) as L. rewrite !value_pos in *. rewrite (common ea e m L) in *.
    apply Rmult_lt_reg_r in G; [|exact Pe]. apply Rmult_lt_reg_r in Hx; [|exact Pe].
    apply lt_IZR in G. rewrite <- plus_IZR in Hx. apply lt_IZR in Hx. lia.
Qed.

(** ** The continued fraction on [0,7/10] *)
Definition yv (z : b64) := b64_mult z z.
Definition d5v (z : b64) := b64_plus (b64_div (b64_mult (b64_ofZ 7) (yv z)) (b64_ofZ 11)) (b64_ofZ 252).
Definition d4v (z : b64) := b64_plus (b64_div (b64_mult (b64_ofZ 140) (yv z)) (d5v z)) (b64_ofZ 140).
Definition d3v (z : b64) := b64_plus (b64_div (b64_mult (b64_ofZ 60) (yv z)) (d4v z)) (b64_ofZ 60).
Definition d2v (z : b64) := b64_plus (b64_div (b64_mult (b64_ofZ 12) (yv z)) (d3v z)) (b64_ofZ 12).
Definition av (z : b64) := b64_div (b64_mult (b64_ofZ 2) (yv z)) (d2v z).
Definition dv (z : b64) := b64_plus (b64_minus (av z) z) (b64_ofZ 2).
Lemma cf_shape z : exp_cf_6 (N := B64) z = b64_plus (b64_div (b64_mult (b64_ofZ 2) z) (dv z)) (b64_ofZ 1).
Proof. unfold exp_cf_6, dv, av, d2v, d3v, d4v, d5v, yv. cbv zeta. cbn [B64 num nadd nsub nmul ndiv nopp nofZ]. reflexivity. Qed.
Definition r5 (y : R) := 7 * y / 11 + 252.
Definition r4 (y : R) := 140 * y / r5 y + 140.
Definition r3 (y : R) := 60 * y / r4 y + 60.
Definition r2 (y : R) := 12 * y / r3 y + 12.

Section One.
Variable z : b64.
Hypothesis Fz : finite64 z = true.
Let zr := B2R64 z.
Hypothesis Hz : 0 <= zr <= 7 / 10.
Lemma Hz' : - (1 / 1000) <= zr <= 7 / 10.
Proof. lra. Qed.
Lemma dens : 252 <= r5 (zr * zr) <= 253 /\ 140 <= r4 (zr * zr) <= 141 /\ 60 <= r3 (zr * zr) <= 61 /\ 12 <= r2 (zr * zr) <= 13.
Proof.
  pose proof (d5_near z Fz Hz') as (_ & A). pose proof (d4_near z Fz Hz') as (_ & B). pose proof (d3_near z Fz Hz') as (_ & C). pose proof (d2_near z Fz Hz') as (_ & D).
  auto.
Qed.
Lemma d2_here : Ab (d2v z) (r2 (zr * zr)) (14 * eps).
Proof. pose proof (d2_near z Fz Hz') as (A & _). exact A. Qed.
Lemma dv_near : Ab (dv z) (2 * (zr * zr) / r2 (zr * zr) - zr + 2) (34 / 10 * eps) /\ 13 / 10 <= 2 * (zr * zr) / r2 (zr * zr) - zr + 2 <= 21 / 10.
Proof. unfold dv, av, d2v, d3v, d4v, d5v, yv, r2, r3, r4, r5. exact (d1_near z Fz Hz'). Qed.
Lemma dv_here : finite64 (dv z) = true /\ 12 / 10 <= B2R64 (dv z) <= 22 / 10.
Proof.
  destruct dv_near as ((F & A) & B). split; [exact F|]. apply Rabs_le_inv in A. unfold eps in A. lra.
Qed.
(** the correction term, relatively *)
Lemma av_rel : / 10 ^ 20 <= zr -> finite64 (av z) = true /\ Rabs (B2R64 (av z) - 2 * (zr * zr) / r2 (zr * zr)) <= 32 / 10 * eps * (2 * (zr * zr) / r2 (zr * zr)).
Proof.
  intros H. pose proof dens as (_ & _ & _ & D). set (y := zr * zr) in *. assert (P20 : 0 < / 10 ^ 20) by (apply Rinv_0_lt_compat, pow_lt; lra).
  assert (Hy : / 10 ^ 20 * / 10 ^ 20 <= y <= 49 / 100) by (unfold y; split; nra).
  assert (P40 : / 10 ^ 58 <= / 10 ^ 20 * / 10 ^ 20). { rewrite <- Rinv_mult, <- pow_add. apply Rinv_le_contravar; [apply pow_lt; lra|]. apply Rle_pow; [lra|lia]. }
  assert (P58 : / 10 ^ 60 * 100 <= / 10 ^ 58) by lra. assert (P60 : 0 < / 10 ^ 60) by (apply Rinv_0_lt_compat, pow_lt; lra).
  assert (N1 : Nr (yv z) y eps).
  { apply (Nr_mult z z zr zr 0 0); try lra; try (apply Nr_self; exact Fz). unfold mid. fold y. rewrite Rabs_pos_eq by lra. lra. }
  assert (N2 : Nr (b64_mult (b64_ofZ 2) (yv z)) (2 * y) eps).
  { destruct N1 as (F1 & A1). destruct (ofZ_exact 2 ltac:(lia)) as (F2 & E2). destruct (mult_xval (b64_ofZ 2) (yv z) F2 F1) as (N & V).
    rewrite E2 in V. assert (X : rnd (2 * B2R64 (yv z)) = 2 * B2R64 (yv z)).
    { apply round_generic; [apply valid_rnd_N|]. rewrite Rmult_comm. change 2 with (bpow radix2 1).
      apply (Mult_error.mult_bpow_pos_exact_FLT radix2 (-1074) 53); [exact (generic_format_B2R 53 1024 (yv z))|lia]. }
    rewrite (Rabs_pos_eq y) in A1 by lra. pose proof A1 as A1'. apply Rabs_le_inv in A1'. assert (eps <= 1) by (unfold eps; lra). assert (eps * y <= 1 * y) by (apply Rmult_le_compat_r; lra).
    pose proof bpow_1024 as BT. assert (P2 : 1 <= 10 ^ 60) by (apply pow_R1_Rle; lra).
    unfold rndc in V. rewrite X in V. rewrite clamp_id in V by (apply Rabs_le; lra).
    assert (FF : finite64 (b64_mult (b64_ofZ 2) (yv z)) = true).
    { apply finite_of_xval; [exact N|]. rewrite V. apply Rabs_def1; lra. }
    split; [exact FF|]. rewrite xval_finite in V by exact FF. rewrite V, (Rabs_pos_eq (2 * y)) by lra.
    replace (2 * B2R64 (yv z) - 2 * y) with (2 * (B2R64 (yv z) - y)) by ring. rewrite Rabs_mult, (Rabs_pos_eq 2) by lra. lra. }
  assert (N3 : Nr (d2v z) (r2 y) (7 / 6 * eps)).
  { destruct d2_here as (F & A). split; [exact F|]. eapply Rle_trans; [exact A|]. fold y. rewrite Rabs_pos_eq by lra. pose proof eps_pos.
    assert (7 / 6 * eps * 12 <= 7 / 6 * eps * r2 y) by (apply Rmult_le_compat_l; lra). lra. }
  assert (Q : / 10 ^ 60 <= 2 * y / r2 y <= 1).
  { split; apply Rmult_le_reg_r with (r2 y); try lra; unfold Rdiv; rewrite Rmult_assoc, Rinv_l by lra; [|lra].
    apply Rle_trans with (/ 10 ^ 60 * 100); [apply Rmult_le_compat_l; lra|lra]. }
  assert (P2 : 1 <= 10 ^ 60) by (apply pow_R1_Rle; lra).
  destruct (Nr_div _ _ _ _ eps (7 / 6 * eps) (32 / 10 * eps) N2 N3 ltac:(lra) ltac:(unfold eps; lra) ltac:(unfold eps; lra) ltac:(unfold eps; lra)) as (F & A).
  - unfold mid. rewrite Rabs_pos_eq by lra. lra.
  - unfold eps. lra.
  - split; [exact F|]. rewrite (Rabs_pos_eq (2 * y / r2 y)) in A by lra. exact A.
Qed.
(** tiny arguments: the denominator is 2 *)
Lemma av_small : zr <= / 10 ^ 20 -> finite64 (av z) = true /\ Rabs (B2R64 (av z)) <= / 10 ^ 20.
Proof.
  intros H. pose proof dens as (_ & _ & _ & D). set (y := zr * zr) in *. destruct d2_here as (F2 & A2). fold y in A2. apply Rabs_le_inv in A2.
  assert (D2 : 11 <= B2R64 (d2v z)) by (unfold eps in A2; lra).
  assert (P59 : / 10 ^ 59 <= / 10 ^ 21). { apply Rinv_le_contravar; [apply pow_lt; lra|]. apply Rle_pow; [lra|lia]. }
  assert (P20 : 0 < / 10 ^ 21) by (apply Rinv_0_lt_compat, pow_lt; lra). assert (P21 : / 10 ^ 20 = 10 * / 10 ^ 21) by lra.
  assert (P22 : / 10 ^ 20 <= 1 / 100) by lra.
  assert (Hy : 0 <= y <= / 10 ^ 21) by (unfold y; split; nra).
  destruct (mult_xval z z Fz Fz) as (N1 & V1). fold zr y in V1. change (b64_mult z z) with (yv z) in *.
  assert (T : 1 <= 10 ^ 300) by (apply pow_R1_Rle; lra).
  assert (E1 : eps <= / 1000) by (unfold eps; lra). pose proof eps_pos as E0.
  destruct (PowAcc.op_abs _ _ N1 V1 ltac:(rewrite Rabs_pos_eq by lra; lra)) as (F1 & _ & A1). rewrite (Rabs_pos_eq y) in A1 by lra.
  assert (B1 : Rabs (B2R64 (yv z)) <= 3 * / 10 ^ 21).
  { assert (eps * y <= 1 * y) by (apply Rmult_le_compat_r; lra). apply Rabs_le_inv in A1. apply Rabs_le. lra. }
  destruct (ofZ_exact 2 ltac:(lia)) as (G2 & E2). destruct (mult_xval (b64_ofZ 2) (yv z) G2 F1) as (N2 & V2). rewrite E2 in V2.
  assert (B1' : Rabs (2 * B2R64 (yv z)) <= 6 * / 10 ^ 21) by (rewrite Rabs_mult, (Rabs_pos_eq 2) by lra; lra).
  destruct (PowAcc.op_abs _ _ N2 V2 ltac:(lra)) as (F3 & _ & A3). set (w := b64_mult (b64_ofZ 2) (yv z)) in *.
  assert (B2 : Rabs (B2R64 w) <= 10 * / 10 ^ 21).
  { assert (eps * Rabs (2 * B2R64 (yv z)) <= / 1000 * (6 * / 10 ^ 21)) by (apply Rmult_le_compat; try lra; apply Rabs_pos).
    pose proof (Rabs_triang (B2R64 w - 2 * B2R64 (yv z)) (2 * B2R64 (yv z))) as X. replace (B2R64 w - 2 * B2R64 (yv z) + 2 * B2R64 (yv z)) with (B2R64 w) in X by lra. lra. }
  destruct (div_xval w (d2v z) F3 F2 ltac:(lra)) as (N4 & V4).
  assert (B3 : Rabs (B2R64 w / B2R64 (d2v z)) <= / 10 ^ 21).
  { unfold Rdiv. rewrite Rabs_mult, (Rabs_pos_eq (/ B2R64 (d2v z))) by (left; apply Rinv_0_lt_compat; lra).
    apply Rmult_le_reg_r with (B2R64 (d2v z)); [lra|]. rewrite Rmult_assoc, Rinv_l by lra.
    apply Rle_trans with (/ 10 ^ 21 * 11); [lra|apply Rmult_le_compat_l; lra]. }
  destruct (PowAcc.op_abs _ _ N4 V4 ltac:(lra)) as (F5 & _ & A5). split; [exact F5|].
  set (t := B2R64 w / B2R64 (d2v z)) in *. change (b64_div w (d2v z)) with (av z) in *.
  assert (eps * Rabs t <= / 1000 * / 10 ^ 21) by (apply Rmult_le_compat; try lra; apply Rabs_pos).
  pose proof (Rabs_triang (B2R64 (av z) - t) t) as X. replace (B2R64 (av z) - t + t) with (B2R64 (av z)) in X by lra. lra.
Qed.
End One.

(** ** Slopes in exact arithmetic *)
Lemma level c y y' d d' : 0 <= c -> 0 <= y -> y <= y' -> 0 < d -> d <= d' -> y * d' <= y' * d ->
  c * y / d + c <= c * y' / d' + c /\ y * (c * y' / d' + c) <= y' * (c * y / d + c).
Proof.
  intros Hc Hy Hyy Hd Hdd H. assert (Q : y / d <= y' / d').
  { apply Rmult_le_reg_r with (d * d'); [apply Rmult_lt_0_compat; lra|].
    replace (y / d * (d * d')) with (y * d') by (field; lra). replace (y' / d' * (d * d')) with (y' * d) by (field; lra). exact H. }
  split.
  - replace (c * y / d) with (c * (y / d)) by (field; lra). replace (c * y' / d') with (c * (y' / d')) by (field; lra).
    apply Rplus_le_compat_r, Rmult_le_compat_l; assumption.
  - assert (I : / d' <= / d) by (apply Rinv_le_contravar; assumption).
    assert (y * y' * c * / d' <= y * y' * c * / d) by (apply Rmult_le_compat_l; [repeat apply Rmult_le_pos; lra|exact I]).
    assert (y * c <= y' * c) by (apply Rmult_le_compat_r; lra).
    unfold Rdiv. lra.
Qed.
Lemma denominators y y' : 0 <= y -> y <= y' -> y' <= 1 -> 0 < r2 y /\ r2 y <= r2 y'.
Proof.
  intros H1 H2 H3. assert (P : forall c u d, 0 < c -> 0 <= u -> 0 < d -> 0 < c * u / d + c).
  { intros c u d Pc Pu Pd. assert (0 <= c * u / d) by (apply Rmult_le_pos; [apply Rmult_le_pos; lra|left; apply Rinv_0_lt_compat; exact Pd]). lra. }
  assert (A5 : 0 < r5 y /\ r5 y <= r5 y' /\ y * r5 y' <= y' * r5 y) by (unfold r5; repeat split; nra).
  destruct A5 as (P5 & L5 & X5). destruct (level 140 y y' (r5 y) (r5 y') ltac:(lra) H1 H2 P5 L5 X5) as (L4 & X4). fold (r4 y) (r4 y') in L4, X4.
  assert (P4 : 0 < r4 y) by (apply P; lra).
  destruct (level 60 y y' (r4 y) (r4 y') ltac:(lra) H1 H2 P4 L4 X4) as (L3 & X3). fold (r3 y) (r3 y') in L3, X3.
  assert (P3 : 0 < r3 y) by (apply P; lra).
  destruct (level 12 y y' (r3 y) (r3 y') ltac:(lra) H1 H2 P3 L3 X3) as (L2' & X2). fold (r2 y) (r2 y') in L2', X2.
  split; [apply P; lra|exact L2'].
Qed.
Lemma slope z z' : 0 <= z -> z <= z' -> z' <= 7 / 10 -> 12 <= r2 (z' * z') ->
  2 * (z' * z') / r2 (z' * z') - 2 * (z * z) / r2 (z * z) <= 7 / 30 * (z' - z).
Proof.
  intros H1 H2 H3 H12. destruct (denominators (z * z) (z' * z') ltac:(nra) ltac:(nra) ltac:(nra)) as (P & L).
  set (d := r2 (z * z)) in *. set (d' := r2 (z' * z')) in *.
  assert (I : / d' <= / d) by (apply Rinv_le_contravar; assumption).
  assert (I' : 0 < / d' <= / 12) by (split; [apply Rinv_0_lt_compat; lra|apply Rinv_le_contravar; lra]).
  assert (Z2 : 0 <= 2 * (z * z)) by nra. assert (2 * (z * z) * / d' <= 2 * (z * z) * / d) by (apply Rmult_le_compat_l; assumption).
  assert (Zz : 0 <= 2 * (z' * z') - 2 * (z * z) <= 28 / 10 * (z' - z)) by nra.
  assert ((2 * (z' * z') - 2 * (z * z)) * / d' <= 28 / 10 * (z' - z) * / 12) by (apply Rmult_le_compat; lra).
  unfold Rdiv. lra.
Qed.

(** the correction term grows more slowly than the argument *)
Lemma av_step (z z' : b64) : finite64 z = true -> finite64 z' = true -> / 10 ^ 20 <= B2R64 z -> B2R64 z < B2R64 z' -> B2R64 z' <= 7 / 10 ->
  B2R64 (av z') - B2R64 z' <= B2R64 (av z) - B2R64 z.
Proof.
  intros F F' H1 H2 H3. assert (P20 : 0 < / 10 ^ 20) by (apply Rinv_0_lt_compat, pow_lt; lra).
  destruct (av_rel z F ltac:(lra) H1) as (_ & A). destruct (av_rel z' F' ltac:(lra) ltac:(lra)) as (_ & A').
  pose proof (gap z z' F F' ltac:(lra) H2) as G. destruct (dens z F ltac:(lra)) as (_ & _ & _ & D). destruct (dens z' F' ltac:(lra)) as (_ & _ & _ & D').
  pose proof (slope (B2R64 z) (B2R64 z') ltac:(lra) ltac:(lra) H3 ltac:(lra)) as S. clear F F'.
  set (u := B2R64 z) in *. set (w := B2R64 z') in *. 
  assert (Q : forall t, 0 <= t <= 7 / 10 -> 12 <= r2 (t * t) -> 0 <= 2 * (t * t) / r2 (t * t) <= 7 / 60 * t).
  { intros t Ht Hr. assert (I' : 0 < / r2 (t * t) <= / 12) by (split; [apply Rinv_0_lt_compat; lra|apply Rinv_le_contravar; lra]).
    assert (T2 : 0 <= 2 * (t * t) <= 14 / 10 * t) by nra. split; [apply Rmult_le_pos; lra|].
    assert (2 * (t * t) * / r2 (t * t) <= 14 / 10 * t * / 12) by (apply Rmult_le_compat; lra). unfold Rdiv. lra. }
  pose proof (Q u ltac:(lra) ltac:(lra)) as Qu. pose proof (Q w ltac:(lra) ltac:(lra)) as Qw. clear Q.
  set (a := 2 * (u * u) / r2 (u * u)) in *. set (b := 2 * (w * w) / r2 (w * w)) in *. pose proof eps_pos as Pe.
  assert (X1 : 32 / 10 * eps * a <= 32 / 10 * eps * (7 / 60 * u)) by (apply Rmult_le_compat_l; lra).
  assert (X2 : 32 / 10 * eps * b <= 32 / 10 * eps * (7 / 60 * w)) by (apply Rmult_le_compat_l; lra).
  assert (X3 : eps * w <= (1 + eps) * (w - u)) by lra.
  assert (X4 : (1 + eps) * (w - u) <= 1001 / 1000 * (w - u)) by (apply Rmult_le_compat_r; [lra|unfold eps; lra]).
  apply Rabs_le_inv in A, A'. lra.
Qed.
Lemma av_below (z : b64) : finite64 z = true -> / 10 ^ 20 <= B2R64 z -> B2R64 z <= 7 / 10 -> B2R64 (av z) <= B2R64 z.
Proof.
  intros F H1 H3. assert (P20 : 0 < / 10 ^ 20) by (apply Rinv_0_lt_compat, pow_lt; lra).
  destruct (av_rel z F ltac:(lra) H1) as (_ & A). destruct (dens z F ltac:(lra)) as (_ & _ & _ & D). set (t := B2R64 z) in *.
  assert (I' : 0 < / r2 (t * t) <= / 12) by (split; [apply Rinv_0_lt_compat; lra|apply Rinv_le_contravar; lra]).
  assert (T2 : 0 <= 2 * (t * t) <= 14 / 10 * t) by nra. assert (2 * (t * t) * / r2 (t * t) <= 14 / 10 * t * / 12) by (apply Rmult_le_compat; lra).
  assert (Q0 : 0 <= 2 * (t * t) / r2 (t * t)) by (apply Rmult_le_pos; lra). change (2 * (t * t) * / r2 (t * t)) with (2 * (t * t) / r2 (t * t)) in *.
  assert (32 / 10 * eps * (2 * (t * t) / r2 (t * t)) <= 1 * (2 * (t * t) / r2 (t * t))) by (apply Rmult_le_compat_r; [exact Q0|unfold eps; lra]).
  apply Rabs_le_inv in A. lra.
Qed.

Lemma same (a b : b64) : finite64 a = true -> finite64 b = true -> 0 < B2R64 a -> B2R64 a = B2R64 b -> a = b.
Proof.
  intros Fa Fb P E. apply (B2R_inj 53 1024); [| |exact E].
  - destruct a; try discriminate; [cbn in P; lra|reflexivity].
  - destruct b; try discriminate; [cbn in E; lra|reflexivity].
Qed.
(** rounding near 2 *)
Definition tiny : b64 := @B754_finite 53 1024 false 8307674973655724 (-118) eq_refl.
Lemma tiny_val : finite64 tiny = true /\ 2 * / 10 ^ 20 <= B2R64 tiny.
Proof. split; [reflexivity|]. unfold tiny, B2R64, B2R, F2R. simpl. lra. Qed.
Lemma near_two t : Rabs t <= B2R64 tiny -> rndc (t + 2) = 2.
Proof.
  intros H. destruct tiny_val as (Ft & Vt). apply Rabs_le_inv in H. destruct (ofZ_exact 2 ltac:(lia)) as (F2 & E2).
  destruct (plus_xval tiny (b64_ofZ 2) Ft F2) as (_ & V1). destruct (plus_xval (b64_opp tiny) (b64_ofZ 2) ltac:(rewrite finite_opp; exact Ft) F2) as (_ & V2).
  rewrite E2 in V1, V2. unfold b64_opp in V2. rewrite B2R_Bopp in V2. fold (b64_opp tiny) in V2.
  assert (X1 : b64_plus tiny (b64_ofZ 2) = b64_ofZ 2) by (apply B2SF_inj; vm_compute; reflexivity).
  assert (X2 : b64_plus (b64_opp tiny) (b64_ofZ 2) = b64_ofZ 2) by (apply B2SF_inj; vm_compute; reflexivity).
  rewrite X1, xval_finite, E2 in V1 by exact F2. rewrite X2, xval_finite, E2 in V2 by exact F2.
  apply Rle_antisym; [rewrite V1|rewrite V2]; apply rndc_mono; lra.
Qed.
Lemma dv_value (z : b64) : finite64 z = true -> 0 <= B2R64 z <= 7 / 10 -> finite64 (av z) = true ->
  exists t : b64, finite64 t = true /\ B2R64 t = rndc (B2R64 (av z) - B2R64 z) /\ B2R64 (dv z) = rndc (B2R64 t + 2).
Proof.
  intros F H Fa. destruct (minus_xval (av z) z Fa F) as (N & V). destruct (dv_here z F H) as (Fd & _).
  destruct (ofZ_exact 2 ltac:(lia)) as (F2 & E2). set (t := b64_minus (av z) z) in *.
  assert (Ft : finite64 t = true).
  { destruct t as [s|s| |s m e B] eqn:Et; try reflexivity; exfalso; unfold dv in Fd; fold t in Fd; rewrite Et in Fd; destruct s || idtac; vm_compute in Fd; discriminate Fd. }
  exists t. split; [exact Ft|]. rewrite <- xval_finite, V by exact Ft. split; [reflexivity|].
  destruct (plus_xval t (b64_ofZ 2) Ft F2) as (_ & V2). change (b64_plus t (b64_ofZ 2)) with (dv z) in V2. rewrite xval_finite, E2 in V2 by exact Fd.
  rewrite V2, <- (xval_finite t), V by exact Ft. reflexivity.
Qed.

Lemma dv_antitone (z z' : b64) : finite64 z = true -> finite64 z' = true -> 0 <= B2R64 z -> B2R64 z <= B2R64 z' -> B2R64 z' <= 7 / 10 -> B2R64 (dv z') <= B2R64 (dv z).
Proof.
  intros F F' H1 H2 H3. assert (P20 : 0 < / 10 ^ 20) by (apply Rinv_0_lt_compat, pow_lt; lra).
  assert (Av : forall v : b64, finite64 v = true -> 0 <= B2R64 v <= 7 / 10 -> finite64 (av v) = true).
  { intros v Fv Hv. destruct (Rle_lt_dec (B2R64 v) (/ 10 ^ 20)); [apply av_small|apply av_rel]; (assumption || lra). }
  destruct (dv_value z F ltac:(lra) (Av z F ltac:(lra))) as (t & Ft & Vt & ->). destruct (dv_value z' F' ltac:(lra) (Av z' F' ltac:(lra))) as (t' & Ft' & Vt' & ->).
  assert (Small : forall (v t : b64), finite64 v = true -> 0 <= B2R64 v <= / 10 ^ 20 -> B2R64 t = rndc (B2R64 (av v) - B2R64 v) -> rndc (B2R64 t + 2) = 2).
  { intros v s Fv Hv Es. apply near_two. destruct (av_small v Fv ltac:(lra) ltac:(lra)) as (_ & A). apply Rabs_le_inv in A.
    destruct tiny_val as (Fy & Vy). apply Rabs_le. rewrite Es. split.
    - apply Rle_trans with (rndc (B2R64 (b64_opp tiny))); [rewrite rndc_format; unfold b64_opp; rewrite B2R_Bopp; lra|]. apply rndc_mono. unfold b64_opp. rewrite B2R_Bopp. lra.
    - apply Rle_trans with (rndc (B2R64 tiny)); [apply rndc_mono; lra|rewrite rndc_format; lra]. }
  destruct (Rle_lt_dec (B2R64 z') (/ 10 ^ 20)) as [C|C].
  { rewrite (Small z t), (Small z' t'); try assumption; lra. }
  destruct (Rle_lt_dec (B2R64 z) (/ 10 ^ 20)) as [C2|C2].
  { rewrite (Small z t F ltac:(lra) Vt). pose proof (av_below z' F' ltac:(lra) H3).
    assert (B2R64 t' <= 0). { rewrite Vt', <- rndc_0. apply rndc_mono. lra. }
    destruct (ofZ_exact 2 ltac:(lia)) as (F2 & E2). apply Rle_trans with (rndc (B2R64 (b64_ofZ 2))); [apply rndc_mono; lra|]. rewrite rndc_format. lra. }
  apply rndc_mono. apply Rplus_le_compat_r. rewrite Vt, Vt'. apply rndc_mono.
  destruct (Rle_lt_or_eq_dec _ _ H2) as [L|L]; [apply av_step; assumption || lra|].
  assert (z = z') as -> by (apply same; (assumption || lra)). lra.
Qed.

Lemma cf_mono (z z' : b64) : finite64 z = true -> finite64 z' = true -> 0 <= B2R64 z -> B2R64 z <= B2R64 z' -> B2R64 z' <= 7 / 10 ->
  finite64 (exp_cf_6 (N := B64) z) = true /\ finite64 (exp_cf_6 (N := B64) z') = true /\ B2R64 (exp_cf_6 (N := B64) z) <= B2R64 (exp_cf_6 (N := B64) z').
Proof.
  intros F F' H1 H2 H3. pose proof (dv_antitone z z' F F' H1 H2 H3) as A. destruct (dv_here z F ltac:(lra)) as (Fd & Hd). destruct (dv_here z' F' ltac:(lra)) as (Fd' & Hd').
  destruct (exp_cf_b64 z F ltac:(lra)) as (Fc & _). destruct (exp_cf_b64 z' F' ltac:(lra)) as (Fc' & _).
  split; [exact Fc|]. split; [exact Fc'|].
  destruct (ofZ_exact 2 ltac:(lia)) as (F2 & E2). destruct (ofZ_exact 1 ltac:(lia)) as (F1 & E1).
  assert (T : 10 <= 10 ^ 300) by (apply Rle_trans with (10 ^ 1); [lra|apply Rle_pow; [lra|lia]]).
  pose proof PowAcc.inv59_le as P59. pose proof PowAcc.inv59_pos as P59'.
  assert (W : forall v : b64, finite64 v = true -> 0 <= B2R64 v <= 7 / 10 -> finite64 (dv v) = true -> 12 / 10 <= B2R64 (dv v) ->
    exists w q : b64, finite64 w = true /\ B2R64 w = rndc (2 * B2R64 v) /\ finite64 q = true /\ B2R64 q = rndc (B2R64 w / B2R64 (dv v)) /\ exp_cf_6 (N := B64) v = b64_plus q (b64_ofZ 1)).
  { intros v Fv Hv Fdv Hdv. destruct (mult_xval (b64_ofZ 2) v F2 Fv) as (N & V). rewrite E2 in V.
    destruct (PowAcc.op_abs _ _ N V ltac:(rewrite Rabs_pos_eq by lra; lra)) as (Fw & _ & Aw). rewrite (Rabs_pos_eq (2 * B2R64 v)) in Aw by lra.
    assert (eps * (2 * B2R64 v) <= 1 * (2 * B2R64 v)) by (apply Rmult_le_compat_r; [lra|unfold eps; lra]). apply Rabs_le_inv in Aw.
    exists (b64_mult (b64_ofZ 2) v). destruct (div_xval (b64_mult (b64_ofZ 2) v) (dv v) Fw Fdv ltac:(lra)) as (N2 & V2). set (w := b64_mult (b64_ofZ 2) v) in *.
    assert (Q : Rabs (B2R64 w / B2R64 (dv v)) <= 10).
    { unfold Rdiv. rewrite Rabs_mult, (Rabs_pos_eq (/ B2R64 (dv v))) by (left; apply Rinv_0_lt_compat; lra).
      apply Rmult_le_reg_r with (B2R64 (dv v)); [lra|]. rewrite Rmult_assoc, Rinv_l by lra. assert (Rabs (B2R64 w) <= 4) by (apply Rabs_le; lra). lra. }
    destruct (PowAcc.op_abs _ _ N2 V2 ltac:(lra)) as (Fq & _ & _).
    exists (b64_div w (dv v)). split; [exact Fw|]. split; [rewrite <- (xval_finite w), V by exact Fw; reflexivity|]. split; [exact Fq|].
    split; [rewrite <- (xval_finite (b64_div w (dv v))), V2 by exact Fq; reflexivity|]. rewrite cf_shape. reflexivity. }
  destruct (W z F ltac:(lra) Fd ltac:(lra)) as (w & q & Fw & Ew & Fq & Eq & Ez). destruct (W z' F' ltac:(lra) Fd' ltac:(lra)) as (w' & q' & Fw' & Ew' & Fq' & Eq' & Ez'). clear W.
  assert (W0 : 0 <= B2R64 w). { rewrite Ew, <- rndc_0. apply rndc_mono. lra. }
  assert (WW : B2R64 w <= B2R64 w'). { rewrite Ew, Ew'. apply rndc_mono. lra. }
  assert (QQ : B2R64 q <= B2R64 q').
  { rewrite Eq, Eq'. apply rndc_mono. unfold Rdiv. apply Rmult_le_compat; try assumption; [left; apply Rinv_0_lt_compat; lra|apply Rinv_le_contravar; lra]. }
  destruct (plus_xval q (b64_ofZ 1) Fq F1) as (_ & Vc). destruct (plus_xval q' (b64_ofZ 1) Fq' F1) as (_ & Vc').
  rewrite <- Ez in Vc. rewrite <- Ez' in Vc'. rewrite xval_finite in Vc, Vc' by assumption. rewrite Vc, Vc', E1. apply rndc_mono. lra.
Qed.

(** ** The pieces of the argument reduction *)
(** below log 2 the argument is used as it is; piece [k] has truncated quotient [k] *)
Definition piece (k : Z) (x : b64) : Prop :=
  finite64 x = true /\ ((k = 0%Z /\ 0 <= B2R64 x <= B2R64 L2v) \/ ((1 <= k)%Z /\ B2R64 L2v < B2R64 x /\ b64_trunc (b64_div x L2v) = Some k)).
Definition red (k : Z) (x : b64) : b64 := b64_minus x (b64_mult L2v (b64_ofZ k)).
Definition pval (k : Z) (x : b64) : b64 := if (k =? 0)%Z then exp_cf_6 (N := B64) x else musl_ldexp (exp_cf_6 (N := B64) (red k x)) k.

Lemma red_facts k x : piece k x -> (1 <= k <= 48)%Z -> B2R64 x <= 10 ^ 10 -> finite64 (red k x) = true /\ - (1 / 1000) <= B2R64 (red k x) <= 7 / 10.
Proof.
  intros (F & [(-> & _)|(K & L & T)]) Hk Hx; [lia|]. destruct (reduction x F ltac:(lra) Hx) as (k' & E & _ & _ & _ & R). rewrite T in E. inversion E. subst k'.
  assert (IZR k <= 2 ^ 33) by (assert (IZR k <= 48) by (apply IZR_le; lia); lra).
  destruct (R H) as (A & B & _). auto.
Qed.
Lemma scaled_value (c : b64) k : finite64 c = true -> 1 / 2 <= B2R64 c <= 4 -> (0 <= k <= 48)%Z -> finite64 (musl_ldexp c k) = true /\ B2R64 (musl_ldexp c k) = B2R64 c * bpow radix2 k.
Proof.
  intros F H K. pose proof (format_scaled c k F ltac:(lra) ltac:(lia)) as Fm. destruct (C27_lemma c k) as (C27 & _). destruct (C27 F) as (C27a & _). rewrite Fm in C27a.
  assert (B : 0 < bpow radix2 k <= 281474976710656). { split; [apply bpow_gt_0|]. replace 281474976710656 with (bpow radix2 48) by (simpl; lra). apply bpow_le. lia. }
  assert (Top : Rabs (B2R64 c * bpow radix2 k) < TOP).
  { pose proof bpow_1024 as BT. assert (1000000000000000000000 <= 10 ^ 60) by (apply Rle_trans with (10 ^ 21); [lra|apply Rle_pow; [lra|lia]]).
    rewrite Rabs_pos_eq by (apply Rmult_le_pos; lra). apply Rle_lt_trans with (4 * 281474976710656); [apply Rmult_le_compat; lra|lra]. }
  destruct (C27a Top) as (A & E & _). auto.
Qed.
Lemma cf_range (z : b64) : finite64 z = true -> - (1 / 1000) <= B2R64 z <= 7 / 10 -> finite64 (exp_cf_6 (N := B64) z) = true /\ 1 / 2 <= B2R64 (exp_cf_6 (N := B64) z) <= 4.
Proof.
  intros F H. destruct (exp_cf_b64 z F H) as (Fc & A). split; [exact Fc|]. destruct (exp_c_range _ _ H A) as (B & C). lra.
Qed.
Lemma pval_value rec k x : piece k x -> (0 <= k <= 48)%Z -> B2R64 x <= 10 ^ 10 -> xexp_body (N := B64) musl_utils rec x = Ret (pval k x : num B64) /\ finite64 (pval k x) = true.
Proof.
  intros P Hk Hx. pose proof P as (F & [(-> & H)|(K & L & T)]); pose proof L2_range as RL.
  - rewrite body_nonneg, ltb_L2, Rlt_bool_false by (assumption || lra). split; [reflexivity|]. apply (cf_range x F ltac:(lra)).
  - destruct (red_facts k x P ltac:(lia) Hx) as (Fr & Rr). destruct (cf_range _ Fr Rr) as (Fc & Rc). destruct (scaled_value _ k Fc Rc Hk) as (Fs & _).
    unfold pval. replace (k =? 0)%Z with false by (symmetry; apply Z.eqb_neq; lia). split; [|exact Fs].
    rewrite body_nonneg, ltb_L2, Rlt_bool_true by (assumption || lra). rewrite (to_uint32_ret _ k T ltac:(lia)).
    assert (Ti : to_int32 k = k) by (unfold to_int32; replace (k <? 2 ^ 31)%Z with true; [reflexivity|symmetry; apply Z.ltb_lt; lia]).
    cbn [bind]. rewrite Ti. reflexivity.
Qed.
Lemma trunc_mono x y i j : finite64 x = true -> finite64 y = true -> B2R64 L2v <= B2R64 x -> B2R64 x <= B2R64 y -> B2R64 y <= 10 ^ 10 ->
  b64_trunc (b64_div x L2v) = Some i -> b64_trunc (b64_div y L2v) = Some j -> (i <= j)%Z.
Proof.
  intros Fx Fy H0 H1 H2 Ti Tj. pose proof L2_range as RL. destruct L2_value as (FL & _).
  destruct (quotient x Fx H0 ltac:(lra)) as (p & Ep & Fp & _). destruct (quotient y Fy ltac:(lra) H2) as (q & Eq & Fq & _).
  destruct (div_xval x L2v Fx FL ltac:(lra)) as (_ & Vx). destruct (div_xval y L2v Fy FL ltac:(lra)) as (_ & Vy).
  rewrite Ep in *. rewrite Eq in *. rewrite xval_finite in Vx, Vy by assumption.
  assert (P0 : 0 <= B2R64 p). { rewrite Vx, <- rndc_0. apply rndc_mono. apply Rmult_le_pos; [lra|left; apply Rinv_0_lt_compat; lra]. }
  assert (PQ : B2R64 p <= B2R64 q). { rewrite Vx, Vy. apply rndc_mono. apply Rmult_le_compat_r; [left; apply Rinv_0_lt_compat; lra|exact H1]. }
  destruct (trunc_finite p Fp P0) as (i' & Ei & _ & Bi). destruct (trunc_finite q Fq ltac:(lra)) as (j' & Ej & _ & Bj).
  rewrite Ti in Ei. rewrite Tj in Ej. inversion Ei. inversion Ej. subst i' j'.
  assert (IZR i < IZR (j + 1)) by (rewrite plus_IZR; lra). apply lt_IZR in H. lia.
Qed.
Lemma red_mono k x y : finite64 (red k x) = true -> finite64 (red k y) = true -> finite64 x = true -> finite64 y = true -> (0 <= k <= 48)%Z -> B2R64 x <= B2R64 y -> B2R64 (red k x) <= B2R64 (red k y).
Proof.
  intros F1 F2 Fx Fy Hk H. unfold red in *. destruct (ofZ_exact k ltac:(lia)) as (Fk & Ek). destruct L2_value as (FL & _). pose proof L2_range as RL.
  destruct (mult_xval L2v (b64_ofZ k) FL Fk) as (Nm & Vm). set (m := b64_mult L2v (b64_ofZ k)) in *. rewrite Ek in Vm.
  assert (0 <= IZR k <= 48) by (split; apply IZR_le; lia).
  assert (T : 100 <= 10 ^ 300) by (apply Rle_trans with (10 ^ 2); [lra|apply Rle_pow; [lra|lia]]).
  assert (Q : 0 <= B2R64 L2v * IZR k <= 100) by nra.
  destruct (PowAcc.op_abs _ _ Nm Vm ltac:(rewrite Rabs_pos_eq by lra; lra)) as (Fm & _).
  destruct (minus_xval x m Fx Fm) as (_ & V1). destruct (minus_xval y m Fy Fm) as (_ & V2).
  rewrite xval_finite in V1, V2 by assumption. rewrite V1, V2. apply rndc_mono. lra.
Qed.
(** both reduced arguments nonnegative *)
Lemma piece_pos k x y : piece k x -> piece k y -> (1 <= k <= 48)%Z -> B2R64 x <= B2R64 y -> B2R64 y <= 10 ^ 10 -> 0 <= B2R64 (red k x) -> B2R64 (pval k x) <= B2R64 (pval k y).
Proof.
  intros Px Py Hk H Hy P. destruct (red_facts k x Px Hk ltac:(lra)) as (Fx & Rx). destruct (red_facts k y Py Hk Hy) as (Fy & Ry).
  pose proof (red_mono k x y Fx Fy (proj1 Px) (proj1 Py) ltac:(lia) H) as L. destruct (cf_mono _ _ Fx Fy P L ltac:(lra)) as (_ & _ & C).
  destruct (cf_range _ Fx Rx) as (Fc & Rc). destruct (cf_range _ Fy Ry) as (Fc' & Rc').
  unfold pval. replace (k =? 0)%Z with false by (symmetry; apply Z.eqb_neq; lia).
  destruct (scaled_value _ k Fc Rc ltac:(lia)) as (_ & ->). destruct (scaled_value _ k Fc' Rc' ltac:(lia)) as (_ & ->).
  apply Rmult_le_compat_r; [apply bpow_ge_0|exact C].
Qed.

(** ** The first double of each piece, with its two neighbours *)
Notation f m e := (@B754_finite 53 1024 false m e eq_refl).
Definition rows : list (b64 * b64 * b64) :=
  [(f 6243314768165359 (-53), f 6243314768165360 (-53), f 6243314768165361 (-53));
   (f 6243314768165358 (-52), f 6243314768165359 (-52), f 6243314768165360 (-52));
   (f 4682486076124018 (-51), f 4682486076124019 (-51), f 4682486076124020 (-51));
   (f 6243314768165358 (-51), f 6243314768165359 (-51), f 6243314768165360 (-51));
   (f 7804143460206698 (-51), f 7804143460206699 (-51), f 7804143460206700 (-51));
   (f 4682486076124018 (-50), f 4682486076124019 (-50), f 4682486076124020 (-50));
   (f 5462900422144688 (-50), f 5462900422144689 (-50), f 5462900422144690 (-50));
   (f 6243314768165358 (-50), f 6243314768165359 (-50), f 6243314768165360 (-50));
   (f 7023729114186028 (-50), f 7023729114186029 (-50), f 7023729114186030 (-50));
   (f 7804143460206698 (-50), f 7804143460206699 (-50), f 7804143460206700 (-50));
   (f 8584557806227367 (-50), f 8584557806227368 (-50), f 8584557806227369 (-50));
   (f 4682486076124018 (-49), f 4682486076124019 (-49), f 4682486076124020 (-49));
   (f 5072693249134353 (-49), f 5072693249134354 (-49), f 5072693249134355 (-49));
   (f 5462900422144688 (-49), f 5462900422144689 (-49), f 5462900422144690 (-49));
   (f 5853107595155023 (-49), f 5853107595155024 (-49), f 5853107595155025 (-49));
   (f 6243314768165358 (-49), f 6243314768165359 (-49), f 6243314768165360 (-49));
   (f 6633521941175693 (-49), f 6633521941175694 (-49), f 6633521941175695 (-49));
   (f 7023729114186028 (-49), f 7023729114186029 (-49), f 7023729114186030 (-49));
   (f 7413936287196363 (-49), f 7413936287196364 (-49), f 7413936287196365 (-49));
   (f 7804143460206698 (-49), f 7804143460206699 (-49), f 7804143460206700 (-49));
   (f 8194350633217032 (-49), f 8194350633217033 (-49), f 8194350633217034 (-49));
   (f 8584557806227367 (-49), f 8584557806227368 (-49), f 8584557806227369 (-49));
   (f 8974764979237702 (-49), f 8974764979237703 (-49), f 8974764979237704 (-49));
   (f 4682486076124018 (-48), f 4682486076124019 (-48), f 4682486076124020 (-48));
   (f 4877589662629186 (-48), f 4877589662629187 (-48), f 4877589662629188 (-48));
   (f 5072693249134353 (-48), f 5072693249134354 (-48), f 5072693249134355 (-48));
   (f 5267796835639521 (-48), f 5267796835639522 (-48), f 5267796835639523 (-48));
   (f 5462900422144688 (-48), f 5462900422144689 (-48), f 5462900422144690 (-48));
   (f 5658004008649856 (-48), f 5658004008649857 (-48), f 5658004008649858 (-48));
   (f 5853107595155023 (-48), f 5853107595155024 (-48), f 5853107595155025 (-48));
   (f 6048211181660191 (-48), f 6048211181660192 (-48), f 6048211181660193 (-48));
   (f 6243314768165358 (-48), f 6243314768165359 (-48), f 6243314768165360 (-48));
   (f 6438418354670525 (-48), f 6438418354670526 (-48), f 6438418354670527 (-48));
   (f 6633521941175693 (-48), f 6633521941175694 (-48), f 6633521941175695 (-48));
   (f 6828625527680860 (-48), f 6828625527680861 (-48), f 6828625527680862 (-48));
   (f 7023729114186028 (-48), f 7023729114186029 (-48), f 7023729114186030 (-48));
   (f 7218832700691195 (-48), f 7218832700691196 (-48), f 7218832700691197 (-48));
   (f 7413936287196363 (-48), f 7413936287196364 (-48), f 7413936287196365 (-48));
   (f 7609039873701530 (-48), f 7609039873701531 (-48), f 7609039873701532 (-48));
   (f 7804143460206698 (-48), f 7804143460206699 (-48), f 7804143460206700 (-48));
   (f 7999247046711865 (-48), f 7999247046711866 (-48), f 7999247046711867 (-48));
   (f 8194350633217032 (-48), f 8194350633217033 (-48), f 8194350633217034 (-48));
   (f 8389454219722200 (-48), f 8389454219722201 (-48), f 8389454219722202 (-48));
   (f 8584557806227367 (-48), f 8584557806227368 (-48), f 8584557806227369 (-48));
   (f 8779661392732535 (-48), f 8779661392732536 (-48), f 8779661392732537 (-48));
   (f 8974764979237702 (-48), f 8974764979237703 (-48), f 8974764979237704 (-48));
   (f 4584934282871435 (-47), f 4584934282871436 (-47), f 4584934282871437 (-47));
   (f 4682486076124018 (-47), f 4682486076124019 (-47), f 4682486076124020 (-47))].
Definition row (k : Z) : b64 * b64 * b64 := nth (Z.to_nat (k - 1)) rows (b64_ofZ 0, b64_ofZ 0, b64_ofZ 0).
Definition trunc_is (x : b64) (k : Z) : bool := match b64_trunc (b64_div x L2v) with Some j => (j =? k)%Z | None => false end.
Definition row_ok (k : Z) : bool :=
  let '(p, b, s) := row k in
  adjacent p b && adjacent b s && b64_ltb L2v b && trunc_is b k && b64_leb s (b64_ofZ 40)
  && (if (k =? 1)%Z then b64_leb p L2v else b64_ltb L2v p && trunc_is p (k - 1))
  && b64_leb (pval (k - 1) p) (pval k b)
  && (b64_leb (b64_ofZ 0) (red k b) || (b64_leb (b64_ofZ 0) (red k s) && b64_leb (pval k b) (pval k s))).
Lemma rows_ok : forallb row_ok (map Z.of_nat (seq 1 48)) = true.
Proof. vm_cast_no_check (eq_refl true). Qed.
Lemma row_ok_at k : (1 <= k <= 48)%Z -> row_ok k = true.
Proof.
  intros H. pose proof rows_ok as A. rewrite forallb_forall in A. apply A. apply in_map_iff. exists (Z.to_nat k). split; [lia|]. apply in_seq. lia.
Qed.
Lemma trunc_is_ok x k : trunc_is x k = true -> b64_trunc (b64_div x L2v) = Some k.
Proof. unfold trunc_is. destruct (b64_trunc (b64_div x L2v)) as [j|]; [|intros H; discriminate H]. intros H. apply Z.eqb_eq in H. subst. reflexivity. Qed.
Lemma leb_real (a b : b64) : finite64 a = true -> finite64 b = true -> b64_leb a b = true -> B2R64 a <= B2R64 b.
Proof.
  intros Fa Fb H. rewrite leb_xval, !xval_finite in H by (try apply finite_not_nan; assumption). apply Rle_bool_true_iff || idtac. revert H. case Rle_bool_spec; [auto|intros _ X; discriminate X].
Qed.
Lemma ltb_real (a b : b64) : finite64 a = true -> finite64 b = true -> b64_ltb a b = true -> B2R64 a < B2R64 b.
Proof.
  intros Fa Fb H. rewrite ltb_xval, !xval_finite in H by (try apply finite_not_nan; assumption). revert H. case Rlt_bool_spec; [auto|intros _ X; discriminate X].
Qed.
Definition pr k := fst (fst (row k)).
Definition fi k := snd (fst (row k)).
Definition su k := snd (row k).
Record row_facts (k : Z) : Prop := {
  rf_pf : adjacent (pr k) (fi k) = true;
  rf_fs : adjacent (fi k) (su k) = true;
  rf_piece : piece k (fi k);
  rf_small : B2R64 (su k) <= 40;
  rf_first : k = 1%Z -> B2R64 (pr k) <= B2R64 L2v;
  rf_prev : piece (k - 1) (pr k);
  rf_jump : B2R64 (pval (k - 1) (pr k)) <= B2R64 (pval k (fi k));
  rf_neg : 0 <= B2R64 (red k (fi k)) \/ (piece k (su k) -> 0 <= B2R64 (red k (su k)) /\ B2R64 (pval k (fi k)) <= B2R64 (pval k (su k))) }.
Lemma row_spec k : (1 <= k <= 48)%Z -> row_facts k.
Proof.
  intros Hk. pose proof (row_ok_at k Hk) as H. unfold row_ok in H. unfold pr, fi, su in *. 
  destruct (row k) as ((p, b), s) eqn:Er. repeat rewrite andb_true_iff in H. destruct H as (((((((H1 & H2) & H3) & H4) & H5) & H6) & H7) & H8).
  destruct (adjacent_spec _ _ H1) as (Fp & Fb & Pp & _). destruct (adjacent_spec _ _ H2) as (_ & Fs & Pb & _).
  destruct L2_value as (FL & _). pose proof L2_range as RL.
  destruct (ofZ_exact 40 ltac:(lia)) as (F40 & E40). destruct (ofZ_exact 0 ltac:(lia)) as (F0 & E0).
  apply ltb_real in H3; [|assumption..]. apply trunc_is_ok in H4. apply leb_real in H5; [|assumption..]. rewrite E40 in H5.
  assert (Big : 40 <= 10 ^ 10) by lra.
  assert (PB : piece k b) by (split; [exact Fb|right; repeat split; [lia|exact H3|exact H4]]).
  assert (PP : piece (k - 1) p /\ (k = 1%Z -> B2R64 p <= B2R64 L2v)).
  { destruct (Z.eqb_spec k 1) as [->|Nk].
    - apply leb_real in H6; [|assumption..]. split; [|intros; exact H6]. split; [exact Fp|left]. split; [reflexivity|lra].
    - apply andb_true_iff in H6 as (H6 & H6'). apply ltb_real in H6; [|assumption..]. apply trunc_is_ok in H6'. split; [|intros; lia].
      split; [exact Fp|right]. repeat split; [lia|exact H6|exact H6']. }
  destruct PP as (PP & P1).
  destruct (pval_value (fun _ => Undef Diverge) k b PB ltac:(lia) ltac:(lra)) as (_ & Fvb). destruct (pval_value (fun _ => Undef Diverge) (k - 1) p PP ltac:(lia) ltac:(lra)) as (_ & Fvp).
  destruct (red_facts k b PB Hk ltac:(lra)) as (Frb & _).
  constructor; unfold pr, fi, su; rewrite Er; cbn [fst snd]; try assumption.
  - apply leb_real in H7; assumption.
  - apply orb_true_iff in H8 as [H8|H8]; [left|right].
    + apply leb_real in H8; [|assumption..]. rewrite E0 in H8. exact H8.
    + intros PS. apply andb_true_iff in H8 as (H8 & H9). destruct (red_facts k s PS Hk ltac:(lra)) as (Frs & _).
      destruct (pval_value (fun _ => Undef Diverge) k s PS ltac:(lia) ltac:(lra)) as (_ & Fvs).
      apply leb_real in H8; [|assumption..]. apply leb_real in H9; [|assumption..]. rewrite E0 in H8. auto.
Qed.

(** a member of piece [k] is not below its first element *)
Lemma first_below k x : (1 <= k <= 48)%Z -> piece k x -> B2R64 x <= 10 ^ 10 -> B2R64 (fi k) <= B2R64 x.
Proof.
  intros Hk P Hx. pose proof (row_spec k Hk) as RS. destruct (Rle_lt_dec (B2R64 (fi k)) (B2R64 x)) as [C|C]; [exact C|exfalso].
  destruct (adjacent_spec _ _ (rf_pf k RS)) as (Fp & _ & _ & A). destruct P as (F & [(E & _)|(_ & L & T)]); [lia|]. specialize (A x F C).
  destruct (Z.eq_dec k 1) as [->|N]; [pose proof (rf_first 1 RS eq_refl); lra|].
  destruct (rf_prev k RS) as (_ & [(E & _)|(_ & L' & T')]); [lia|].
  pose proof (rf_small k RS) as S. destruct (adjacent_spec _ _ (rf_pf k RS)) as (_ & _ & B & _). destruct (adjacent_spec _ _ (rf_fs k RS)) as (_ & _ & B' & _).
  assert (40 <= 10 ^ 10) by lra.
  pose proof (trunc_mono x (pr k) k (k - 1) F Fp ltac:(lra) A ltac:(lra) T T'). lia.
Qed.
(** a member of an earlier piece is below the first element of a later one *)
Lemma before_first i j x : (0 <= i < j)%Z -> (j <= 48)%Z -> piece i x -> B2R64 x <= 10 ^ 10 -> B2R64 x < B2R64 (fi j).
Proof.
  intros Hi Hj P Hx. pose proof (row_spec j ltac:(lia)) as RS. destruct (Rle_lt_dec (B2R64 (fi j)) (B2R64 x)) as [C|C]; [exfalso|exact C].
  destruct (rf_piece j RS) as (Fb & [(E & _)|(_ & Lb & Tb)]); [lia|]. destruct P as (F & [(E & H)|(_ & L & T)]); [lra|].
  pose proof (trunc_mono (fi j) x j i Fb F ltac:(lra) C ltac:(lra) Tb T). lia.
Qed.
Lemma same_piece k x y : (0 <= k <= 48)%Z -> piece k x -> piece k y -> B2R64 x <= B2R64 y -> B2R64 y <= 10 ^ 10 -> B2R64 (pval k x) <= B2R64 (pval k y).
Proof.
  intros Hk Px Py H Hy. pose proof L2_range as RL. destruct (Z.eq_dec k 0) as [->|N].
  { destruct Px as (Fx & [(_ & Bx)|(E & _)]); [|lia]. destruct Py as (Fy & [(_ & By)|(E & _)]); [|lia].
    unfold pval. cbn [Z.eqb]. apply cf_mono; assumption || lra. }
  assert (K1 : (1 <= k <= 48)%Z) by lia. pose proof (row_spec k K1) as RS.
  destruct (red_facts k x Px K1 ltac:(lra)) as (Fx & Rx).
  destruct (Rle_lt_dec 0 (B2R64 (red k x))) as [C|C]; [apply piece_pos; assumption|].
  destruct (adjacent_spec _ _ (rf_fs k RS)) as (Fb & Fs & B & A). pose proof (first_below k x K1 Px ltac:(lra)) as Lx.
  destruct (red_facts k (fi k) (rf_piece k RS) K1 ltac:(lra)) as (Frb & _).
  pose proof (red_mono k (fi k) x Frb Fx Fb (proj1 Px) ltac:(lia) Lx) as Mb.
  destruct (rf_neg k RS) as [Z|Z]; [lra|].
  assert (PS : forall y, piece k y -> B2R64 (fi k) < B2R64 y -> B2R64 y <= 10 ^ 10 -> piece k (su k) /\ B2R64 (su k) <= B2R64 y).
  { intros w Pw Lw Hw. destruct (Rle_lt_dec (B2R64 (su k)) (B2R64 w)) as [G|G]; [|pose proof (A w (proj1 Pw) G); lra]. split; [|exact G].
    destruct (rf_piece k RS) as (_ & [(E & _)|(_ & Lb & Tb)]); [lia|]. destruct Pw as (Fw & [(E & _)|(_ & Lw' & Tw)]); [lia|].
    split; [exact Fs|right]. repeat split; [lia|lra|].
    destruct (reduction (su k) Fs ltac:(lra) ltac:(lra)) as (j & Ej & _).
    pose proof (trunc_mono (fi k) (su k) k j Fb Fs ltac:(lra) ltac:(lra) ltac:(lra) Tb Ej).
    pose proof (trunc_mono (su k) w j k Fs Fw ltac:(lra) G Hw Ej Tw). rewrite Ej. f_equal. lia. }
  destruct (Rle_lt_or_eq_dec _ _ Lx) as [L|L].
  { exfalso. destruct (PS x Px L ltac:(lra)) as (P & Q). destruct (Z P) as (Z1 & _). destruct (red_facts k (su k) P K1 ltac:(lra)) as (Frs & _).
    pose proof (red_mono k (su k) x Frs Fx Fs (proj1 Px) ltac:(lia) Q). lra. }
  assert (fi k = x) as E by (apply same; [exact Fb|exact (proj1 Px)|lra|exact L]). rewrite <- E in *. clear E L Lx.
  destruct (Rle_lt_or_eq_dec _ _ H) as [L|L].
  - destruct (PS y Py L Hy) as (P & Q). destruct (Z P) as (Z1 & Z2). apply Rle_trans with (1 := Z2). apply piece_pos; assumption.
  - assert (fi k = y) as -> by (apply same; [exact Fb|exact (proj1 Py)|lra|exact L]). lra.
Qed.
Lemma later_piece n : forall i x y, (0 <= i)%Z -> (i + Z.of_nat n <= 48)%Z -> piece i x -> piece (i + Z.of_nat n) y -> B2R64 x <= B2R64 y -> B2R64 y <= 10 ^ 10 ->
  B2R64 (pval i x) <= B2R64 (pval (i + Z.of_nat n) y).
Proof.
  induction n as [|n IH]; intros i x y Hi Hn Px Py H Hy.
  - replace (i + Z.of_nat 0)%Z with i in * by lia. apply same_piece; try assumption. lia.
  - replace (i + Z.of_nat (S n))%Z with (i + 1 + Z.of_nat n)%Z in * by lia. pose proof (row_spec (i + 1) ltac:(lia)) as RS.
    destruct (adjacent_spec _ _ (rf_pf _ RS)) as (Fp & Fb & B & A). destruct (adjacent_spec _ _ (rf_fs _ RS)) as (_ & _ & B' & _). pose proof (rf_small _ RS) as S.
    pose proof (before_first i (i + 1) x ltac:(lia) ltac:(lia) Px ltac:(lra)) as Lx. pose proof (A x (proj1 Px) Lx) as Lp.
    pose proof (rf_prev _ RS) as Pp. replace (i + 1 - 1)%Z with i in Pp by lia. pose proof (rf_jump _ RS) as J. replace (i + 1 - 1)%Z with i in J by lia.
    assert (40 <= 10 ^ 10) by lra.
    apply Rle_trans with (B2R64 (pval i (pr (i + 1)))); [apply same_piece; try assumption; (lia || lra)|]. apply Rle_trans with (1 := J).
    apply IH; try lia; try assumption; [exact (rf_piece _ RS)|].
    destruct (Rle_lt_dec (B2R64 (fi (i + 1))) (B2R64 y)) as [C|C]; [exact C|exfalso].
    destruct n as [|n].
    + replace (i + 1 + Z.of_nat 0)%Z with (i + 1)%Z in Py by lia. pose proof (first_below (i + 1) y ltac:(lia) Py Hy). lra.
    + pose proof (first_below (i + 1 + Z.of_nat (Datatypes.S n)) y ltac:(lia) Py Hy).
      pose proof (before_first (i + 1) (i + 1 + Z.of_nat (Datatypes.S n)) (fi (i + 1)) ltac:(lia) ltac:(lia) (rf_piece _ RS) ltac:(lra)). lra.
Qed.
Lemma has_piece (x : b64) : finite64 x = true -> 0 <= B2R64 x <= 332 / 10 -> exists k, (0 <= k <= 47)%Z /\ piece k x.
Proof.
  intros F H. pose proof L2_range as RL. destruct (Rle_lt_dec (B2R64 x) (B2R64 L2v)) as [C|C].
  { exists 0%Z. split; [lia|]. split; [exact F|left]. split; [reflexivity|lra]. }
  assert (332 / 10 <= 10 ^ 10) by lra. destruct (reduction x F ltac:(lra) ltac:(lra)) as (k & T & K0 & K1 & K2 & _).
  assert (Ku : IZR k < 48).
  { apply Rmult_lt_reg_r with (B2R64 L2v); [lra|]. eapply Rle_lt_trans; [exact K1|]. apply Rle_lt_trans with ((1 + eps) * (332 / 10)); [apply Rmult_le_compat_l; [unfold eps; lra|lra]|]. destruct L2_value as (_ & ->). unfold eps. lra. }
  destruct (Z.eq_dec k 0) as [->|N].
  - exfalso. destruct L2_value as (FL & _). assert (T1 : b64_trunc (b64_div L2v L2v) = Some 1%Z) by (vm_compute; reflexivity).
    pose proof (trunc_mono L2v x 1 0 FL F ltac:(lra) ltac:(lra) ltac:(lra) T1 T). lia.
  - exists k. split; [apply lt_IZR in Ku; lia|]. split; [exact F|right]. repeat split; [lia|exact C|exact T].
Qed.

Lemma pexp_mono rec rec' (x y : b64) : finite64 x = true -> finite64 y = true -> 0 <= B2R64 x -> B2R64 x <= B2R64 y -> B2R64 y <= 33 ->
  exists u v : b64, xexp_body (N := B64) musl_utils rec x = Ret (u : num B64) /\ xexp_body (N := B64) musl_utils rec' y = Ret (v : num B64) /\
    finite64 u = true /\ finite64 v = true /\ B2R64 u <= B2R64 v.
Proof.
  intros Fx Fy H0 H1 H2. assert (332 / 10 <= 10 ^ 10) by lra. destruct (has_piece x Fx ltac:(lra)) as (i & Hi & Px). destruct (has_piece y Fy ltac:(lra)) as (j & Hj & Py).
  destruct (pval_value rec i x Px ltac:(lia) ltac:(lra)) as (Eu & Fu). destruct (pval_value rec' j y Py ltac:(lia) ltac:(lra)) as (Ev & Fv).
  exists (pval i x), (pval j y). repeat (split; [assumption|]).
  assert (IJ : (i <= j)%Z).
  { destruct (Z_le_gt_dec i j) as [L|L]; [exact L|exfalso]. pose proof (first_below i x ltac:(lia) Px ltac:(lra)). pose proof (before_first j i y ltac:(lia) ltac:(lia) Py ltac:(lra)). lra. }
  replace j with (i + Z.of_nat (Z.to_nat (j - i)))%Z in * by lia. apply later_piece; try assumption; (lia || lra).
Qed.
Lemma xexp_mono (x y : b64) : finite64 x = true -> finite64 y = true -> - 33 <= B2R64 x -> B2R64 x <= B2R64 y -> B2R64 y <= 33 ->
  exists u v : b64, xexp (N := B64) musl_utils x = Ret (u : num B64) /\ xexp (N := B64) musl_utils y = Ret (v : num B64) /\
    finite64 u = true /\ finite64 v = true /\ 0 <= B2R64 u /\ B2R64 u <= B2R64 v.
Proof.
  intros Fx Fy H0 H1 H2. destruct (Rle_lt_dec 0 (B2R64 x)) as [C|C].
  { rewrite !xexp_nonneg by (try apply finite_not_nan; try rewrite xval_finite; assumption || lra).
    destruct (pexp_mono (fun _ => Undef Diverge) (fun _ => Undef Diverge) x y Fx Fy C H1 H2) as (u & v & Eu & Ev & Fu & Fv & L).
    destruct (pexp_ge_one (fun _ => Undef Diverge) x Fx ltac:(lra)) as (u' & Eu' & _ & Pu). rewrite Eu in Eu'. inversion Eu'. subst u'. rewrite xval_finite in Pu by exact Fu.
    exists u, v. repeat (split; [assumption|]). split; [lra|exact L]. }
  destruct (Rle_lt_dec 0 (B2R64 y)) as [D|D].
  { destruct (xexp_side x Fx ltac:(apply Rabs_le; lra)) as (u & Eu & _ & _ & Su). destruct (Su ltac:(lra)) as (Fu & Bu).
    destruct (xexp_side y Fy ltac:(apply Rabs_le; lra)) as (v & Ev & _ & Sv & _). specialize (Sv D).
    assert (Fv : finite64 v = true).
    { rewrite xexp_nonneg in Ev by (try apply finite_not_nan; try rewrite xval_finite; assumption || lra).
      destruct (pexp_mono (fun _ => Undef Diverge) (fun _ => Undef Diverge) y y Fy Fy D (Rle_refl _) H2) as (v' & _ & Ev' & _ & Fv' & _).
      rewrite Ev in Ev'. inversion Ev'. subst v'. exact Fv'. }
    rewrite xval_finite in Sv by exact Fv. exists u, v. repeat (split; [assumption|]). lra. }
  assert (Fx' : finite64 (b64_opp x) = true) by (rewrite finite_opp; exact Fx). assert (Fy' : finite64 (b64_opp y) = true) by (rewrite finite_opp; exact Fy).
  assert (Vx : B2R64 (b64_opp x) = - B2R64 x) by (unfold b64_opp; apply B2R_Bopp). assert (Vy : B2R64 (b64_opp y) = - B2R64 y) by (unfold b64_opp; apply B2R_Bopp).
  destruct (pexp_mono (fun _ => Undef Diverge) (fun _ => Undef Diverge) (b64_opp y) (b64_opp x) Fy' Fx' ltac:(lra) ltac:(lra) ltac:(lra)) as (q & p & Eq & Ep & Fq & Fp & L).
  destruct (pexp_ge_one (fun _ => Undef Diverge) (b64_opp y) Fy' ltac:(lra)) as (q' & Eq' & _ & Pq). rewrite Eq in Eq'. inversion Eq'. subst q'. rewrite xval_finite in Pq by exact Fq.
  rewrite !xexp_neg by (try apply finite_not_nan; try rewrite xval_finite; assumption).
  exists (b64_div (b64_ofZ 1) p), (b64_div (b64_ofZ 1) q).
  split. { match goal with |- context [xexp_body ?a ?b ?c] => change (xexp_body a b c) with (xexp_body (N := B64) musl_utils (fun _ => Undef Diverge) (b64_opp x)) end. rewrite Ep. reflexivity. }
  split. { match goal with |- context [xexp_body ?a ?b ?c] => change (xexp_body a b c) with (xexp_body (N := B64) musl_utils (fun _ => Undef Diverge) (b64_opp y)) end. rewrite Eq. reflexivity. }
  destruct (ofZ_exact 1 ltac:(lia)) as (F1 & E1).
  assert (W : forall w : b64, finite64 w = true -> 1 <= B2R64 w -> finite64 (b64_div (b64_ofZ 1) w) = true /\ B2R64 (b64_div (b64_ofZ 1) w) = rndc (1 / B2R64 w) /\ 0 <= B2R64 (b64_div (b64_ofZ 1) w)).
  { intros w Fw Hw. destruct (div_xval (b64_ofZ 1) w F1 Fw ltac:(lra)) as (N & V). rewrite E1 in V.
    assert (I : 0 <= 1 / B2R64 w <= 1). { split; [apply Rmult_le_pos; [lra|left; apply Rinv_0_lt_compat; lra]|]. apply Rmult_le_reg_r with (B2R64 w); [lra|]. unfold Rdiv. rewrite Rmult_assoc, Rinv_l by lra. lra. }
    assert (Y0 : 0 <= rndc (1 / B2R64 w)) by (apply Rle_trans with (rndc 0); [rewrite rndc_0; lra|apply rndc_mono; lra]).
    assert (Y1 : rndc (1 / B2R64 w) <= 1) by (apply Rle_trans with (rndc 1); [apply rndc_mono; lra|rewrite rndc_1; lra]).
    assert (FF : finite64 (b64_div (b64_ofZ 1) w) = true).
    { apply finite_of_xval; [exact N|]. rewrite V, Rabs_pos_eq by exact Y0. pose proof PowAcc.TOP_300. pose proof PowAcc.ten300. lra. }
    split; [exact FF|]. rewrite <- xval_finite, V by exact FF. auto. }
  destruct (W p Fp ltac:(lra)) as (F1' & V1 & P1). destruct (W q Fq ltac:(lra)) as (F2' & V2 & _).
  repeat (split; [assumption|]). rewrite V1, V2. apply rndc_mono. unfold Rdiv. apply Rmult_le_compat_l; [lra|]. apply Rinv_le_contravar; lra.
Qed.
