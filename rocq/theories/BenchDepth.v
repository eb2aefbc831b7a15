(** * BenchDepth: the continued fraction of the exponential at depth 4 (C77) *)
From Coq Require Import ZArith List Bool Lia Reals Lra Psatz.
From Flocq Require Import Core.Core.
From Coquelicot Require Import Coquelicot.
From Verif Require Import Num NumFacts XMath RNum LogExact ExpExact Bench BenchExp.
Open Scope R_scope.

(** ** The value computed: the diagonal Pade approximant of order 4 *)
Definition epd (z : R) : R := 1680 + z * (840 + z * (180 + z * (20 + z))).
Definition edat (z : R) : R := epd z / epd (- z).
Lemma epd_pos z : -1 <= z <= 1 -> 0 < epd z.
Proof.
  intros H. unfold epd. assert (H1 : -21 <= z * (20 + z) <= 21) by nra. set (a := z * (20 + z)) in *.
  assert (H2 : -201 <= z * (180 + a) <= 201) by nra. set (b := z * (180 + a)) in *.
  assert (0 <= z * b). { unfold b. rewrite <- Rmult_assoc. apply Rmult_le_pos; [nra|lra]. } nra.
Qed.

Lemma exp_cf_4_exact z : -1 <= z <= 1 -> exp_cf (N := RNum) 4 (Some z) = Some (edat z).
Proof.
  intros H. unfold exp_cf. change (4 - 1)%nat with 3%nat. cbn [nmul RNum xr2].
  assert (Hz : 0 <= z * z) by nra. set (y := z * z) in *.
  assert (E4 : exp_K (N := RNum) 0 (Some y) (3 + 1) = Some 0) by reflexivity.
  destruct (exp_K_level 0 y 0 3 ltac:(lia) Hz ltac:(lra) E4) as (k3 & E3 & P3 & V3).
  destruct (exp_K_level 1 y k3 2 ltac:(lia) Hz P3 E3) as (k2 & E2 & P2 & V2).
  destruct (exp_K_level 2 y k2 1 ltac:(lia) Hz P2 E2) as (k1 & E1 & P1 & V1).
  rewrite E1. cbn [nadd nsub nmul nopp nofZ RNum xr2 xr_opp ndiv].
  rewrite xdivp by lra. cbn [xr2]. f_equal.
  assert (Y2 : 0 <= y * y) by nra.
  assert (W3 : k3 = y / 140) by (rewrite V3; field).
  assert (W2 : k2 = 140 * y / (60 * (140 + y))) by (rewrite V2, W3; field; lra).
  assert (W1 : k1 = y * 60 * (140 + y) / (12 * (8400 + 200 * y))) by (rewrite V1, W2; field; lra).
  pose proof (epd_pos (- z) ltac:(lra)) as Q.
  assert (D : 2 - z + 2 * k1 = epd (- z) * 120 / (12 * (8400 + 200 * y))) by (rewrite W1; unfold epd, y; field; fold y; lra).
  rewrite D. unfold edat.
  replace (1 + 2 * z / (epd (- z) * 120 / (12 * (8400 + 200 * y)))) with ((epd (- z) + 2 * z * (12 * (8400 + 200 * y)) / 120) / epd (- z)) by (field; split; lra).
  f_equal. unfold epd, y. field.
Qed.

(** ** The error *)
Definition eerd (z : R) : R := z - ln (edat z).
Lemma eerd_0 : eerd 0 = 0.
Proof. unfold eerd, edat. replace (epd 0 / epd (- 0)) with 1 by (unfold epd; field). rewrite ln_1. lra. Qed.
Lemma eerd_derive z : -1 < z < 1 -> is_derive eerd z (z ^ 8 / (epd z * epd (- z))).
Proof.
  intros H. pose proof (epd_pos z ltac:(lra)) as P. pose proof (epd_pos (- z) ltac:(lra)) as Q.
  assert (E : forall t, -1 < t < 1 -> t - (ln (epd t) - ln (epd (- t))) = eerd t).
  { intros t Ht. unfold eerd, edat. rewrite ln_div; [reflexivity|apply epd_pos; lra..]. }
  apply (is_derive_ext_loc (fun t => t - (ln (epd t) - ln (epd (- t))))).
  { assert (D : 0 < Rmin (1 - z) (z + 1)) by (apply Rmin_pos; lra).
    exists (mkposreal _ D). intros t Ht. apply E.
    assert (A : Rabs (t - z) < Rmin (1 - z) (z + 1)) by exact Ht.
    pose proof (Rmin_l (1 - z) (z + 1)). pose proof (Rmin_r (1 - z) (z + 1)). apply Rabs_def2 in A. lra. }
  unfold epd in *. auto_derive.
  - repeat split; assumption.
  - field. split; lra.
Qed.
Lemma epd_prod z : - (7 / 10) <= z <= 7 / 10 -> 0 < epd z * epd (- z) <= 2822400.
Proof.
  intros H. split; [apply Rmult_lt_0_compat; apply epd_pos; lra|].
  set (y := z * z). assert (Hy : 0 <= y <= 49 / 100) by (unfold y; nra).
  replace (epd z * epd (- z)) with (2822400 + y * (-100800 + y * (2160 + y * (-40 + y)))) by (unfold epd, y; ring).
  set (a := y * (-40 + y)). assert (-20 <= a <= 0) by (unfold a; nra).
  set (b := y * (2160 + a)). assert (0 <= b <= 1080) by (unfold b; nra).
  nra.
Qed.
Lemma pow9_derive c z : is_derive (fun t => c * t ^ 9) z (9 * c * z ^ 8).
Proof. auto_derive; [exact I|]. cbn [INR Nat.pred]. ring. Qed.
Lemma eerd_lower z : 0 <= z <= 7 / 10 -> 3936 / 10 ^ 11 * z ^ 9 <= eerd z.
Proof.
  intros H.
  assert (G : (fun t => 3936 / 10 ^ 11 * t ^ 9 - eerd t) z <= (fun t => 3936 / 10 ^ 11 * t ^ 9 - eerd t) 0).
  { apply (decreasing (fun t => 3936 / 10 ^ 11 * t ^ 9 - eerd t) (fun t => 9 * (3936 / 10 ^ 11) * t ^ 8 - t ^ 8 / (epd t * epd (- t)))); [lra| |].
    - intros x Hx. apply (is_derive_minus (V := R_NormedModule)); [apply pow9_derive|apply eerd_derive; lra].
    - intros x Hx. pose proof (epd_prod x ltac:(lra)) as P. assert (0 <= x ^ 8) by (apply pow_le; lra).
      assert (I : / 2822400 <= / (epd x * epd (- x))) by (apply Rinv_le_contravar; lra).
      unfold Rdiv at 2. assert (x ^ 8 * / 2822400 <= x ^ 8 * / (epd x * epd (- x))) by (apply Rmult_le_compat_l; assumption). lra. }
  cbv beta in G. rewrite eerd_0 in G. rewrite pow_i in G by lia. lra.
Qed.

Lemma depth_4_error (z : R) : 0 <= z <= 7 / 10 -> exists v, exp_cf (N := RNum) 4 (Some z) = Some v /\
  v <= (1 - 393 / 10 ^ 10 * z ^ 9) * exp z.
Proof.
  intros H. exists (edat z). split; [apply exp_cf_4_exact; lra|].
  assert (Pe : 0 < edat z) by (apply Rdiv_lt_0_compat; apply epd_pos; lra).
  assert (E : edat z = exp (- eerd z) * exp z).
  { rewrite <- exp_plus. unfold eerd. replace (- (z - ln (edat z)) + z) with (ln (edat z)) by lra. rewrite exp_ln; [reflexivity|assumption]. }
  rewrite E. apply Rmult_le_compat_r; [left; apply exp_pos|]. pose proof (eerd_lower z H) as L.
  assert (Z0 : 0 <= z ^ 9 <= 1). { split; [apply pow_le; lra|]. rewrite <- (pow1 9). apply pow_incr. lra. }
  set (h := 3936 / 10 ^ 11 * z ^ 9) in *. apply Rle_trans with (exp (- h)); [apply exp_le_compat; lra|].
  assert (Hh : 0 <= h <= 1 / 10 ^ 7) by (unfold h; lra).
  pose proof (exp_ineq1_le h) as I. rewrite exp_Ropp. apply Rle_trans with (/ (1 + h)); [apply Rinv_le_contravar; lra|].
  apply Rmult_le_reg_r with (1 + h); [lra|]. rewrite Rinv_l by lra.
  assert (393 / 10 ^ 10 * z ^ 9 <= h * (1 - h)).
  { assert (h * h <= h * (1 / 10 ^ 7)) by (apply Rmult_le_compat_l; lra). unfold h in *. lra. }
  nra.
Qed.
Lemma depth_6_error (z : R) : 0 <= z <= ln 2 -> exists v, exp_cf (N := RNum) 6 (Some z) = Some v /\ v <= exp z.
Proof.
  intros H. pose proof ln2_bounds as L. exists (erat z). rewrite exp_cf_6_same, exp_cf_exact by lra. split; [reflexivity|].
  pose proof (cf_exp_ln2 z H). lra.
Qed.

Lemma depth_4_table :
  ~ (forall z, 0 <= z <= 7 / 10 -> exists v, exp_cf (N := RNum) 4 (Some z) = Some v /\ Rabs (v - exp z) <= 15 / 10 ^ 10 * exp z).
Proof.
  intros H. destruct (H (7 / 10) ltac:(lra)) as (v & E & B). destruct (depth_4_error (7 / 10) ltac:(lra)) as (w & E' & B').
  rewrite E in E'. injection E' as <-. pose proof (exp_pos (7 / 10)) as P. apply Rabs_le_inv in B. nra.
Qed.
Lemma depth_4_example : 0 <= 1 / 2 <= 7 / 10 /\ 1 / 2 <= ln 2 /\ exp_cf (N := RNum) 4 (Some (1 / 2)) = Some (34361 / 20841).
Proof.
  split; [lra|]. split; [pose proof ln_lt_2; lra|]. rewrite exp_cf_4_exact by lra. f_equal. unfold edat, epd. field.
Qed.
