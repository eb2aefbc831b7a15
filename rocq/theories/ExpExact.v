(** * Lemmas: the continued fraction of the exponential in exact arithmetic (C30) *)
From Coq Require Import ZArith List Bool Lia Reals Lra Psatz.
From Flocq Require Import Core.Core.
From Coquelicot Require Import Coquelicot.
From Verif Require Import Num NumFacts XMath RNum LogExact.
Open Scope R_scope.

(** ** The value computed: the diagonal Pade approximant of order 6 *)
Definition epn (z : R) : R := 665280 + z * (332640 + z * (75600 + z * (10080 + z * (840 + z * (42 + z))))).
Definition erat (z : R) : R := epn z / epn (- z).

Lemma epn_range z : -1 <= z <= 1 -> 300000 <= epn z <= 1200000.
Proof.
  intros H. unfold epn.
  assert (H1 : -43 <= z * (42 + z) <= 43) by nra. set (a := z * (42 + z)) in *.
  assert (H2 : -883 <= z * (840 + a) <= 883) by nra. set (b := z * (840 + a)) in *.
  assert (H3 : -10963 <= z * (10080 + b) <= 10963) by nra. set (c := z * (10080 + b)) in *.
  assert (H4 : -86563 <= z * (75600 + c) <= 86563) by nra. set (d := z * (75600 + c)) in *.
  assert (H5 : 0 <= z * d).
  { unfold d. rewrite <- Rmult_assoc. apply Rmult_le_pos; [nra|lra]. }
  nra.
Qed.
Lemma epn_pos z : -1 <= z <= 1 -> 0 < epn z.
Proof. intros H. pose proof (epn_range z H). lra. Qed.
Lemma erat_pos z : -1 <= z <= 1 -> 0 < erat z.
Proof. intros H. apply Rdiv_lt_0_compat; apply epn_pos; lra. Qed.
Lemma erat_opp z : -1 <= z <= 1 -> erat (- z) = / erat z.
Proof. intros H. pose proof (epn_pos z H). pose proof (epn_pos (- z) ltac:(lra)). unfold erat. rewrite Ropp_involutive. field. split; lra. Qed.

Lemma exp_cf_exact z : -1 <= z <= 1 -> exp_cf_6 (N := RNum) (Some z) = Some (erat z).
Proof.
  intros H. unfold exp_cf_6. cbn [nadd nsub nmul ndiv nopp nofZ RNum xr2 xr_opp].
  assert (Dv : forall a b, b <> 0 -> xr_div (Some a) (Some b) = Some (a / b)).
  { intros a b Hb. unfold xr_div. rewrite Req_bool_false by lra. reflexivity. }
  set (y := z * z). assert (Hy : 0 <= y <= 1) by (unfold y; nra).
  pose proof (epn_pos (- z) ltac:(lra)) as Hp.
  assert (P5 : 0 < 7 * y / 11 + 252) by lra.
  rewrite Dv by lra. cbn [xr2]. set (d5 := 7 * y / 11 + 252) in *.
  assert (Q5 : 0 <= 140 * y / d5) by (apply Rmult_le_pos; [lra|left; apply Rinv_0_lt_compat; lra]).
  rewrite Dv by lra. cbn [xr2]. set (d4 := 140 * y / d5 + 140) in *.
  assert (Q4 : 0 <= 60 * y / d4) by (apply Rmult_le_pos; [lra|left; apply Rinv_0_lt_compat; unfold d4; lra]).
  assert (P4 : 0 < d4) by (unfold d4; lra).
  rewrite Dv by lra. cbn [xr2]. set (d3 := 60 * y / d4 + 60) in *.
  assert (Q3 : 0 <= 12 * y / d3) by (apply Rmult_le_pos; [lra|left; apply Rinv_0_lt_compat; unfold d3; lra]).
  assert (P3 : 0 < d3) by (unfold d3; lra).
  rewrite Dv by lra. cbn [xr2]. set (d2 := 12 * y / d3 + 12) in *.
  assert (Q2 : 0 <= 2 * y / d2) by (apply Rmult_le_pos; [lra|left; apply Rinv_0_lt_compat; unfold d2; lra]).
  assert (P2 : 0 < d2) by (unfold d2; lra).
  rewrite Dv by lra. cbn [xr2]. set (d1 := 2 * y / d2 - z + 2).
  assert (P1 : 0 < d1) by (unfold d1; lra).
  rewrite Dv by lra. cbn [xr2]. f_equal.
  assert (E4 : d4 = (35280 * 11 + 2520 * y) / (2772 + 7 * y)).
  { unfold d4, d5. field. lra. }
  assert (E3 : d3 = (23284800 + 317520 * y + 420 * y * y) / (35280 * 11 + 2520 * y)).
  { unfold d3. rewrite E4. field. split; lra. }
  assert (Y2 : 0 <= y * y) by nra.
  assert (E2 : d2 = (279417600 + 8467200 * y + 35280 * y * y) / (23284800 + 317520 * y + 420 * y * y)).
  { unfold d2. rewrite E3. field. split; lra. }
  assert (E1 : d1 = epn (- z) * 840 / (279417600 + 8467200 * y + 35280 * y * y)).
  { unfold d1. rewrite E2. unfold epn, y in *. field. split; lra. }
  rewrite E1. unfold erat.
  replace (2 * z / (epn (- z) * 840 / (279417600 + 8467200 * y + 35280 * y * y)) + 1)
    with ((2 * z * (279417600 + 8467200 * y + 35280 * y * y) + 840 * epn (- z)) / 840 / epn (- z)) by (field; split; lra).
  f_equal. unfold epn, y. field.
Qed.

(** ** The error *)
Definition eerr (z : R) : R := z - ln (erat z).
Lemma eerr_0 : eerr 0 = 0.
Proof. unfold eerr, erat. replace (epn 0 / epn (- 0)) with 1 by (unfold epn; field). rewrite ln_1. lra. Qed.
Lemma eerr_derive z : -1 < z < 1 -> is_derive eerr z (z ^ 12 / (epn z * epn (- z))).
Proof.
  intros H. pose proof (epn_pos z ltac:(lra)) as P. pose proof (epn_pos (- z) ltac:(lra)) as Q.
  assert (E : forall t, -1 < t < 1 -> t - (ln (epn t) - ln (epn (- t))) = eerr t).
  { intros t Ht. unfold eerr, erat. rewrite ln_div; [reflexivity|apply epn_pos; lra..]. }
  apply (is_derive_ext_loc (fun t => t - (ln (epn t) - ln (epn (- t))))).
  { assert (D : 0 < Rmin (1 - z) (z + 1)) by (apply Rmin_pos; lra).
    exists (mkposreal _ D). intros t Ht. apply E.
    assert (A : Rabs (t - z) < Rmin (1 - z) (z + 1)) by exact Ht.
    pose proof (Rmin_l (1 - z) (z + 1)). pose proof (Rmin_r (1 - z) (z + 1)). apply Rabs_def2 in A. lra. }
  unfold epn in *. auto_derive.
  - repeat split; assumption.
  - field. split; lra.
Qed.
Lemma epn_prod z : - (7 / 10) <= z <= 7 / 10 -> 437600000000 <= epn z * epn (- z) <= 442600000000.
Proof.
  intros H. set (y := z * z). assert (Hy : 0 <= y <= 49 / 100) by (unfold y; nra).
  replace (epn z * epn (- z)) with (442597478400 + y * (-10059033600 + y * (127008000 + y * (-1209600 + y * (10080 + y * (-84 + y)))))) by (unfold epn, y; ring).
  set (a := y * (-84 + y)). assert (-42 <= a <= 0) by (unfold a; nra).
  set (b := y * (10080 + a)). assert (0 <= b <= 5040) by (unfold b; nra).
  set (c := y * (-1209600 + b)). assert (-604800 <= c <= 0) by (unfold c; nra).
  set (d := y * (127008000 + c)). assert (0 <= d <= 127008000) by (unfold d; nra).
  nra.
Qed.

Lemma pow13_derive c z : is_derive (fun t => c * t ^ 13) z (13 * c * z ^ 12).
Proof. auto_derive; [exact I|]. cbn [INR Nat.pred]. ring. Qed.

Lemma eerr_bounds z : 0 <= z <= 7 / 10 -> 1737 / 10 ^ 16 * z ^ 13 <= eerr z <= 1758 / 10 ^ 16 * z ^ 13.
Proof.
  intros H. split.
  - assert (G : (fun t => 1737 / 10 ^ 16 * t ^ 13 - eerr t) z <= (fun t => 1737 / 10 ^ 16 * t ^ 13 - eerr t) 0).
    { apply (decreasing (fun t => 1737 / 10 ^ 16 * t ^ 13 - eerr t) (fun t => 13 * (1737 / 10 ^ 16) * t ^ 12 - t ^ 12 / (epn t * epn (- t)))); [lra| |].
      - intros x Hx. apply (is_derive_minus (V := R_NormedModule)); [apply pow13_derive|apply eerr_derive; lra].
      - intros x Hx. pose proof (epn_prod x ltac:(lra)) as P. assert (0 <= x ^ 12) by (apply pow_le; lra).
        assert (I : / 442600000000 <= / (epn x * epn (- x))) by (apply Rinv_le_contravar; lra).
        unfold Rdiv at 2. assert (x ^ 12 * / 442600000000 <= x ^ 12 * / (epn x * epn (- x))) by (apply Rmult_le_compat_l; assumption). lra. }
    cbv beta in G. rewrite eerr_0 in G. rewrite pow_i in G by lia. lra.
  - assert (G : (fun t => eerr t - 1758 / 10 ^ 16 * t ^ 13) z <= (fun t => eerr t - 1758 / 10 ^ 16 * t ^ 13) 0).
    { apply (decreasing (fun t => eerr t - 1758 / 10 ^ 16 * t ^ 13) (fun t => t ^ 12 / (epn t * epn (- t)) - 13 * (1758 / 10 ^ 16) * t ^ 12)); [lra| |].
      - intros x Hx. apply (is_derive_minus (V := R_NormedModule)); [apply eerr_derive; lra|apply pow13_derive].
      - intros x Hx. pose proof (epn_prod x ltac:(lra)) as P. assert (0 <= x ^ 12) by (apply pow_le; lra).
        assert (I : / (epn x * epn (- x)) <= / 437600000000) by (apply Rinv_le_contravar; lra).
        unfold Rdiv at 1. assert (x ^ 12 * / (epn x * epn (- x)) <= x ^ 12 * / 437600000000) by (apply Rmult_le_compat_l; assumption). lra. }
    cbv beta in G. rewrite eerr_0 in G. rewrite pow_i in G by lia. lra.
Qed.
Lemma eerr_opp z : -1 <= z <= 1 -> eerr (- z) = - eerr z.
Proof. intros H. unfold eerr. rewrite erat_opp by assumption. rewrite ln_Rinv by (apply erat_pos; assumption). lra. Qed.
Lemma erat_exp z : -1 <= z <= 1 -> erat z = exp z * exp (- eerr z).
Proof.
  intros H. rewrite <- exp_plus. unfold eerr. replace (z + - (z - ln (erat z))) with (ln (erat z)) by lra.
  rewrite exp_ln; [reflexivity|apply erat_pos; assumption].
Qed.

Lemma exp_le_compat x y : x <= y -> exp x <= exp y.
Proof. intros [H| ->]; [left; apply exp_increasing; assumption|right; reflexivity]. Qed.
Lemma pow_mono_r x y n : 0 <= x <= y -> x ^ n <= y ^ n.
Proof. intros. apply pow_incr. assumption. Qed.

Lemma exp_small h : 0 <= h <= 1 / 2 -> exp h <= 1 + h + 2 * (h * h).
Proof.
  intros H. pose proof (exp_ineq1_le (- h)) as I. rewrite exp_Ropp in I.
  pose proof (exp_pos h) as P. apply (Rmult_le_compat_l (exp h)) in I; [|lra]. rewrite Rinv_r in I by lra.
  apply Rmult_le_reg_r with (1 - h); [lra|]. apply Rle_trans with 1; [lra|].
  assert (0 <= h * h * (1 - 2 * h)) by (apply Rmult_le_pos; nra). lra.
Qed.

Lemma cf_exp_ln2 z : 0 <= z <= ln 2 -> 0 <= exp z - erat z <= 16 / 10 ^ 16 * exp z.
Proof.
  intros H. pose proof ln2_bounds as L. destruct (eerr_bounds z ltac:(lra)) as (E1 & E2).
  pose proof (pow_mono_r z (6932 / 10 ^ 4) 13 ltac:(lra)) as P. assert (P0 : 0 <= z ^ 13) by (apply pow_le; lra).
  rewrite (erat_exp z) by lra. pose proof (exp_pos z).
  assert (E : 0 <= eerr z <= 16 / 10 ^ 16) by lra.
  pose proof (exp_ineq1_le (- eerr z)) as I.
  assert (exp (- eerr z) <= 1) by (rewrite <- exp_0; apply exp_le_compat; lra).
  split; nra.
Qed.
Lemma cf_exp_at_ln2 : 14 / 10 ^ 16 * exp (ln 2) <= exp (ln 2) - erat (ln 2).
Proof.
  pose proof ln2_bounds as L. destruct (eerr_bounds (ln 2) ltac:(lra)) as (E1 & E2).
  pose proof (pow_mono_r (6931 / 10 ^ 4) (ln 2) 13 ltac:(lra)) as P.
  pose proof (pow_mono_r (ln 2) (6932 / 10 ^ 4) 13 ltac:(lra)) as P'.
  rewrite (erat_exp (ln 2)) by lra. pose proof (exp_pos (ln 2)).
  assert (E : 147 / 10 ^ 17 <= eerr (ln 2) <= 16 / 10 ^ 16) by lra.
  pose proof (exp_small (eerr (ln 2)) ltac:(lra)) as S. set (h := eerr (ln 2)) in *.
  pose proof (exp_ineq1_le h) as S'.
  assert (I : exp (- h) <= / (1 + h)).
  { rewrite exp_Ropp. apply Rinv_le_contravar; lra. }
  assert (I2 : / (1 + h) <= 1 - 14 / 10 ^ 16).
  { apply Rmult_le_reg_r with (1 + h); [lra|]. rewrite Rinv_l by lra. nra. }
  nra.
Qed.
Lemma cf_exp_near z : - (7 / 10) <= z <= 7 / 10 -> Rabs (erat z - exp z) <= 18 / 10 ^ 16 * exp z.
Proof.
  intros H. assert (E : Rabs (eerr z) <= 171 / 10 ^ 17).
  { destruct (Rle_lt_dec 0 z) as [Z|Z].
    - destruct (eerr_bounds z ltac:(lra)) as (E1 & E2). pose proof (pow_mono_r z (7 / 10) 13 ltac:(lra)).
      assert (0 <= z ^ 13) by (apply pow_le; lra). apply Rabs_le. lra.
    - destruct (eerr_bounds (- z) ltac:(lra)) as (E1 & E2). pose proof (pow_mono_r (- z) (7 / 10) 13 ltac:(lra)).
      assert (0 <= (- z) ^ 13) by (apply pow_le; lra). rewrite eerr_opp in E1, E2 by lra. apply Rabs_le. lra. }
  rewrite (erat_exp z) by lra. pose proof (exp_pos z). set (h := eerr z) in *. apply Rabs_le_inv in E.
  assert (I : 1 - 171 / 10 ^ 17 <= exp (- h) <= 1 + 18 / 10 ^ 16).
  { pose proof (exp_ineq1_le (- h)). split; [lra|].
    apply Rle_trans with (exp (171 / 10 ^ 17)); [apply exp_le_compat; lra|].
    pose proof (exp_small (171 / 10 ^ 17) ltac:(lra)). lra. }
  replace (exp z * exp (- h) - exp z) with (exp z * (exp (- h) - 1)) by ring.
  rewrite Rabs_mult, (Rabs_pos_eq (exp z)), Rmult_comm by lra. apply Rmult_le_compat_r; [lra|]. apply Rabs_le. lra.
Qed.
