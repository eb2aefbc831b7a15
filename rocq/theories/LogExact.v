(** * Lemmas: the continued fraction of the logarithm in exact arithmetic (C29) *)
From Coq Require Import ZArith List Bool Lia Reals Lra Psatz.
From Flocq Require Import Core.Core.
From Coquelicot Require Import Coquelicot.
From Verif Require Import Num NumFacts XMath RNum.
Open Scope R_scope.

(** ** The denominators *)
(** numerators of the tails of the continued fraction: the k-th denominator is (z+1) q_k / q_(k+1), at u = ((z-1)/(z+1))^2 *)
Definition q11 (u : R) : R := 21.
Definition q10 (u : R) : R := 19 * q11 u - 100 * u * 1.
Definition q9 (u : R) : R := 17 * q10 u - 81 * u * q11 u.
Definition q8 (u : R) : R := 15 * q9 u - 64 * u * q10 u.
Definition q7 (u : R) : R := 13 * q8 u - 49 * u * q9 u.
Definition q6 (u : R) : R := 11 * q7 u - 36 * u * q8 u.
Definition q5 (u : R) : R := 9 * q6 u - 25 * u * q7 u.
Definition q4 (u : R) : R := 7 * q5 u - 16 * u * q6 u.
Definition q3 (u : R) : R := 5 * q4 u - 9 * u * q5 u.
Definition q2 (u : R) : R := 3 * q3 u - 4 * u * q4 u.
Definition q1 (u : R) : R := q2 u - u * q3 u.

Lemma q_step (k u a b : R) : 1 <= k -> 0 <= u < 1 -> 0 < b -> k * b < a ->
  (k - 1) * a < (2 * k - 1) * a - k * k * u * b.
Proof.
  intros Hk Hu Hb Ha.
  assert (H1 : 0 < k * b) by (apply Rmult_lt_0_compat; lra).
  assert (H2 : 0 < k * a) by (apply Rmult_lt_0_compat; lra).
  assert (H3 : k * u * (k * b) <= k * u * a) by (apply Rmult_le_compat_l; [apply Rmult_le_pos; lra|lra]).
  assert (H4 : k * a * u < k * a * 1) by (apply Rmult_lt_compat_l; lra). lra.
Qed.

Section Pos.
Variable u : R.
Hypothesis Hu : 0 <= u < 1.
Lemma q11_pos : 10 * 1 < q11 u. Proof. unfold q11. lra. Qed.
Lemma q10_pos : 9 * q11 u < q10 u.
Proof. pose proof q11_pos. pose proof (q_step 10 u (q11 u) 1 ltac:(lra) Hu ltac:(lra) ltac:(lra)). unfold q10. lra. Qed.
Lemma q11_0 : 0 < q11 u. Proof. unfold q11. lra. Qed.
Lemma q10_0 : 0 < q10 u. Proof. pose proof q10_pos; pose proof q11_0; lra. Qed.
Lemma q9_pos : 8 * q10 u < q9 u.
Proof. pose proof q10_pos. pose proof (q_step 9 u (q10 u) (q11 u) ltac:(lra) Hu q11_0 ltac:(lra)). unfold q9. lra. Qed.
Lemma q9_0 : 0 < q9 u. Proof. pose proof q9_pos; pose proof q10_0; lra. Qed.
Lemma q8_pos : 7 * q9 u < q8 u.
Proof. pose proof q9_pos. pose proof (q_step 8 u (q9 u) (q10 u) ltac:(lra) Hu q10_0 ltac:(lra)). unfold q8. lra. Qed.
Lemma q8_0 : 0 < q8 u. Proof. pose proof q8_pos; pose proof q9_0; lra. Qed.
Lemma q7_pos : 6 * q8 u < q7 u.
Proof. pose proof q8_pos. pose proof (q_step 7 u (q8 u) (q9 u) ltac:(lra) Hu q9_0 ltac:(lra)). unfold q7. lra. Qed.
Lemma q7_0 : 0 < q7 u. Proof. pose proof q7_pos; pose proof q8_0; lra. Qed.
Lemma q6_pos : 5 * q7 u < q6 u.
Proof. pose proof q7_pos. pose proof (q_step 6 u (q7 u) (q8 u) ltac:(lra) Hu q8_0 ltac:(lra)). unfold q6. lra. Qed.
Lemma q6_0 : 0 < q6 u. Proof. pose proof q6_pos; pose proof q7_0; lra. Qed.
Lemma q5_pos : 4 * q6 u < q5 u.
Proof. pose proof q6_pos. pose proof (q_step 5 u (q6 u) (q7 u) ltac:(lra) Hu q7_0 ltac:(lra)). unfold q5. lra. Qed.
Lemma q5_0 : 0 < q5 u. Proof. pose proof q5_pos; pose proof q6_0; lra. Qed.
Lemma q4_pos : 3 * q5 u < q4 u.
Proof. pose proof q5_pos. pose proof (q_step 4 u (q5 u) (q6 u) ltac:(lra) Hu q6_0 ltac:(lra)). unfold q4. lra. Qed.
Lemma q4_0 : 0 < q4 u. Proof. pose proof q4_pos; pose proof q5_0; lra. Qed.
Lemma q3_pos : 2 * q4 u < q3 u.
Proof. pose proof q4_pos. pose proof (q_step 3 u (q4 u) (q5 u) ltac:(lra) Hu q5_0 ltac:(lra)). unfold q3. lra. Qed.
Lemma q3_0 : 0 < q3 u. Proof. pose proof q3_pos; pose proof q4_0; lra. Qed.
Lemma q2_pos : 1 * q3 u < q2 u.
Proof. pose proof q3_pos. pose proof (q_step 2 u (q3 u) (q4 u) ltac:(lra) Hu q4_0 ltac:(lra)). unfold q2. lra. Qed.
Lemma q2_0 : 0 < q2 u. Proof. pose proof q2_pos; pose proof q3_0; lra. Qed.
Lemma q1_0 : 0 < q1 u.
Proof. pose proof q2_pos. pose proof (q_step 1 u (q2 u) (q3 u) ltac:(lra) Hu q3_0 ltac:(lra)). unfold q1. lra. Qed.
End Pos.

(** ** The value computed *)
(** the argument of the approximation: ln z = 2 atanh w *)
Definition warg (z : R) : R := (z - 1) / (z + 1).
(** the rational function, in terms of w *)
Definition lrat (w : R) : R := 2 * w * q2 (w * w) / q1 (w * w).

Lemma warg_sq z : 0 < z -> 0 <= warg z * warg z < 1.
Proof.
  intros H. unfold warg. split; [apply Rle_0_sqr|].
  assert (E : (z - 1) / (z + 1) * ((z - 1) / (z + 1)) = 1 - 4 * z / ((z + 1) * (z + 1))) by (field; lra).
  rewrite E. assert (0 < 4 * z / ((z + 1) * (z + 1))) by (apply Rdiv_lt_0_compat; nra). lra.
Qed.

(** one level: c = -k^2 *)
Lemma level (c x xx a b q m : R) : 0 < xx -> 0 < a -> 0 < b ->
  (let w := x / xx in q = m * a + c * (w * w) * b) ->
  c * (x * x) / (xx * a / b) + m * xx = xx * q / a.
Proof. intros Hx Ha Hb ->. field. repeat split; lra. Qed.

Lemma log_cf_exact z : 0 < z -> log_cf_11 (N := RNum) (Some z) = Some (lrat (warg z)).
Proof.
  intros H. pose proof (warg_sq z H) as Hu.
  unfold log_cf_11. cbn [nadd nsub nmul nopp nofZ RNum xr2 xr_opp].
  set (x := z - 1). set (xx := x + 2).
  assert (Hxx : 0 < xx) by (unfold xx, x; lra).
  replace (xx + (xx + xx)) with (3 * xx) by lra. replace (3 * xx + (xx + xx)) with (5 * xx) by lra.
  replace (5 * xx + (xx + xx)) with (7 * xx) by lra. replace (7 * xx + (xx + xx)) with (9 * xx) by lra.
  replace (9 * xx + (xx + xx)) with (11 * xx) by lra. replace (11 * xx + (xx + xx)) with (13 * xx) by lra.
  replace (13 * xx + (xx + xx)) with (15 * xx) by lra. replace (15 * xx + (xx + xx)) with (17 * xx) by lra.
  replace (17 * xx + (xx + xx)) with (19 * xx) by lra. replace (19 * xx + (xx + xx)) with (21 * xx) by lra.
  assert (Ew : x / xx = warg z) by (unfold warg, xx, x; f_equal; lra).
  set (u := warg z * warg z) in *.
  pose proof (q1_0 u Hu). pose proof (q2_0 u Hu). pose proof (q3_0 u Hu). pose proof (q4_0 u Hu). pose proof (q5_0 u Hu).
  pose proof (q6_0 u Hu). pose proof (q7_0 u Hu). pose proof (q8_0 u Hu). pose proof (q9_0 u Hu). pose proof (q10_0 u Hu). pose proof (q11_0 u).
  cbn [ndiv RNum].
  assert (Dv : forall a b, 0 < b -> xr_div (Some a) (Some b) = Some (a / b)).
  { intros a b Hb. unfold xr_div. rewrite Req_bool_false by lra. reflexivity. }
  assert (Pq : forall a b, 0 < a -> 0 < b -> 0 < xx * a / b).
  { intros a b Ha Hb. apply Rdiv_lt_0_compat; nra. }
  rewrite Dv by lra.
  replace (21 * xx) with (xx * q11 u / 1) by (unfold q11; field).
  cbn [xr2]. rewrite (level (-100) x xx (q11 u) 1 (q10 u) 19) by (auto; try lra; intros w; unfold w, q10; rewrite Ew; fold u; lra).
  rewrite Dv by auto.
  cbn [xr2]. rewrite (level (-81) x xx (q10 u) (q11 u) (q9 u) 17) by (auto; intros w; unfold w, q9; rewrite Ew; fold u; lra).
  rewrite Dv by auto.
  cbn [xr2]. rewrite (level (-64) x xx (q9 u) (q10 u) (q8 u) 15) by (auto; intros w; unfold w, q8; rewrite Ew; fold u; lra).
  rewrite Dv by auto.
  cbn [xr2]. rewrite (level (-49) x xx (q8 u) (q9 u) (q7 u) 13) by (auto; intros w; unfold w, q7; rewrite Ew; fold u; lra).
  rewrite Dv by auto.
  cbn [xr2]. rewrite (level (-36) x xx (q7 u) (q8 u) (q6 u) 11) by (auto; intros w; unfold w, q6; rewrite Ew; fold u; lra).
  rewrite Dv by auto.
  cbn [xr2]. rewrite (level (-25) x xx (q6 u) (q7 u) (q5 u) 9) by (auto; intros w; unfold w, q5; rewrite Ew; fold u; lra).
  rewrite Dv by auto.
  cbn [xr2]. rewrite (level (-16) x xx (q5 u) (q6 u) (q4 u) 7) by (auto; intros w; unfold w, q4; rewrite Ew; fold u; lra).
  rewrite Dv by auto.
  cbn [xr2]. rewrite (level (-9) x xx (q4 u) (q5 u) (q3 u) 5) by (auto; intros w; unfold w, q3; rewrite Ew; fold u; lra).
  rewrite Dv by auto.
  cbn [xr2]. rewrite (level (-4) x xx (q3 u) (q4 u) (q2 u) 3) by (auto; intros w; unfold w, q2; rewrite Ew; fold u; lra).
  rewrite Dv by auto.
  cbn [xr2]. replace (- (x * x) / (xx * q2 u / q3 u) + xx) with (-1 * (x * x) / (xx * q2 u / q3 u) + 1 * xx) by (unfold Rdiv; ring).
  rewrite (level (-1) x xx (q2 u) (q3 u) (q1 u) 1) by (auto; intros w; unfold w, q1; rewrite Ew; fold u; lra).
  rewrite Dv by auto. f_equal. unfold lrat. fold u. rewrite <- Ew. field. lra.
Qed.

(** ** The error *)
Definition lerr (w : R) : R := lrat w - ln ((1 + w) / (1 - w)).

Lemma lerr_0 : lerr 0 = 0.
Proof. unfold lerr, lrat. replace ((1 + 0) / (1 - 0)) with 1 by field. rewrite ln_1. unfold Rdiv. ring. Qed.

Definition lk (w : R) : R := - 3186701844480000 * w ^ 22 / (q1 (w * w) * q1 (w * w) * (1 - w * w)).

Lemma lerr_derive w : -1 < w < 1 -> is_derive lerr w (lk w).
Proof.
  intros H. assert (Hu : 0 <= w * w < 1) by nra. pose proof (q1_0 _ Hu) as P1.
  unfold lerr, lrat. unfold q1, q2, q3, q4, q5, q6, q7, q8, q9, q10, q11 in *.
  auto_derive.
  - repeat split; try lra. apply Rdiv_lt_0_compat; lra.
  - unfold lk. unfold q1, q2, q3, q4, q5, q6, q7, q8, q9, q10, q11. field. repeat split; try lra; nra.
Qed.

(** ** Bounds *)
Lemma decreasing (f f' : R -> R) a b : a <= b -> (forall x, a <= x <= b -> is_derive f x (f' x)) ->
  (forall x, a <= x <= b -> f' x <= 0) -> f b <= f a.
Proof.
  intros Hab D N. destruct (MVT_gen f a b f') as (c & Hc & E).
  - rewrite Rmin_left, Rmax_right by assumption. intros x Hx. apply D. lra.
  - rewrite Rmin_left, Rmax_right by assumption. intros x Hx.
    apply continuity_pt_filterlim. apply (ex_derive_continuous f x). exists (f' x). apply D. assumption.
  - rewrite Rmin_left, Rmax_right in Hc by assumption. specialize (N c Hc). nra.
Qed.

Lemma lerr_neg w : -1 < w <= 0 -> 0 <= lerr w.
Proof.
  intros H. rewrite <- lerr_0. apply (decreasing lerr lk); [lra| |].
  - intros x Hx. apply lerr_derive. lra.
  - intros x Hx. unfold lk. assert (Hu : 0 <= x * x < 1) by nra. pose proof (q1_0 _ Hu) as P1.
    assert (A : 0 <= x ^ 22) by (replace 22%nat with (2 * 11)%nat by reflexivity; rewrite pow_mult; apply pow_le; nra).
    assert (B : 0 < q1 (x * x) * q1 (x * x) * (1 - x * x)) by (apply Rmult_lt_0_compat; nra).
    assert (X : 0 <= 3186701844480000 * x ^ 22 / (q1 (x * x) * q1 (x * x) * (1 - x * x))).
    { apply Rmult_le_pos; [nra|]. left. apply Rinv_0_lt_compat. assumption. }
    unfold Rdiv in *. lra.
Qed.

Lemma lerr_upper C m r w : 0 <= r < 1 -> 0 < m -> (forall u, 0 <= u <= r * r -> m <= q1 u) ->
  3186701844480000 <= 23 * C * (m * m * (1 - r * r)) -> - r <= w <= 0 -> lerr w <= C * (- w) ^ 23.
Proof.
  intros Hr Hm Hq HC Hw.
  assert (G : C * (- 0) ^ 23 - lerr 0 <= C * (- w) ^ 23 - lerr w).
  { apply (decreasing (fun x => C * (- x) ^ 23 - lerr x) (fun x => - 23 * C * x ^ 22 - lk x)); [lra| |].
    - intros x Hx. apply (is_derive_minus (fun x => C * (- x) ^ 23) lerr).
      + auto_derive; [exact I|]. replace ((- x) ^ 22) with (x ^ 22) by ring. ring.
      + apply lerr_derive. nra.
    - intros x Hx. unfold lk. assert (Hu : 0 <= x * x <= r * r) by nra. specialize (Hq _ Hu).
      assert (A : 0 <= x ^ 22) by (replace 22%nat with (2 * 11)%nat by reflexivity; rewrite pow_mult; apply pow_le; nra).
      assert (Hr2 : r * r < 1) by nra.
      assert (B0 : m * m <= q1 (x * x) * q1 (x * x)) by (apply Rmult_le_compat; lra).
      assert (Hm2 : 0 < m * m) by nra.
      assert (B : m * m * (1 - r * r) <= q1 (x * x) * q1 (x * x) * (1 - x * x)).
      { apply Rmult_le_compat; lra. }
      assert (B1 : 0 < m * m * (1 - r * r)) by (apply Rmult_lt_0_compat; lra).
      set (d := q1 (x * x) * q1 (x * x) * (1 - x * x)) in *.
      assert (HC0 : 0 <= 23 * C).
      { destruct (Rle_lt_dec 0 (23 * C)); [assumption|]. exfalso. nra. }
      assert (X : 3186701844480000 / d <= 23 * C).
      { apply Rmult_le_reg_r with d; [lra|]. unfold Rdiv. rewrite Rmult_assoc, Rinv_l by lra. nra. }
      replace (- 23 * C * x ^ 22 - - 3186701844480000 * x ^ 22 / d) with (- (x ^ 22 * (23 * C - 3186701844480000 / d))) by (unfold Rdiv; ring).
      assert (0 <= x ^ 22 * (23 * C - 3186701844480000 / d)) by (apply Rmult_le_pos; lra). lra. }
  rewrite lerr_0 in G. replace ((- 0) ^ 23) with 0 in G by ring. lra.
Qed.

Lemma q1_poly u : q1 u = 13749310575 - 36010099125 * u + 34114830750 * u ^ 2 - 14047283250 * u ^ 3 + 2341213875 * u ^ 4 - 108056025 * u ^ 5.
Proof. unfold q1, q2, q3, q4, q5, q6, q7, q8, q9, q10, q11. ring. Qed.
Lemma q1_low u v : 0 <= u <= v -> v <= 36 / 100 ->
  13749310575 - 36010099125 * v + 34114830750 * v ^ 2 - 14047283250 * v ^ 3 <= q1 u.
Proof.
  intros Hu Hv. rewrite q1_poly.
  assert (A : 0 <= u ^ 4 * (2341213875 - 108056025 * u)).
  { apply Rmult_le_pos; [apply pow_le; lra|lra]. }
  assert (B : 0 <= (v - u) * (36010099125 - 34114830750 * (u + v) + 14047283250 * (u * u + u * v + v * v))).
  { apply Rmult_le_pos; [lra|]. assert (0 <= u * u + u * v + v * v) by nra. lra. }
  replace (u ^ 4 * (2341213875 - 108056025 * u)) with (2341213875 * u ^ 4 - 108056025 * u ^ 5) in A by ring.
  replace ((v - u) * (36010099125 - 34114830750 * (u + v) + 14047283250 * (u * u + u * v + v * v)))
    with (36010099125 * (v - u) - 34114830750 * (v ^ 2 - u ^ 2) + 14047283250 * (v ^ 3 - u ^ 3)) in B by ring.
  lra.
Qed.

(** |z - 1| <= (z + 1)/3: z between 1/2 and 2 *)
Lemma lerr_third w : - (1 / 3) <= w <= 0 -> 0 <= lerr w <= 16 / 10 ^ 7 * (- w) ^ 23.
Proof.
  intros H. split; [apply lerr_neg; lra|].
  apply (lerr_upper (16 / 10 ^ 7) 10140000000 (1 / 3)); try lra.
  intros u Hu. pose proof (q1_low u (1 / 9)). lra.
Qed.
Lemma lerr_three_fifths w : - (3 / 5) <= w <= 0 -> 0 <= lerr w <= 11 / 10 ^ 6 * (- w) ^ 23.
Proof.
  intros H. split; [apply lerr_neg; lra|].
  apply (lerr_upper (11 / 10 ^ 6) 4500000000 (3 / 5)); try lra.
  intros u Hu. pose proof (q1_low u (9 / 25)). lra.
Qed.

Lemma warg_ln z : 0 < z -> ln ((1 + warg z) / (1 - warg z)) = ln z.
Proof. intros H. f_equal. unfold warg. field. split; lra. Qed.

Lemma pow_le_r (a b : R) n : 0 <= a <= b -> a ^ n <= b ^ n.
Proof. intros H. apply pow_incr. assumption. Qed.

Lemma cf_third z : 1 / 2 <= z <= 1 -> 0 <= lrat (warg z) - ln z <= 2 / 10 ^ 17 /\ lrat (warg z) - ln z <= 16 / 10 ^ 7 * (- warg z) ^ 23.
Proof.
  intros H. assert (W : - (1 / 3) <= warg z <= 0).
  { unfold warg. split; [apply Rmult_le_reg_r with (z + 1)|apply Rmult_le_reg_r with (z + 1)]; try lra;
    unfold Rdiv; rewrite Rmult_assoc, Rinv_l by lra; lra. }
  destruct (lerr_third _ W) as (A & B). unfold lerr in A, B. rewrite warg_ln in A, B by lra.
  repeat split; try lra.
  pose proof (pow_le_r (- warg z) (1 / 3) 23 ltac:(lra)). lra.
Qed.
Lemma cf_three_fifths z : 1 / 4 <= z <= 1 -> 0 <= lrat (warg z) - ln z <= 9 / 10 ^ 11.
Proof.
  intros H. assert (W : - (3 / 5) <= warg z <= 0).
  { unfold warg. split; [apply Rmult_le_reg_r with (z + 1)|apply Rmult_le_reg_r with (z + 1)]; try lra;
    unfold Rdiv; rewrite Rmult_assoc, Rinv_l by lra; lra. }
  destruct (lerr_three_fifths _ W) as (A & B). unfold lerr in A, B. rewrite warg_ln in A, B by lra.
  split; try lra.
  pose proof (pow_le_r (- warg z) (3 / 5) 23 ltac:(lra)). lra.
Qed.

(** the value of ln 2 *)
Lemma lrat_half : lrat (warg (1 / 2)) = - (432764726879 / 624347525340).
Proof.
  replace (warg (1 / 2)) with (- (1 / 3)) by (unfold warg; field).
  unfold lrat. unfold q1, q2, q3, q4, q5, q6, q7, q8, q9, q10, q11. field.
Qed.
Lemma lrat_quarter : lrat (warg (1 / 4)) = - (799161128547 / 576472898540).
Proof.
  replace (warg (1 / 4)) with (- (3 / 5)) by (unfold warg; field).
  unfold lrat. unfold q1, q2, q3, q4, q5, q6, q7, q8, q9, q10, q11. field.
Qed.
Lemma ln2_bounds : 693147180559945294 / 10 ^ 18 <= ln 2 <= 693147180559945315 / 10 ^ 18.
Proof.
  destruct (cf_third (1 / 2) ltac:(lra)) as (A & _). rewrite lrat_half in A.
  replace (1 / 2) with (/ 2) in A by lra. rewrite ln_Rinv in A by lra. lra.
Qed.
(** the constant of the code is within 3e-17 of ln 2 *)
Lemma LOG2_value : LOG2 (N := RNum) = Some (IZR 0x162e42fefa39ef / IZR (2 ^ 53)).
Proof. unfold LOG2. cbn [ndiv nofZ RNum xr_div]. rewrite Req_bool_false by (apply not_0_IZR; discriminate). reflexivity. Qed.
Lemma LOG2_error : Rabs (IZR 0x162e42fefa39ef / IZR (2 ^ 53) - ln 2) <= 3 / 10 ^ 17.
Proof. pose proof ln2_bounds. simpl (IZR _). apply Rabs_le. simpl (2 ^ 53)%Z. lra. Qed.
(** at one quarter the error is as large as announced *)
Lemma cf_quarter : 6 / 10 ^ 11 <= lrat (warg (1 / 4)) - ln (1 / 4).
Proof.
  rewrite lrat_quarter. replace (1 / 4) with (/ (2 * 2)) by lra. rewrite ln_Rinv, ln_mult by lra.
  pose proof ln2_bounds. lra.
Qed.
