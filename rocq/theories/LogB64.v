(** * Lemmas: rounding errors in the continued fraction of the logarithm (C29) *)
From Coq Require Import ZArith List Bool Reals Lra Lia Psatz.
From Flocq Require Import Core.Core IEEE754.BinarySingleNaN.
From Verif Require Import Num XMath B64 RNum B64Facts FloatErr.
Open Scope R_scope.

Lemma mid_opp_bounds r : / 10 ^ 50 <= - r <= 10 ^ 50 -> mid r.
Proof. intros H. rewrite <- (Ropp_involutive r). apply mid_opp, mid_bounds. assumption. Qed.
Lemma mid_neg_scaled (c r : R) : -100 <= c <= -1 -> / 10 ^ 40 <= r <= 1 -> mid (c * r).
Proof. intros. apply mid_opp_bounds. assert (0 < / 10 ^ 40) by lra. nra. Qed.

Lemma Nr_plus_pos a b r s e0 e : Nr a r e0 -> Nr b s e0 -> 0 <= e0 <= 1 / 2 -> 1 <= r <= 50 -> 1 <= s <= 50 ->
  (1 + e0) * (1 + eps) <= 1 + e -> Nr (b64_plus a b) (r + s) e.
Proof.
  intros A B P Hr Hs He. apply (Nr_plus a b r s e0 e0 e0 e A B P); try assumption.
  - rewrite !Rabs_pos_eq by lra. lra.
  - apply mid_bounds. lra.
Qed.

(** one level of the continued fraction: m xx - k^2 x2 / D, where the subtracted term is at most th times the first *)
Lemma level_near (nv Dv mv : b64) (k m x2 D xx th en eD em e3 e0 e : R) :
  1 <= k <= 10 -> 1 <= m <= 21 -> / 10 ^ 40 <= x2 <= 1 -> 1 <= xx <= 2 -> k * xx <= D <= 50 ->
  Nr nv (- (k * k) * x2) en -> Nr Dv D eD -> Nr mv (m * xx) em ->
  k * x2 <= th * m * (xx * xx) -> 0 <= th <= 9 / 10 ->
  0 <= en /\ 0 <= eD /\ 0 <= em -> 1 + en <= (1 + 1 / 2) * (1 - eD) -> (1 + en) * (1 + eps) <= (1 + e3) * (1 - eD) ->
  0 <= e3 /\ th * e3 + em <= e0 * (1 - th) -> e0 <= 1 / 2 -> (1 + e0) * (1 + eps) <= 1 + e ->
  Nr (b64_plus (b64_div nv Dv) mv) (- (k * k) * x2 / D + m * xx) e.
Proof.
  intros Hk Hm Hx2 Hxx HD Nn ND Nm Hth Hth1 (P1 & P2 & P3) C1 C2 (P4 & C3) C4 C5.
  assert (HD0 : 0 < D) by nra.
  assert (P0 : 0 < / 10 ^ 40) by lra.
  set (t := k * k * x2 / D).
  assert (Et : - (k * k) * x2 / D = - t) by (unfold t, Rdiv; ring).
  assert (T0 : t * D = k * k * x2) by (unfold t; field; lra).
  assert (T1 : / 10 ^ 45 <= t).
  { apply Rmult_le_reg_r with D; [assumption|]. rewrite T0.
    assert (/ 10 ^ 45 * D <= / 10 ^ 45 * 50) by (apply Rmult_le_compat_l; lra). nra. }
  assert (T2 : t <= th * (m * xx)).
  { apply Rmult_le_reg_r with D; [assumption|]. rewrite T0.
    assert (A1 : 0 <= th * (m * xx)) by (apply Rmult_le_pos; [lra|nra]).
    apply Rle_trans with (th * (m * xx) * (k * xx)); [|apply Rmult_le_compat_l; lra].
    replace (th * (m * xx) * (k * xx)) with (k * (th * m * (xx * xx))) by ring.
    rewrite Rmult_assoc. apply Rmult_le_compat_l; lra. }
  assert (M0 : 1 <= m * xx <= 42) by nra.
  assert (Hs : m * xx * (1 - th) <= m * xx - t) by lra.
  assert (S1 : / 10 <= m * xx - t).
  { apply Rle_trans with (m * xx * (1 - th)); [|assumption]. nra. }
  rewrite Et.
  assert (NQ : Nr (b64_div nv Dv) (- t) e3).
  { rewrite <- Et. apply (Nr_div nv Dv _ D en eD e3 Nn ND); try lra.
    rewrite Et. apply mid_opp_bounds. lra. }
  assert (E0 : 0 <= e0).
  { destruct (Rle_lt_dec 0 e0); [assumption|]. exfalso. assert (0 <= th * e3) by (apply Rmult_le_pos; lra).
    assert (e0 * (1 - th) < 0) by nra. lra. }
  apply (Nr_plus _ _ _ _ e3 em e0 e NQ Nm); [lra| | |assumption].
  - rewrite Rabs_Ropp, (Rabs_pos_eq t), (Rabs_pos_eq (m * xx)), (Rabs_pos_eq (- t + m * xx)) by lra.
    assert (e3 * t <= e3 * (th * (m * xx))) by (apply Rmult_le_compat_l; lra).
    assert (e0 * (m * xx * (1 - th)) <= e0 * (- t + m * xx)) by (apply Rmult_le_compat_l; lra).
    assert ((th * e3 + em) * (m * xx) <= e0 * (1 - th) * (m * xx)) by (apply Rmult_le_compat_r; lra).
    lra.
  - apply mid_bounds. lra.
Qed.

Lemma level_low (k U x xx D : R) : 1 <= k -> 0 <= U -> 1 <= xx <= 2 -> x * x <= U * (xx * xx) -> k * xx <= D <= 50 ->
  (2 * k - 1 - k * U) * xx <= - (k * k) * (x * x) / D + (2 * k - 1) * xx.
Proof.
  intros Hk HU Hxx Hx HD. assert (HD0 : 0 < D) by nra.
  assert (k * k * (x * x) / D <= k * U * xx).
  { apply Rmult_le_reg_r with D; [assumption|]. unfold Rdiv. rewrite (Rmult_assoc _ (/ D)), Rinv_l, Rmult_1_r by lra.
    assert (0 <= k * U * xx) by (apply Rmult_le_pos; [apply Rmult_le_pos|]; lra).
    apply Rle_trans with (k * U * xx * (k * xx)); [|apply Rmult_le_compat_l; lra].
    replace (k * U * xx * (k * xx)) with (k * k * (U * (xx * xx))) by ring. apply Rmult_le_compat_l; nra. }
  unfold Rdiv in *. lra.
Qed.
Lemma level_range (k k1 m x xx D : R) : 1 <= k <= 10 -> k1 = k - 1 -> m = 2 * k - 1 -> 1 <= xx <= 2 -> x * x <= xx * xx -> k * xx <= D <= 50 ->
  k1 * xx <= - (k * k) * (x * x) / D + m * xx <= 50.
Proof.
  intros Hk -> -> Hxx Hx HD. split.
  - pose proof (level_low k 1 x xx D ltac:(lra) ltac:(lra) Hxx ltac:(lra) HD). lra.
  - assert (0 < D) by nra. assert (0 <= k * k * (x * x) / D).
    { apply Rmult_le_pos; [nra|]. left. apply Rinv_0_lt_compat. assumption. }
    assert ((2 * k - 1) * xx <= 19 * 2) by nra. unfold Rdiv in *. lra.
Qed.
Lemma xdiv a b : 0 < b -> xr_div (Some a) (Some b) = Some (a / b).
Proof. intros H. unfold xr_div. rewrite Req_bool_false by lra. reflexivity. Qed.
Lemma mid_quot x d xx : / 10 ^ 20 <= - x <= 1 -> 1 / 2 <= d <= 50 -> 1 <= xx -> mid (2 * x / d).
Proof.
  intros Hx Hd _. apply mid_opp_bounds. replace (- (2 * x / d)) with (2 * - x / d) by (unfold Rdiv; ring).
  split.
  - apply Rmult_le_reg_r with d; [lra|]. unfold Rdiv. rewrite (Rmult_assoc _ (/ d)), Rinv_l by lra.
    assert (/ 10 ^ 50 * d <= / 10 ^ 50 * 50) by (apply Rmult_le_compat_l; lra). lra.
  - apply Rmult_le_reg_r with d; [lra|]. unfold Rdiv. rewrite (Rmult_assoc _ (/ d)), Rinv_l by lra.
    assert (10 ^ 50 * (1 / 2) <= 10 ^ 50 * d) by (apply Rmult_le_compat_l; lra). lra.
Qed.

Section A.
Variable z : b64.
Hypothesis Fz : finite64 z = true.
Let zr : R := B2R64 z.
Hypothesis Hz1 : 1 / 2 <= zr.
Hypothesis Hz2 : zr <= 1 - eps.
Let x : R := zr - 1.
Let xx : R := x + 2.
Let xv : b64 := b64_minus z (b64_ofZ 1).
Let xxv : b64 := b64_plus xv (b64_ofZ 2).
Let x2v : b64 := b64_mult xv xv.
Let xx2v : b64 := b64_plus xxv xxv.
Lemma A_x : Nr xv x eps.
Proof.
  apply (Nr_minus z (b64_ofZ 1) zr 1 0 0 0 eps); try lra.
  - apply Nr_self; assumption.
  - apply (Nr_ofZ 1); lia.
  - apply mid_opp_bounds. unfold eps in *. lra.
Qed.
Lemma A_xb : / 10 ^ 20 <= - x <= 1/2.
Proof. unfold x, eps in *. lra. Qed.
Lemma A_xx : 3/2 <= xx <= 2.
Proof. unfold xx, x, eps in *. lra. Qed.
Lemma A_xxv : Nr xxv xx (267 / 200 * eps).
Proof.
  pose proof A_xb. pose proof A_xx.
  apply (Nr_plus xv (b64_ofZ 2) x 2 eps 0 (1/3 * eps) _); [apply A_x|apply (Nr_ofZ 2); lia|unfold eps; lra| | |unfold eps; lra].
  - fold xx. rewrite (Rabs_left x), (Rabs_pos_eq xx) by lra. unfold eps. lra.
  - fold xx. apply mid_bounds. lra.
Qed.
Lemma A_x2b : / 10 ^ 40 <= x * x <= 1.
Proof. pose proof A_xb. split; [|nra]. replace (/ 10 ^ 40) with (/ 10 ^ 20 * / 10 ^ 20) by field. nra. Qed.
Lemma A_U : x * x <= 1/9 * (xx * xx).
Proof. pose proof A_xb. pose proof A_xx. assert (- x <= 1/3 * xx) by (unfold xx in *; lra). nra. Qed.
Lemma A_xx' : 1 <= xx <= 2.
Proof. pose proof A_xx. lra. Qed.
Lemma A_lt : x * x <= xx * xx.
Proof. pose proof A_U. pose proof A_xx. nra. Qed.
Lemma A_x2v : Nr x2v (x * x) (3001 / 1000 * eps).
Proof.
  pose proof A_x2b.
  apply (Nr_mult xv xv x x eps eps _); [apply A_x|apply A_x|unfold eps; lra|unfold eps; lra|unfold eps; lra| |unfold eps; lra].
  apply mid_bounds. lra.
Qed.
Lemma A_xx2v : Nr xx2v (2 * xx) (292 / 125 * eps).
Proof.
  pose proof A_xx. replace (2 * xx) with (xx + xx) by lra.
  apply (Nr_plus_pos _ _ _ _ (267 / 200 * eps) _ A_xxv A_xxv); unfold eps; lra.
Qed.
Let xx3v : b64 := b64_plus xxv xx2v.
Lemma A_xx3v : Nr xx3v (3 * xx) (3337 / 1000 * eps).
Proof.
  pose proof A_xx. replace (3 * xx) with (xx + 2 * xx) by lra.
  apply (Nr_plus_pos _ _ _ _ (292 / 125 * eps) _); [apply (Nr_weaken _ _ _ _ A_xxv); unfold eps; lra|apply (Nr_weaken _ _ _ _ A_xx2v); unfold eps; lra|unfold eps; lra..].
Qed.
Let xx5v : b64 := b64_plus xx3v xx2v.
Lemma A_xx5v : Nr xx5v (5 * xx) (2169 / 500 * eps).
Proof.
  pose proof A_xx. replace (5 * xx) with (3 * xx + 2 * xx) by lra.
  apply (Nr_plus_pos _ _ _ _ (3337 / 1000 * eps) _); [apply (Nr_weaken _ _ _ _ A_xx3v); unfold eps; lra|apply (Nr_weaken _ _ _ _ A_xx2v); unfold eps; lra|unfold eps; lra..].
Qed.
Let xx7v : b64 := b64_plus xx5v xx2v.
Lemma A_xx7v : Nr xx7v (7 * xx) (5339 / 1000 * eps).
Proof.
  pose proof A_xx. replace (7 * xx) with (5 * xx + 2 * xx) by lra.
  apply (Nr_plus_pos _ _ _ _ (2169 / 500 * eps) _); [apply (Nr_weaken _ _ _ _ A_xx5v); unfold eps; lra|apply (Nr_weaken _ _ _ _ A_xx2v); unfold eps; lra|unfold eps; lra..].
Qed.
Let xx9v : b64 := b64_plus xx7v xx2v.
Lemma A_xx9v : Nr xx9v (9 * xx) (317 / 50 * eps).
Proof.
  pose proof A_xx. replace (9 * xx) with (7 * xx + 2 * xx) by lra.
  apply (Nr_plus_pos _ _ _ _ (5339 / 1000 * eps) _); [apply (Nr_weaken _ _ _ _ A_xx7v); unfold eps; lra|apply (Nr_weaken _ _ _ _ A_xx2v); unfold eps; lra|unfold eps; lra..].
Qed.
Let xx11v : b64 := b64_plus xx9v xx2v.
Lemma A_xx11v : Nr xx11v (11 * xx) (7341 / 1000 * eps).
Proof.
  pose proof A_xx. replace (11 * xx) with (9 * xx + 2 * xx) by lra.
  apply (Nr_plus_pos _ _ _ _ (317 / 50 * eps) _); [apply (Nr_weaken _ _ _ _ A_xx9v); unfold eps; lra|apply (Nr_weaken _ _ _ _ A_xx2v); unfold eps; lra|unfold eps; lra..].
Qed.
Let xx13v : b64 := b64_plus xx11v xx2v.
Lemma A_xx13v : Nr xx13v (13 * xx) (4171 / 500 * eps).
Proof.
  pose proof A_xx. replace (13 * xx) with (11 * xx + 2 * xx) by lra.
  apply (Nr_plus_pos _ _ _ _ (7341 / 1000 * eps) _); [apply (Nr_weaken _ _ _ _ A_xx11v); unfold eps; lra|apply (Nr_weaken _ _ _ _ A_xx2v); unfold eps; lra|unfold eps; lra..].
Qed.
Let xx15v : b64 := b64_plus xx13v xx2v.
Lemma A_xx15v : Nr xx15v (15 * xx) (9343 / 1000 * eps).
Proof.
  pose proof A_xx. replace (15 * xx) with (13 * xx + 2 * xx) by lra.
  apply (Nr_plus_pos _ _ _ _ (4171 / 500 * eps) _); [apply (Nr_weaken _ _ _ _ A_xx13v); unfold eps; lra|apply (Nr_weaken _ _ _ _ A_xx2v); unfold eps; lra|unfold eps; lra..].
Qed.
Let xx17v : b64 := b64_plus xx15v xx2v.
Lemma A_xx17v : Nr xx17v (17 * xx) (1293 / 125 * eps).
Proof.
  pose proof A_xx. replace (17 * xx) with (15 * xx + 2 * xx) by lra.
  apply (Nr_plus_pos _ _ _ _ (9343 / 1000 * eps) _); [apply (Nr_weaken _ _ _ _ A_xx15v); unfold eps; lra|apply (Nr_weaken _ _ _ _ A_xx2v); unfold eps; lra|unfold eps; lra..].
Qed.
Let xx19v : b64 := b64_plus xx17v xx2v.
Lemma A_xx19v : Nr xx19v (19 * xx) (2269 / 200 * eps).
Proof.
  pose proof A_xx. replace (19 * xx) with (17 * xx + 2 * xx) by lra.
  apply (Nr_plus_pos _ _ _ _ (1293 / 125 * eps) _); [apply (Nr_weaken _ _ _ _ A_xx17v); unfold eps; lra|apply (Nr_weaken _ _ _ _ A_xx2v); unfold eps; lra|unfold eps; lra..].
Qed.
Let xx21v : b64 := b64_plus xx19v xx2v.
Lemma A_xx21v : Nr xx21v (21 * xx) (6173 / 500 * eps).
Proof.
  pose proof A_xx. replace (21 * xx) with (19 * xx + 2 * xx) by lra.
  apply (Nr_plus_pos _ _ _ _ (2269 / 200 * eps) _); [apply (Nr_weaken _ _ _ _ A_xx19v); unfold eps; lra|apply (Nr_weaken _ _ _ _ A_xx2v); unfold eps; lra|unfold eps; lra..].
Qed.
Let d11 : R := 21 * xx.
Let d11v : b64 := xx21v.
Lemma A_d11 : 10 * xx <= d11 <= 50.
Proof. pose proof A_xx. unfold d11. lra. Qed.
Lemma A_d11v : Nr d11v d11 (6173 / 500 * eps).
Proof. exact A_xx21v. Qed.
Let d10 : R := - (10 * 10) * (x * x) / d11 + 19 * xx.
Let d10v : b64 := b64_plus (b64_div (b64_mult (b64_ofZ (-100)) x2v) d11v) xx19v.
Lemma A_d10 : 9 * xx <= d10 <= 50.
Proof. exact (level_range 10 9 19 x xx d11 ltac:(lra) ltac:(lra) ltac:(lra) A_xx' A_lt A_d11). Qed.
Lemma A_d10v : Nr d10v d10 (1413 / 100 * eps).
Proof.
  pose proof A_x2b. pose proof A_xx'. pose proof A_U.
  apply (level_near (b64_mult (b64_ofZ (-100)) x2v) d11v xx19v 10 19 (x * x) d11 xx (10/171) (2001 / 500 * eps) (6173 / 500 * eps) (2269 / 200 * eps) (17349 / 1000 * eps) (13129 / 1000 * eps) (1413 / 100 * eps));
    [lra|lra|lra|lra|apply A_d11| |apply A_d11v|apply A_xx19v|lra|lra|unfold eps; lra|unfold eps; lra|unfold eps; lra|unfold eps; lra|unfold eps; lra|unfold eps; lra].
  replace (- (10 * 10)) with (-100) by lra. apply (Nr_mult (b64_ofZ (-100)) x2v (-100) (x * x) 0 (3001 / 1000 * eps) _); [apply (Nr_ofZ (-100)); lia|apply A_x2v|lra|unfold eps; lra|unfold eps; lra|apply mid_neg_scaled; lra|unfold eps; lra].
Qed.
Let d9 : R := - (9 * 9) * (x * x) / d10 + 17 * xx.
Let d9v : b64 := b64_plus (b64_div (b64_mult (b64_ofZ (-81)) x2v) d10v) xx17v.
Lemma A_d9 : 8 * xx <= d9 <= 50.
Proof. exact (level_range 9 8 17 x xx d10 ltac:(lra) ltac:(lra) ltac:(lra) A_xx' A_lt A_d10). Qed.
Lemma A_d9v : Nr d9v d9 (13189 / 1000 * eps).
Proof.
  pose proof A_x2b. pose proof A_xx'. pose proof A_U.
  apply (level_near (b64_mult (b64_ofZ (-81)) x2v) d10v xx17v 9 17 (x * x) d10 xx (1/17) (2001 / 500 * eps) (1413 / 100 * eps) (1293 / 125 * eps) (19133 / 1000 * eps) (3047 / 250 * eps) (13189 / 1000 * eps));
    [lra|lra|lra|lra|apply A_d10| |apply A_d10v|apply A_xx17v|lra|lra|unfold eps; lra|unfold eps; lra|unfold eps; lra|unfold eps; lra|unfold eps; lra|unfold eps; lra].
  replace (- (9 * 9)) with (-81) by lra. apply (Nr_mult (b64_ofZ (-81)) x2v (-81) (x * x) 0 (3001 / 1000 * eps) _); [apply (Nr_ofZ (-81)); lia|apply A_x2v|lra|unfold eps; lra|unfold eps; lra|apply mid_neg_scaled; lra|unfold eps; lra].
Qed.
Let d8 : R := - (8 * 8) * (x * x) / d9 + 15 * xx.
Let d8v : b64 := b64_plus (b64_div (b64_mult (b64_ofZ (-64)) x2v) d9v) xx15v.
Lemma A_d8 : 7 * xx <= d8 <= 50.
Proof. exact (level_range 8 7 15 x xx d9 ltac:(lra) ltac:(lra) ltac:(lra) A_xx' A_lt A_d9). Qed.
Lemma A_d8v : Nr d8v d8 (302 / 25 * eps).
Proof.
  pose proof A_x2b. pose proof A_xx'. pose proof A_U.
  apply (level_near (b64_mult (b64_ofZ (-64)) x2v) d9v xx15v 8 15 (x * x) d9 xx (8/135) (2001 / 500 * eps) (13189 / 1000 * eps) (9343 / 1000 * eps) (2274 / 125 * eps) (11079 / 1000 * eps) (302 / 25 * eps));
    [lra|lra|lra|lra|apply A_d9| |apply A_d9v|apply A_xx15v|lra|lra|unfold eps; lra|unfold eps; lra|unfold eps; lra|unfold eps; lra|unfold eps; lra|unfold eps; lra].
  replace (- (8 * 8)) with (-64) by lra. apply (Nr_mult (b64_ofZ (-64)) x2v (-64) (x * x) 0 (3001 / 1000 * eps) _); [apply (Nr_ofZ (-64)); lia|apply A_x2v|lra|unfold eps; lra|unfold eps; lra|apply mid_neg_scaled; lra|unfold eps; lra].
Qed.
Let d7 : R := - (7 * 7) * (x * x) / d8 + 13 * xx.
Let d7v : b64 := b64_plus (b64_div (b64_mult (b64_ofZ (-49)) x2v) d8v) xx13v.
Lemma A_d7 : 6 * xx <= d7 <= 50.
Proof. exact (level_range 7 6 13 x xx d8 ltac:(lra) ltac:(lra) ltac:(lra) A_xx' A_lt A_d8). Qed.
Lemma A_d7v : Nr d7v d7 (5481 / 500 * eps).
Proof.
  pose proof A_x2b. pose proof A_xx'. pose proof A_U.
  apply (level_near (b64_mult (b64_ofZ (-49)) x2v) d8v xx13v 7 13 (x * x) d8 xx (7/117) (2001 / 500 * eps) (302 / 25 * eps) (4171 / 500 * eps) (17083 / 1000 * eps) (9961 / 1000 * eps) (5481 / 500 * eps));
    [lra|lra|lra|lra|apply A_d8| |apply A_d8v|apply A_xx13v|lra|lra|unfold eps; lra|unfold eps; lra|unfold eps; lra|unfold eps; lra|unfold eps; lra|unfold eps; lra].
  replace (- (7 * 7)) with (-49) by lra. apply (Nr_mult (b64_ofZ (-49)) x2v (-49) (x * x) 0 (3001 / 1000 * eps) _); [apply (Nr_ofZ (-49)); lia|apply A_x2v|lra|unfold eps; lra|unfold eps; lra|apply mid_neg_scaled; lra|unfold eps; lra].
Qed.
Let d6 : R := - (6 * 6) * (x * x) / d7 + 11 * xx.
Let d6v : b64 := b64_plus (b64_div (b64_mult (b64_ofZ (-36)) x2v) d7v) xx11v.
Lemma A_d6 : 5 * xx <= d6 <= 50.
Proof. exact (level_range 6 5 11 x xx d7 ltac:(lra) ltac:(lra) ltac:(lra) A_xx' A_lt A_d7). Qed.
Lemma A_d6v : Nr d6v d6 (9847 / 1000 * eps).
Proof.
  pose proof A_x2b. pose proof A_xx'. pose proof A_U.
  apply (level_near (b64_mult (b64_ofZ (-36)) x2v) d7v xx11v 6 11 (x * x) d7 xx (2/33) (2001 / 500 * eps) (5481 / 500 * eps) (7341 / 1000 * eps) (3193 / 200 * eps) (4423 / 500 * eps) (9847 / 1000 * eps));
    [lra|lra|lra|lra|apply A_d7| |apply A_d7v|apply A_xx11v|lra|lra|unfold eps; lra|unfold eps; lra|unfold eps; lra|unfold eps; lra|unfold eps; lra|unfold eps; lra].
  replace (- (6 * 6)) with (-36) by lra. apply (Nr_mult (b64_ofZ (-36)) x2v (-36) (x * x) 0 (3001 / 1000 * eps) _); [apply (Nr_ofZ (-36)); lia|apply A_x2v|lra|unfold eps; lra|unfold eps; lra|apply mid_neg_scaled; lra|unfold eps; lra].
Qed.
Let d5 : R := - (5 * 5) * (x * x) / d6 + 9 * xx.
Let d5v : b64 := b64_plus (b64_div (b64_mult (b64_ofZ (-25)) x2v) d6v) xx9v.
Lemma A_d5 : 4 * xx <= d5 <= 50.
Proof. exact (level_range 5 4 9 x xx d6 ltac:(lra) ltac:(lra) ltac:(lra) A_xx' A_lt A_d6). Qed.
Lemma A_d5v : Nr d5v d5 (8737 / 1000 * eps).
Proof.
  pose proof A_x2b. pose proof A_xx'. pose proof A_U.
  apply (level_near (b64_mult (b64_ofZ (-25)) x2v) d6v xx9v 5 9 (x * x) d6 xx (5/81) (2001 / 500 * eps) (9847 / 1000 * eps) (317 / 50 * eps) (297 / 20 * eps) (967 / 125 * eps) (8737 / 1000 * eps));
    [lra|lra|lra|lra|apply A_d6| |apply A_d6v|apply A_xx9v|lra|lra|unfold eps; lra|unfold eps; lra|unfold eps; lra|unfold eps; lra|unfold eps; lra|unfold eps; lra].
  replace (- (5 * 5)) with (-25) by lra. apply (Nr_mult (b64_ofZ (-25)) x2v (-25) (x * x) 0 (3001 / 1000 * eps) _); [apply (Nr_ofZ (-25)); lia|apply A_x2v|lra|unfold eps; lra|unfold eps; lra|apply mid_neg_scaled; lra|unfold eps; lra].
Qed.
Let d4 : R := - (4 * 4) * (x * x) / d5 + 7 * xx.
Let d4v : b64 := b64_plus (b64_div (b64_mult (b64_ofZ (-16)) x2v) d5v) xx7v.
Lemma A_d4 : 3 * xx <= d4 <= 50.
Proof. exact (level_range 4 3 7 x xx d5 ltac:(lra) ltac:(lra) ltac:(lra) A_xx' A_lt A_d5). Qed.
Lemma A_d4v : Nr d4v d4 (1527 / 200 * eps).
Proof.
  pose proof A_x2b. pose proof A_xx'. pose proof A_U.
  apply (level_near (b64_mult (b64_ofZ (-16)) x2v) d5v xx7v 4 7 (x * x) d5 xx (4/63) (2001 / 500 * eps) (8737 / 1000 * eps) (5339 / 1000 * eps) (687 / 50 * eps) (3317 / 500 * eps) (1527 / 200 * eps));
    [lra|lra|lra|lra|apply A_d5| |apply A_d5v|apply A_xx7v|lra|lra|unfold eps; lra|unfold eps; lra|unfold eps; lra|unfold eps; lra|unfold eps; lra|unfold eps; lra].
  replace (- (4 * 4)) with (-16) by lra. apply (Nr_mult (b64_ofZ (-16)) x2v (-16) (x * x) 0 (3001 / 1000 * eps) _); [apply (Nr_ofZ (-16)); lia|apply A_x2v|lra|unfold eps; lra|unfold eps; lra|apply mid_neg_scaled; lra|unfold eps; lra].
Qed.
Let d3 : R := - (3 * 3) * (x * x) / d4 + 5 * xx.
Let d3v : b64 := b64_plus (b64_div (b64_mult (b64_ofZ (-9)) x2v) d4v) xx5v.
Lemma A_d3 : 2 * xx <= d3 <= 50.
Proof. exact (level_range 3 2 5 x xx d4 ltac:(lra) ltac:(lra) ltac:(lra) A_xx' A_lt A_d4). Qed.
Lemma A_d3v : Nr d3v d3 (6553 / 1000 * eps).
Proof.
  pose proof A_x2b. pose proof A_xx'. pose proof A_U.
  apply (level_near (b64_mult (b64_ofZ (-9)) x2v) d4v xx5v 3 5 (x * x) d4 xx (1/15) (2001 / 500 * eps) (1527 / 200 * eps) (2169 / 500 * eps) (6319 / 500 * eps) (694 / 125 * eps) (6553 / 1000 * eps));
    [lra|lra|lra|lra|apply A_d4| |apply A_d4v|apply A_xx5v|lra|lra|unfold eps; lra|unfold eps; lra|unfold eps; lra|unfold eps; lra|unfold eps; lra|unfold eps; lra].
  replace (- (3 * 3)) with (-9) by lra. apply (Nr_mult (b64_ofZ (-9)) x2v (-9) (x * x) 0 (3001 / 1000 * eps) _); [apply (Nr_ofZ (-9)); lia|apply A_x2v|lra|unfold eps; lra|unfold eps; lra|apply mid_neg_scaled; lra|unfold eps; lra].
Qed.
Let d2 : R := - (2 * 2) * (x * x) / d3 + 3 * xx.
Let d2v : b64 := b64_plus (b64_div (b64_mult (b64_ofZ (-4)) x2v) d3v) xx3v.
Lemma A_d2 : 1 * xx <= d2 <= 50.
Proof. exact (level_range 2 1 3 x xx d3 ltac:(lra) ltac:(lra) ltac:(lra) A_xx' A_lt A_d3). Qed.
Lemma A_d2v : Nr d2v d2 (5531 / 1000 * eps).
Proof.
  pose proof A_x2b. pose proof A_xx'. pose proof A_U.
  apply (level_near (b64_mult (b64_ofZ (-4)) x2v) d3v xx3v 2 3 (x * x) d3 xx (2/27) (2001 / 500 * eps) (6553 / 1000 * eps) (3337 / 1000 * eps) (2889 / 250 * eps) (453 / 100 * eps) (5531 / 1000 * eps));
    [lra|lra|lra|lra|apply A_d3| |apply A_d3v|apply A_xx3v|lra|lra|unfold eps; lra|unfold eps; lra|unfold eps; lra|unfold eps; lra|unfold eps; lra|unfold eps; lra].
  replace (- (2 * 2)) with (-4) by lra. apply (Nr_mult (b64_ofZ (-4)) x2v (-4) (x * x) 0 (3001 / 1000 * eps) _); [apply (Nr_ofZ (-4)); lia|apply A_x2v|lra|unfold eps; lra|unfold eps; lra|apply mid_neg_scaled; lra|unfold eps; lra].
Qed.
Let d1 : R := - (1 * 1) * (x * x) / d2 + 1 * xx.
Let d1v : b64 := b64_plus (b64_div (b64_opp x2v) d2v) xxv.
Lemma A_d1 : 0 * xx <= d1 <= 50.
Proof. exact (level_range 1 0 1 x xx d2 ltac:(lra) ltac:(lra) ltac:(lra) A_xx' A_lt A_d2). Qed.
Lemma A_d1v : Nr d1v d1 (462 / 125 * eps).
Proof.
  pose proof A_x2b. pose proof A_xx'. pose proof A_U.
  apply (level_near (b64_opp x2v) d2v xxv 1 1 (x * x) d2 xx (1/9) (3001 / 1000 * eps) (5531 / 1000 * eps) (267 / 200 * eps) (9533 / 1000 * eps) (539 / 200 * eps) (462 / 125 * eps));
    [lra|lra|lra|lra|apply A_d2| |apply A_d2v|rewrite Rmult_1_l; apply A_xxv|lra|lra|unfold eps; lra|unfold eps; lra|unfold eps; lra|unfold eps; lra|unfold eps; lra|unfold eps; lra].
  replace (- (1 * 1) * (x * x)) with (- (x * x)) by lra. apply Nr_opp. apply A_x2v.
Qed.
Lemma A_result : Nr (log_cf_11 (N := B64) z) (2 * x / d1) (3349 / 500 * eps) /\ log_cf_11 (N := RNum) (Some zr) = Some (2 * x / d1).
Proof.
  pose proof A_xb. pose proof A_xx'. pose proof A_U.
  assert (D1 : (1 - 1/9) * xx <= d1 <= 50).
  { split; [|apply A_d1]. pose proof (level_low 1 (1/9) x xx d2 ltac:(lra) ltac:(lra) A_xx' A_U A_d2). unfold d1. lra. }
  split.
  - change (log_cf_11 (N := B64) z) with (b64_div (b64_mult (b64_ofZ 2) xv) d1v).
    apply (Nr_div (b64_mult (b64_ofZ 2) xv) d1v (2 * x) d1 (2001 / 1000 * eps) (462 / 125 * eps) _);
      [ |apply A_d1v|lra|unfold eps; lra|unfold eps; lra|unfold eps; lra| |unfold eps; lra].
    + apply (Nr_mult (b64_ofZ 2) xv 2 x 0 eps _); [apply (Nr_ofZ 2); lia|apply A_x|lra|unfold eps; lra|unfold eps; lra| |unfold eps; lra].
      apply mid_opp_bounds. lra.
    + apply (mid_quot x d1 xx); lra.
  - unfold log_cf_11. cbn [nadd nsub nmul nopp nofZ RNum xr2 xr_opp]. change (zr - 1) with x. change (x + 2) with xx.
    replace (xx + (xx + xx)) with (3 * xx) by lra. replace (3 * xx + (xx + xx)) with (5 * xx) by lra.
    replace (5 * xx + (xx + xx)) with (7 * xx) by lra. replace (7 * xx + (xx + xx)) with (9 * xx) by lra.
    replace (9 * xx + (xx + xx)) with (11 * xx) by lra. replace (11 * xx + (xx + xx)) with (13 * xx) by lra.
    replace (13 * xx + (xx + xx)) with (15 * xx) by lra. replace (15 * xx + (xx + xx)) with (17 * xx) by lra.
    replace (17 * xx + (xx + xx)) with (19 * xx) by lra. replace (19 * xx + (xx + xx)) with (21 * xx) by lra.
    fold d11.
    cbn [ndiv RNum]. rewrite (xdiv _ d11) by (pose proof A_d11; lra). cbn [xr2]. replace (-100) with (- (10 * 10)) by lra. fold d10.
    cbn [ndiv RNum]. rewrite (xdiv _ d10) by (pose proof A_d10; lra). cbn [xr2]. replace (-81) with (- (9 * 9)) by lra. fold d9.
    cbn [ndiv RNum]. rewrite (xdiv _ d9) by (pose proof A_d9; lra). cbn [xr2]. replace (-64) with (- (8 * 8)) by lra. fold d8.
    cbn [ndiv RNum]. rewrite (xdiv _ d8) by (pose proof A_d8; lra). cbn [xr2]. replace (-49) with (- (7 * 7)) by lra. fold d7.
    cbn [ndiv RNum]. rewrite (xdiv _ d7) by (pose proof A_d7; lra). cbn [xr2]. replace (-36) with (- (6 * 6)) by lra. fold d6.
    cbn [ndiv RNum]. rewrite (xdiv _ d6) by (pose proof A_d6; lra). cbn [xr2]. replace (-25) with (- (5 * 5)) by lra. fold d5.
    cbn [ndiv RNum]. rewrite (xdiv _ d5) by (pose proof A_d5; lra). cbn [xr2]. replace (-16) with (- (4 * 4)) by lra. fold d4.
    cbn [ndiv RNum]. rewrite (xdiv _ d4) by (pose proof A_d4; lra). cbn [xr2]. replace (-9) with (- (3 * 3)) by lra. fold d3.
    cbn [ndiv RNum]. rewrite (xdiv _ d3) by (pose proof A_d3; lra). cbn [xr2]. replace (-4) with (- (2 * 2)) by lra. fold d2.
    cbn [ndiv RNum]. rewrite (xdiv _ d2) by (pose proof A_d2; lra). cbn [xr2].
    replace (- (x * x) / d2 + xx) with d1 by (unfold d1, Rdiv; ring).
    rewrite (xdiv _ d1) by lra. reflexivity.
Qed.
End A.

Section B.
Variable z : b64.
Hypothesis Fz : finite64 z = true.
Let zr : R := B2R64 z.
Hypothesis Hz1 : 1 / 4 <= zr.
Hypothesis Hz2 : zr <= 1 - eps.
Let x : R := zr - 1.
Let xx : R := x + 2.
Let xv : b64 := b64_minus z (b64_ofZ 1).
Let xxv : b64 := b64_plus xv (b64_ofZ 2).
Let x2v : b64 := b64_mult xv xv.
Let xx2v : b64 := b64_plus xxv xxv.
Lemma B_x : Nr xv x eps.
Proof.
  apply (Nr_minus z (b64_ofZ 1) zr 1 0 0 0 eps); try lra.
  - apply Nr_self; assumption.
  - apply (Nr_ofZ 1); lia.
  - apply mid_opp_bounds. unfold eps in *. lra.
Qed.
Lemma B_xb : / 10 ^ 20 <= - x <= 3/4.
Proof. unfold x, eps in *. lra. Qed.
Lemma B_xx : 5/4 <= xx <= 2.
Proof. unfold xx, x, eps in *. lra. Qed.
Lemma B_xxv : Nr xxv xx (1601 / 1000 * eps).
Proof.
  pose proof B_xb. pose proof B_xx.
  apply (Nr_plus xv (b64_ofZ 2) x 2 eps 0 (3/5 * eps) _); [apply B_x|apply (Nr_ofZ 2); lia|unfold eps; lra| | |unfold eps; lra].
  - fold xx. rewrite (Rabs_left x), (Rabs_pos_eq xx) by lra. unfold eps. lra.
  - fold xx. apply mid_bounds. lra.
Qed.
Lemma B_x2b : / 10 ^ 40 <= x * x <= 1.
Proof. pose proof B_xb. split; [|nra]. replace (/ 10 ^ 40) with (/ 10 ^ 20 * / 10 ^ 20) by field. nra. Qed.
Lemma B_U : x * x <= 9/25 * (xx * xx).
Proof. pose proof B_xb. pose proof B_xx. assert (- x <= 3/5 * xx) by (unfold xx in *; lra). nra. Qed.
Lemma B_xx' : 1 <= xx <= 2.
Proof. pose proof B_xx. lra. Qed.
Lemma B_lt : x * x <= xx * xx.
Proof. pose proof B_U. pose proof B_xx. nra. Qed.
Lemma B_x2v : Nr x2v (x * x) (3001 / 1000 * eps).
Proof.
  pose proof B_x2b.
  apply (Nr_mult xv xv x x eps eps _); [apply B_x|apply B_x|unfold eps; lra|unfold eps; lra|unfold eps; lra| |unfold eps; lra].
  apply mid_bounds. lra.
Qed.
Lemma B_xx2v : Nr xx2v (2 * xx) (1301 / 500 * eps).
Proof.
  pose proof B_xx. replace (2 * xx) with (xx + xx) by lra.
  apply (Nr_plus_pos _ _ _ _ (1601 / 1000 * eps) _ B_xxv B_xxv); unfold eps; lra.
Qed.
Let xx3v : b64 := b64_plus xxv xx2v.
Lemma B_xx3v : Nr xx3v (3 * xx) (3603 / 1000 * eps).
Proof.
  pose proof B_xx. replace (3 * xx) with (xx + 2 * xx) by lra.
  apply (Nr_plus_pos _ _ _ _ (1301 / 500 * eps) _); [apply (Nr_weaken _ _ _ _ B_xxv); unfold eps; lra|apply (Nr_weaken _ _ _ _ B_xx2v); unfold eps; lra|unfold eps; lra..].
Qed.
Let xx5v : b64 := b64_plus xx3v xx2v.
Lemma B_xx5v : Nr xx5v (5 * xx) (1151 / 250 * eps).
Proof.
  pose proof B_xx. replace (5 * xx) with (3 * xx + 2 * xx) by lra.
  apply (Nr_plus_pos _ _ _ _ (3603 / 1000 * eps) _); [apply (Nr_weaken _ _ _ _ B_xx3v); unfold eps; lra|apply (Nr_weaken _ _ _ _ B_xx2v); unfold eps; lra|unfold eps; lra..].
Qed.
Let xx7v : b64 := b64_plus xx5v xx2v.
Lemma B_xx7v : Nr xx7v (7 * xx) (1121 / 200 * eps).
Proof.
  pose proof B_xx. replace (7 * xx) with (5 * xx + 2 * xx) by lra.
  apply (Nr_plus_pos _ _ _ _ (1151 / 250 * eps) _); [apply (Nr_weaken _ _ _ _ B_xx5v); unfold eps; lra|apply (Nr_weaken _ _ _ _ B_xx2v); unfold eps; lra|unfold eps; lra..].
Qed.
Let xx9v : b64 := b64_plus xx7v xx2v.
Lemma B_xx9v : Nr xx9v (9 * xx) (3303 / 500 * eps).
Proof.
  pose proof B_xx. replace (9 * xx) with (7 * xx + 2 * xx) by lra.
  apply (Nr_plus_pos _ _ _ _ (1121 / 200 * eps) _); [apply (Nr_weaken _ _ _ _ B_xx7v); unfold eps; lra|apply (Nr_weaken _ _ _ _ B_xx2v); unfold eps; lra|unfold eps; lra..].
Qed.
Let xx11v : b64 := b64_plus xx9v xx2v.
Lemma B_xx11v : Nr xx11v (11 * xx) (7607 / 1000 * eps).
Proof.
  pose proof B_xx. replace (11 * xx) with (9 * xx + 2 * xx) by lra.
  apply (Nr_plus_pos _ _ _ _ (3303 / 500 * eps) _); [apply (Nr_weaken _ _ _ _ B_xx9v); unfold eps; lra|apply (Nr_weaken _ _ _ _ B_xx2v); unfold eps; lra|unfold eps; lra..].
Qed.
Let xx13v : b64 := b64_plus xx11v xx2v.
Lemma B_xx13v : Nr xx13v (13 * xx) (1076 / 125 * eps).
Proof.
  pose proof B_xx. replace (13 * xx) with (11 * xx + 2 * xx) by lra.
  apply (Nr_plus_pos _ _ _ _ (7607 / 1000 * eps) _); [apply (Nr_weaken _ _ _ _ B_xx11v); unfold eps; lra|apply (Nr_weaken _ _ _ _ B_xx2v); unfold eps; lra|unfold eps; lra..].
Qed.
Let xx15v : b64 := b64_plus xx13v xx2v.
Lemma B_xx15v : Nr xx15v (15 * xx) (9609 / 1000 * eps).
Proof.
  pose proof B_xx. replace (15 * xx) with (13 * xx + 2 * xx) by lra.
  apply (Nr_plus_pos _ _ _ _ (1076 / 125 * eps) _); [apply (Nr_weaken _ _ _ _ B_xx13v); unfold eps; lra|apply (Nr_weaken _ _ _ _ B_xx2v); unfold eps; lra|unfold eps; lra..].
Qed.
Let xx17v : b64 := b64_plus xx15v xx2v.
Lemma B_xx17v : Nr xx17v (17 * xx) (1061 / 100 * eps).
Proof.
  pose proof B_xx. replace (17 * xx) with (15 * xx + 2 * xx) by lra.
  apply (Nr_plus_pos _ _ _ _ (9609 / 1000 * eps) _); [apply (Nr_weaken _ _ _ _ B_xx15v); unfold eps; lra|apply (Nr_weaken _ _ _ _ B_xx2v); unfold eps; lra|unfold eps; lra..].
Qed.
Let xx19v : b64 := b64_plus xx17v xx2v.
Lemma B_xx19v : Nr xx19v (19 * xx) (11611 / 1000 * eps).
Proof.
  pose proof B_xx. replace (19 * xx) with (17 * xx + 2 * xx) by lra.
  apply (Nr_plus_pos _ _ _ _ (1061 / 100 * eps) _); [apply (Nr_weaken _ _ _ _ B_xx17v); unfold eps; lra|apply (Nr_weaken _ _ _ _ B_xx2v); unfold eps; lra|unfold eps; lra..].
Qed.
Let xx21v : b64 := b64_plus xx19v xx2v.
Lemma B_xx21v : Nr xx21v (21 * xx) (3153 / 250 * eps).
Proof.
  pose proof B_xx. replace (21 * xx) with (19 * xx + 2 * xx) by lra.
  apply (Nr_plus_pos _ _ _ _ (11611 / 1000 * eps) _); [apply (Nr_weaken _ _ _ _ B_xx19v); unfold eps; lra|apply (Nr_weaken _ _ _ _ B_xx2v); unfold eps; lra|unfold eps; lra..].
Qed.
Let d11 : R := 21 * xx.
Let d11v : b64 := xx21v.
Lemma B_d11 : 10 * xx <= d11 <= 50.
Proof. pose proof B_xx. unfold d11. lra. Qed.
Lemma B_d11v : Nr d11v d11 (3153 / 250 * eps).
Proof. exact B_xx21v. Qed.
Let d10 : R := - (10 * 10) * (x * x) / d11 + 19 * xx.
Let d10v : b64 := b64_plus (b64_div (b64_mult (b64_ofZ (-100)) x2v) d11v) xx19v.
Lemma B_d10 : 9 * xx <= d10 <= 50.
Proof. exact (level_range 10 9 19 x xx d11 ltac:(lra) ltac:(lra) ltac:(lra) B_xx' B_lt B_d11). Qed.
Lemma B_d10v : Nr d10v d10 (9723 / 500 * eps).
Proof.
  pose proof B_x2b. pose proof B_xx'. pose proof B_U.
  apply (level_near (b64_mult (b64_ofZ (-100)) x2v) d11v xx19v 10 19 (x * x) d11 xx (18/95) (2001 / 500 * eps) (3153 / 250 * eps) (11611 / 1000 * eps) (3523 / 200 * eps) (3689 / 200 * eps) (9723 / 500 * eps));
    [lra|lra|lra|lra|apply B_d11| |apply B_d11v|apply B_xx19v|lra|lra|unfold eps; lra|unfold eps; lra|unfold eps; lra|unfold eps; lra|unfold eps; lra|unfold eps; lra].
  replace (- (10 * 10)) with (-100) by lra. apply (Nr_mult (b64_ofZ (-100)) x2v (-100) (x * x) 0 (3001 / 1000 * eps) _); [apply (Nr_ofZ (-100)); lia|apply B_x2v|lra|unfold eps; lra|unfold eps; lra|apply mid_neg_scaled; lra|unfold eps; lra].
Qed.
Let d9 : R := - (9 * 9) * (x * x) / d10 + 17 * xx.
Let d9v : b64 := b64_plus (b64_div (b64_mult (b64_ofZ (-81)) x2v) d10v) xx17v.
Lemma B_d9 : 8 * xx <= d9 <= 50.
Proof. exact (level_range 9 8 17 x xx d10 ltac:(lra) ltac:(lra) ltac:(lra) B_xx' B_lt B_d10). Qed.
Lemma B_d9v : Nr d9v d9 (4967 / 250 * eps).
Proof.
  pose proof B_x2b. pose proof B_xx'. pose proof B_U.
  apply (level_near (b64_mult (b64_ofZ (-81)) x2v) d10v xx17v 9 17 (x * x) d10 xx (81/425) (2001 / 500 * eps) (9723 / 500 * eps) (1061 / 100 * eps) (24449 / 1000 * eps) (18867 / 1000 * eps) (4967 / 250 * eps));
    [lra|lra|lra|lra|apply B_d10| |apply B_d10v|apply B_xx17v|lra|lra|unfold eps; lra|unfold eps; lra|unfold eps; lra|unfold eps; lra|unfold eps; lra|unfold eps; lra].
  replace (- (9 * 9)) with (-81) by lra. apply (Nr_mult (b64_ofZ (-81)) x2v (-81) (x * x) 0 (3001 / 1000 * eps) _); [apply (Nr_ofZ (-81)); lia|apply B_x2v|lra|unfold eps; lra|unfold eps; lra|apply mid_neg_scaled; lra|unfold eps; lra].
Qed.
Let d8 : R := - (8 * 8) * (x * x) / d9 + 15 * xx.
Let d8v : b64 := b64_plus (b64_div (b64_mult (b64_ofZ (-64)) x2v) d9v) xx15v.
Lemma B_d8 : 7 * xx <= d8 <= 50.
Proof. exact (level_range 8 7 15 x xx d9 ltac:(lra) ltac:(lra) ltac:(lra) B_xx' B_lt B_d9). Qed.
Lemma B_d8v : Nr d8v d8 (3761 / 200 * eps).
Proof.
  pose proof B_x2b. pose proof B_xx'. pose proof B_U.
  apply (level_near (b64_mult (b64_ofZ (-64)) x2v) d9v xx15v 8 15 (x * x) d9 xx (24/125) (2001 / 500 * eps) (4967 / 250 * eps) (9609 / 1000 * eps) (24871 / 1000 * eps) (4451 / 250 * eps) (3761 / 200 * eps));
    [lra|lra|lra|lra|apply B_d9| |apply B_d9v|apply B_xx15v|lra|lra|unfold eps; lra|unfold eps; lra|unfold eps; lra|unfold eps; lra|unfold eps; lra|unfold eps; lra].
  replace (- (8 * 8)) with (-64) by lra. apply (Nr_mult (b64_ofZ (-64)) x2v (-64) (x * x) 0 (3001 / 1000 * eps) _); [apply (Nr_ofZ (-64)); lia|apply B_x2v|lra|unfold eps; lra|unfold eps; lra|apply mid_neg_scaled; lra|unfold eps; lra].
Qed.
Let d7 : R := - (7 * 7) * (x * x) / d8 + 13 * xx.
Let d7v : b64 := b64_plus (b64_div (b64_mult (b64_ofZ (-49)) x2v) d8v) xx13v.
Lemma B_d7 : 6 * xx <= d7 <= 50.
Proof. exact (level_range 7 6 13 x xx d8 ltac:(lra) ltac:(lra) ltac:(lra) B_xx' B_lt B_d8). Qed.
Lemma B_d7v : Nr d7v d7 (3481 / 200 * eps).
Proof.
  pose proof B_x2b. pose proof B_xx'. pose proof B_U.
  apply (level_near (b64_mult (b64_ofZ (-49)) x2v) d8v xx13v 7 13 (x * x) d8 xx (63/325) (2001 / 500 * eps) (3761 / 200 * eps) (1076 / 125 * eps) (2976 / 125 * eps) (4101 / 250 * eps) (3481 / 200 * eps));
    [lra|lra|lra|lra|apply B_d8| |apply B_d8v|apply B_xx13v|lra|lra|unfold eps; lra|unfold eps; lra|unfold eps; lra|unfold eps; lra|unfold eps; lra|unfold eps; lra].
  replace (- (7 * 7)) with (-49) by lra. apply (Nr_mult (b64_ofZ (-49)) x2v (-49) (x * x) 0 (3001 / 1000 * eps) _); [apply (Nr_ofZ (-49)); lia|apply B_x2v|lra|unfold eps; lra|unfold eps; lra|apply mid_neg_scaled; lra|unfold eps; lra].
Qed.
Let d6 : R := - (6 * 6) * (x * x) / d7 + 11 * xx.
Let d6v : b64 := b64_plus (b64_div (b64_mult (b64_ofZ (-36)) x2v) d7v) xx11v.
Lemma B_d6 : 5 * xx <= d6 <= 50.
Proof. exact (level_range 6 5 11 x xx d7 ltac:(lra) ltac:(lra) ltac:(lra) B_xx' B_lt B_d7). Qed.
Lemma B_d6v : Nr d6v d6 (15943 / 1000 * eps).
Proof.
  pose proof B_x2b. pose proof B_xx'. pose proof B_U.
  apply (level_near (b64_mult (b64_ofZ (-36)) x2v) d7v xx11v 6 11 (x * x) d7 xx (54/275) (2001 / 500 * eps) (3481 / 200 * eps) (7607 / 1000 * eps) (2801 / 125 * eps) (7471 / 500 * eps) (15943 / 1000 * eps));
    [lra|lra|lra|lra|apply B_d7| |apply B_d7v|apply B_xx11v|lra|lra|unfold eps; lra|unfold eps; lra|unfold eps; lra|unfold eps; lra|unfold eps; lra|unfold eps; lra].
  replace (- (6 * 6)) with (-36) by lra. apply (Nr_mult (b64_ofZ (-36)) x2v (-36) (x * x) 0 (3001 / 1000 * eps) _); [apply (Nr_ofZ (-36)); lia|apply B_x2v|lra|unfold eps; lra|unfold eps; lra|apply mid_neg_scaled; lra|unfold eps; lra].
Qed.
Let d5 : R := - (5 * 5) * (x * x) / d6 + 9 * xx.
Let d5v : b64 := b64_plus (b64_div (b64_mult (b64_ofZ (-25)) x2v) d6v) xx9v.
Lemma B_d5 : 4 * xx <= d5 <= 50.
Proof. exact (level_range 5 4 9 x xx d6 ltac:(lra) ltac:(lra) ltac:(lra) B_xx' B_lt B_d6). Qed.
Lemma B_d5v : Nr d5v d5 (1812 / 125 * eps).
Proof.
  pose proof B_x2b. pose proof B_xx'. pose proof B_U.
  apply (level_near (b64_mult (b64_ofZ (-25)) x2v) d6v xx9v 5 9 (x * x) d6 xx (1/5) (2001 / 500 * eps) (15943 / 1000 * eps) (3303 / 500 * eps) (10473 / 500 * eps) (2699 / 200 * eps) (1812 / 125 * eps));
    [lra|lra|lra|lra|apply B_d6| |apply B_d6v|apply B_xx9v|lra|lra|unfold eps; lra|unfold eps; lra|unfold eps; lra|unfold eps; lra|unfold eps; lra|unfold eps; lra].
  replace (- (5 * 5)) with (-25) by lra. apply (Nr_mult (b64_ofZ (-25)) x2v (-25) (x * x) 0 (3001 / 1000 * eps) _); [apply (Nr_ofZ (-25)); lia|apply B_x2v|lra|unfold eps; lra|unfold eps; lra|apply mid_neg_scaled; lra|unfold eps; lra].
Qed.
Let d4 : R := - (4 * 4) * (x * x) / d5 + 7 * xx.
Let d4v : b64 := b64_plus (b64_div (b64_mult (b64_ofZ (-16)) x2v) d5v) xx7v.
Lemma B_d4 : 3 * xx <= d4 <= 50.
Proof. exact (level_range 4 3 7 x xx d5 ltac:(lra) ltac:(lra) ltac:(lra) B_xx' B_lt B_d5). Qed.
Lemma B_d4v : Nr d4v d4 (13109 / 1000 * eps).
Proof.
  pose proof B_x2b. pose proof B_xx'. pose proof B_U.
  apply (level_near (b64_mult (b64_ofZ (-16)) x2v) d5v xx7v 4 7 (x * x) d5 xx (36/175) (2001 / 500 * eps) (1812 / 125 * eps) (1121 / 200 * eps) (19499 / 1000 * eps) (3027 / 250 * eps) (13109 / 1000 * eps));
    [lra|lra|lra|lra|apply B_d5| |apply B_d5v|apply B_xx7v|lra|lra|unfold eps; lra|unfold eps; lra|unfold eps; lra|unfold eps; lra|unfold eps; lra|unfold eps; lra].
  replace (- (4 * 4)) with (-16) by lra. apply (Nr_mult (b64_ofZ (-16)) x2v (-16) (x * x) 0 (3001 / 1000 * eps) _); [apply (Nr_ofZ (-16)); lia|apply B_x2v|lra|unfold eps; lra|unfold eps; lra|apply mid_neg_scaled; lra|unfold eps; lra].
Qed.
Let d3 : R := - (3 * 3) * (x * x) / d4 + 5 * xx.
Let d3v : b64 := b64_plus (b64_div (b64_mult (b64_ofZ (-9)) x2v) d4v) xx5v.
Lemma B_d3 : 2 * xx <= d3 <= 50.
Proof. exact (level_range 3 2 5 x xx d4 ltac:(lra) ltac:(lra) ltac:(lra) B_xx' B_lt B_d4). Qed.
Lemma B_d3v : Nr d3v d3 (2373 / 200 * eps).
Proof.
  pose proof B_x2b. pose proof B_xx'. pose proof B_U.
  apply (level_near (b64_mult (b64_ofZ (-9)) x2v) d4v xx5v 3 5 (x * x) d4 xx (27/125) (2001 / 500 * eps) (13109 / 1000 * eps) (1151 / 250 * eps) (2264 / 125 * eps) (1358 / 125 * eps) (2373 / 200 * eps));
    [lra|lra|lra|lra|apply B_d4| |apply B_d4v|apply B_xx5v|lra|lra|unfold eps; lra|unfold eps; lra|unfold eps; lra|unfold eps; lra|unfold eps; lra|unfold eps; lra].
  replace (- (3 * 3)) with (-9) by lra. apply (Nr_mult (b64_ofZ (-9)) x2v (-9) (x * x) 0 (3001 / 1000 * eps) _); [apply (Nr_ofZ (-9)); lia|apply B_x2v|lra|unfold eps; lra|unfold eps; lra|apply mid_neg_scaled; lra|unfold eps; lra].
Qed.
Let d2 : R := - (2 * 2) * (x * x) / d3 + 3 * xx.
Let d2v : b64 := b64_plus (b64_div (b64_mult (b64_ofZ (-4)) x2v) d3v) xx3v.
Lemma B_d2 : 1 * xx <= d2 <= 50.
Proof. exact (level_range 2 1 3 x xx d3 ltac:(lra) ltac:(lra) ltac:(lra) B_xx' B_lt B_d3). Qed.
Lemma B_d2v : Nr d2v d2 (1107 / 100 * eps).
Proof.
  pose proof B_x2b. pose proof B_xx'. pose proof B_U.
  apply (level_near (b64_mult (b64_ofZ (-4)) x2v) d3v xx3v 2 3 (x * x) d3 xx (6/25) (2001 / 500 * eps) (2373 / 200 * eps) (3603 / 1000 * eps) (4217 / 250 * eps) (10069 / 1000 * eps) (1107 / 100 * eps));
    [lra|lra|lra|lra|apply B_d3| |apply B_d3v|apply B_xx3v|lra|lra|unfold eps; lra|unfold eps; lra|unfold eps; lra|unfold eps; lra|unfold eps; lra|unfold eps; lra].
  replace (- (2 * 2)) with (-4) by lra. apply (Nr_mult (b64_ofZ (-4)) x2v (-4) (x * x) 0 (3001 / 1000 * eps) _); [apply (Nr_ofZ (-4)); lia|apply B_x2v|lra|unfold eps; lra|unfold eps; lra|apply mid_neg_scaled; lra|unfold eps; lra].
Qed.
Let d1 : R := - (1 * 1) * (x * x) / d2 + 1 * xx.
Let d1v : b64 := b64_plus (b64_div (b64_opp x2v) d2v) xxv.
Lemma B_d1 : 0 * xx <= d1 <= 50.
Proof. exact (level_range 1 0 1 x xx d2 ltac:(lra) ltac:(lra) ltac:(lra) B_xx' B_lt B_d2). Qed.
Lemma B_d1v : Nr d1v d1 (5991 / 500 * eps).
Proof.
  pose proof B_x2b. pose proof B_xx'. pose proof B_U.
  apply (level_near (b64_opp x2v) d2v xxv 1 1 (x * x) d2 xx (9/25) (3001 / 1000 * eps) (1107 / 100 * eps) (1601 / 1000 * eps) (1884 / 125 * eps) (10981 / 1000 * eps) (5991 / 500 * eps));
    [lra|lra|lra|lra|apply B_d2| |apply B_d2v|rewrite Rmult_1_l; apply B_xxv|lra|lra|unfold eps; lra|unfold eps; lra|unfold eps; lra|unfold eps; lra|unfold eps; lra|unfold eps; lra].
  replace (- (1 * 1) * (x * x)) with (- (x * x)) by lra. apply Nr_opp. apply B_x2v.
Qed.
Lemma B_result : Nr (log_cf_11 (N := B64) z) (2 * x / d1) (1873 / 125 * eps) /\ log_cf_11 (N := RNum) (Some zr) = Some (2 * x / d1).
Proof.
  pose proof B_xb. pose proof B_xx'. pose proof B_U.
  assert (D1 : (1 - 9/25) * xx <= d1 <= 50).
  { split; [|apply B_d1]. pose proof (level_low 1 (9/25) x xx d2 ltac:(lra) ltac:(lra) B_xx' B_U B_d2). unfold d1. lra. }
  split.
  - change (log_cf_11 (N := B64) z) with (b64_div (b64_mult (b64_ofZ 2) xv) d1v).
    apply (Nr_div (b64_mult (b64_ofZ 2) xv) d1v (2 * x) d1 (2001 / 1000 * eps) (5991 / 500 * eps) _);
      [ |apply B_d1v|lra|unfold eps; lra|unfold eps; lra|unfold eps; lra| |unfold eps; lra].
    + apply (Nr_mult (b64_ofZ 2) xv 2 x 0 eps _); [apply (Nr_ofZ 2); lia|apply B_x|lra|unfold eps; lra|unfold eps; lra| |unfold eps; lra].
      apply mid_opp_bounds. lra.
    + apply (mid_quot x d1 xx); lra.
  - unfold log_cf_11. cbn [nadd nsub nmul nopp nofZ RNum xr2 xr_opp]. change (zr - 1) with x. change (x + 2) with xx.
    replace (xx + (xx + xx)) with (3 * xx) by lra. replace (3 * xx + (xx + xx)) with (5 * xx) by lra.
    replace (5 * xx + (xx + xx)) with (7 * xx) by lra. replace (7 * xx + (xx + xx)) with (9 * xx) by lra.
    replace (9 * xx + (xx + xx)) with (11 * xx) by lra. replace (11 * xx + (xx + xx)) with (13 * xx) by lra.
    replace (13 * xx + (xx + xx)) with (15 * xx) by lra. replace (15 * xx + (xx + xx)) with (17 * xx) by lra.
    replace (17 * xx + (xx + xx)) with (19 * xx) by lra. replace (19 * xx + (xx + xx)) with (21 * xx) by lra.
    fold d11.
    cbn [ndiv RNum]. rewrite (xdiv _ d11) by (pose proof B_d11; lra). cbn [xr2]. replace (-100) with (- (10 * 10)) by lra. fold d10.
    cbn [ndiv RNum]. rewrite (xdiv _ d10) by (pose proof B_d10; lra). cbn [xr2]. replace (-81) with (- (9 * 9)) by lra. fold d9.
    cbn [ndiv RNum]. rewrite (xdiv _ d9) by (pose proof B_d9; lra). cbn [xr2]. replace (-64) with (- (8 * 8)) by lra. fold d8.
    cbn [ndiv RNum]. rewrite (xdiv _ d8) by (pose proof B_d8; lra). cbn [xr2]. replace (-49) with (- (7 * 7)) by lra. fold d7.
    cbn [ndiv RNum]. rewrite (xdiv _ d7) by (pose proof B_d7; lra). cbn [xr2]. replace (-36) with (- (6 * 6)) by lra. fold d6.
    cbn [ndiv RNum]. rewrite (xdiv _ d6) by (pose proof B_d6; lra). cbn [xr2]. replace (-25) with (- (5 * 5)) by lra. fold d5.
    cbn [ndiv RNum]. rewrite (xdiv _ d5) by (pose proof B_d5; lra). cbn [xr2]. replace (-16) with (- (4 * 4)) by lra. fold d4.
    cbn [ndiv RNum]. rewrite (xdiv _ d4) by (pose proof B_d4; lra). cbn [xr2]. replace (-9) with (- (3 * 3)) by lra. fold d3.
    cbn [ndiv RNum]. rewrite (xdiv _ d3) by (pose proof B_d3; lra). cbn [xr2]. replace (-4) with (- (2 * 2)) by lra. fold d2.
    cbn [ndiv RNum]. rewrite (xdiv _ d2) by (pose proof B_d2; lra). cbn [xr2].
    replace (- (x * x) / d2 + xx) with d1 by (unfold d1, Rdiv; ring).
    rewrite (xdiv _ d1) by lra. reflexivity.
Qed.
End B.
