(** * LikAcc: accuracy of the log-likelihood in binary64 (C65) *)
From Coq Require Import ZArith List Bool Reals Lra Lia Psatz Permutation.
From Flocq Require Import Core.Core IEEE754.BinarySingleNaN.
From Verif Require Import Num NumFacts XMath Ubend UbendFacts Peaks PeaksFacts Brent Estimator Tail P2 Spot B64 B64Facts LogAcc Spec FitLemmas
  FloatErr SpotB64 LogExact CastLemmas TailSpec PowAcc PowAcc2 LikSpec.
Import ListNotations.
Open Scope R_scope.

Notation cm := (c_math musl_utils : MathFns B64).

Definition rsumf (g : b64 -> R) (w : list b64) : R := fold_right Rplus 0 (map g w).

Lemma fold_close (f : b64 -> b64) (g : b64 -> R) e G delta Mx : 0 <= e -> 0 <= G -> 0 <= delta -> Mx <= 10 ^ 300 -> eps * Mx + / 10 ^ 59 <= delta ->
  forall (w : list b64) (r : b64) (X E : R),
  (forall v, In v w -> finite64 (f v) = true /\ Rabs (B2R64 (f v) - g v) <= e /\ Rabs (g v) <= G) ->
  finite64 r = true -> Rabs (B2R64 r - X) <= E -> Rabs X + E + IZR (Z.of_nat (length w)) * (G + e + delta) <= Mx ->
  finite64 (fold_left (fun r v => b64_plus r (f v)) w r) = true /\
  Rabs (B2R64 (fold_left (fun r v => b64_plus r (f v)) w r) - (X + rsumf g w)) <= E + IZR (Z.of_nat (length w)) * (e + delta).
Proof.
  intros He HG Hd HM HD. unfold rsumf. induction w as [|v w IH]; intros r X E H F A B; cbn [fold_left map fold_right length] in *.
  - split; [exact F|]. rewrite Rplus_0_r, Rmult_0_l, Rplus_0_r. exact A.
  - destruct (H v (or_introl eq_refl)) as (Fv & Ev & Gv). rewrite Nat2Z.inj_succ, succ_IZR in *. set (m := IZR (Z.of_nat (length w))) in *.
    assert (m0 : 0 <= m) by (apply IZR_le; lia). assert (P : 0 <= m * (G + e + delta)) by (apply Rmult_le_pos; lra).
    destruct (plus_xval _ _ F Fv) as (N & V).
    assert (S1 : Rabs (B2R64 r + B2R64 (f v)) <= Mx).
    { pose proof (Rabs_triang (B2R64 r - X) X) as T1. replace (B2R64 r - X + X) with (B2R64 r) in T1 by lra.
      pose proof (Rabs_triang (B2R64 (f v) - g v) (g v)) as T2. replace (B2R64 (f v) - g v + g v) with (B2R64 (f v)) in T2 by lra.
      pose proof (Rabs_triang (B2R64 r) (B2R64 (f v))). lra. }
    destruct (op_abs _ _ N V ltac:(lra)) as (Fs & _ & As). pose proof eps_pos as EP.
    assert (As2 : Rabs (B2R64 (b64_plus r (f v)) - (B2R64 r + B2R64 (f v))) <= delta).
    { apply Rle_trans with (1 := As). apply Rle_trans with (2 := HD). apply Rplus_le_compat_r. apply Rmult_le_compat_l; lra. }
    destruct (IH (b64_plus r (f v)) (X + g v) (E + e + delta)) as (F2 & A2).
    + intros u Hu. apply H. right. exact Hu.
    + exact Fs.
    + replace (B2R64 (b64_plus r (f v)) - (X + g v)) with ((B2R64 (b64_plus r (f v)) - (B2R64 r + B2R64 (f v))) + ((B2R64 r - X) + (B2R64 (f v) - g v))) by lra.
      eapply Rle_trans; [apply Rabs_triang|]. pose proof (Rabs_triang (B2R64 r - X) (B2R64 (f v) - g v)). lra.
    + pose proof (Rabs_triang X (g v)). lra.
    + split; [exact F2|]. replace (X + (g v + fold_right Rplus 0 (map g w))) with (X + g v + fold_right Rplus 0 (map g w)) by lra. lra.
Qed.

(** the logarithm with one absolute bound *)
Lemma xlog_abs (x : b64) : finite64 x = true -> 0 < B2R64 x -> finite64 (xlog (N := B64) musl_utils x) = true /\
  Rabs (B2R64 (xlog (N := B64) musl_utils x) - ln (B2R64 x)) <= 1 / 10 ^ 10 + 8 / 10 ^ 16 * Rabs (ln (B2R64 x)).
Proof.
  intros F P. destruct (xlog_accuracy x F P) as (FL & A1 & A2 & A3). split; [exact FL|]. pose proof (Rabs_pos (ln (B2R64 x))) as P0.
  destruct (Rlt_le_dec (B2R64 x) (1 / 4)) as [C1|C1]; [specialize (A3 (or_introl C1)); lra|].
  destruct (Rlt_le_dec (B2R64 x) (1 / 2)) as [C2|C2]; [specialize (A2 (conj C1 C2)); lra|].
  destruct (Rlt_le_dec (B2R64 x) 1) as [C3|C3]; [specialize (A1 (conj C2 C3)); lra|specialize (A3 (or_intror C3)); lra].
Qed.

Lemma ln_pow10 k : ln (10 ^ k) <= 278 / 100 * INR k.
Proof. rewrite ln_pow by lra. pose proof ln_10. pose proof (pos_INR k). nra. Qed.
Lemma ln_bound x (k : nat) : / 10 ^ k <= x <= 10 ^ k -> Rabs (ln x) <= 278 / 100 * INR k.
Proof.
  intros H. assert (P : 0 < 10 ^ k) by (apply pow_lt; lra). assert (P' : 0 < / 10 ^ k) by (apply Rinv_0_lt_compat; exact P). pose proof (ln_pow10 k) as L.
  apply Rabs_le. split.
  - apply Rle_trans with (ln (/ 10 ^ k)); [rewrite ln_Rinv by exact P; lra|apply ln_mono; lra].
  - apply Rle_trans with (ln (10 ^ k)); [apply ln_mono; lra|exact L].
Qed.

Lemma inr_100 : INR 100 = 100. Proof. rewrite INR_IZR_INZ. reflexivity. Qed.

Section Acc.
Variables (gamma sigma : b64) (w : list b64).
Let g := B2R64 gamma.
Let s := B2R64 sigma.
Let n := IZR (Z.of_nat (length w)).
Hypothesis Fg : finite64 gamma = true.
Hypothesis Fs : finite64 sigma = true.
Hypothesis Hs : / 10 ^ 100 <= s <= 10 ^ 100.
Hypothesis Hn : (1 <= Z.of_nat (length w) <= 2 ^ 40)%Z.
Hypothesis FW : forall v, In v w -> finite64 v = true /\ 0 <= B2R64 v <= 10 ^ 100.

Lemma s_pos : 0 < s.
Proof. assert (0 < / 10 ^ 100) by (apply Rinv_0_lt_compat, pow_lt; lra). lra. Qed.
Lemma n_pos : 1 <= n <= 1099511627776.
Proof. unfold n. split; apply IZR_le; lia. Qed.

Let first := b64_mult (b64_opp (b64_ofZ (Z.of_nat (length w)))) (xlog (N := B64) musl_utils sigma).
Lemma first_close : finite64 first = true /\ Rabs (B2R64 first - - n * ln s) <= 2 / 10 ^ 10 * n /\ Rabs (ln s) <= 278.
Proof.
  pose proof s_pos as SP. pose proof n_pos as NP. destruct (ofZ_exact (Z.of_nat (length w)) ltac:(lia)) as (F1 & E1). fold n in E1.
  assert (L : Rabs (ln s) <= 278) by (pose proof (ln_bound s 100 Hs) as X; rewrite inr_100 in X; lra).
  destruct (xlog_abs sigma Fs SP) as (Fl & Al). fold s in Al. set (l := xlog (N := B64) musl_utils sigma) in *.
  assert (Fo : finite64 (b64_opp (b64_ofZ (Z.of_nat (length w)))) = true) by (rewrite finite_opp; exact F1).
  assert (Eo : B2R64 (b64_opp (b64_ofZ (Z.of_nat (length w)))) = - n) by (rewrite <- (xval_finite _ Fo), xval_opp, (xval_finite _ F1), E1; reflexivity).
  destruct (mult_xval _ l Fo Fl) as (N & V). rewrite Eo in V.
  assert (AL : Rabs (B2R64 l) <= 279) by (pose proof (Rabs_triang (B2R64 l - ln s) (ln s)) as T; replace (B2R64 l - ln s + ln s) with (B2R64 l) in T by lra; lra).
  assert (AB : Rabs (- n * B2R64 l) <= 279 * n) by (rewrite Rabs_mult, Rabs_Ropp, (Rabs_pos_eq n) by lra; rewrite Rmult_comm; apply Rmult_le_compat_r; lra).
  assert (T3 : 10 ^ 20 <= 10 ^ 300) by (apply Rle_pow; [lra|lia]).
  destruct (op_abs _ _ N V ltac:(lra)) as (Ff & _ & Af). fold first in Ff, Af. split; [exact Ff|]. split; [|exact L].
  replace (B2R64 first - - n * ln s) with ((B2R64 first - - n * B2R64 l) + - n * (B2R64 l - ln s)) by lra. eapply Rle_trans; [apply Rabs_triang|].
  assert (X : Rabs (- n * (B2R64 l - ln s)) <= n * (101 / 10 ^ 12)).
  { rewrite Rabs_mult, Rabs_Ropp, (Rabs_pos_eq n) by lra. apply Rmult_le_compat_l; lra. }
  pose proof inv59_le. unfold eps in Af. lra.
Qed.

Section Shape.
Hypothesis Hg : / 10 ^ 17 <= Rabs g <= 10 ^ 6.
Let k := 1 + / Rabs g.
Hypothesis HA : forall v, In v w -> / 10 ^ 5 <= 1 + g * B2R64 v / s.

Lemma k_range : 1 <= k <= 2 * 10 ^ 17.
Proof.
  unfold k. assert (0 < / 10 ^ 17) by (apply Rinv_0_lt_compat, pow_lt; lra). assert (0 < / Rabs g) by (apply Rinv_0_lt_compat; lra).
  assert (/ Rabs g <= 10 ^ 17). { replace (10 ^ 17) with (/ / 10 ^ 17) by apply Rinv_inv. apply Rinv_le; lra. } lra.
Qed.
Lemma g_nz : g <> 0.
Proof. intros C. rewrite C, Rabs_R0 in Hg. assert (0 < / 10 ^ 17) by (apply Rinv_0_lt_compat, pow_lt; lra). lra. Qed.

Let cc := b64_opp (b64_plus (b64_ofZ 1) (b64_div (b64_ofZ 1) gamma)).
Lemma cc_close : finite64 cc = true /\ Rabs (B2R64 cc - - (1 + / g)) <= 3 * eps * k /\ Rabs (1 + / g) <= k.
Proof.
  pose proof k_range as K. destruct (ofZ_exact 1 ltac:(lia)) as (F1 & E1). pose proof inv59_le as I59.
  assert (AI : Rabs (/ g) = k - 1) by (unfold k; rewrite Rabs_inv; lra).
  destruct (div_xval _ gamma F1 Fg g_nz) as (N & V). rewrite E1 in V. fold g in V.
  assert (T3 : 10 ^ 20 <= 10 ^ 300) by (apply Rle_pow; [lra|lia]). replace (1 / g) with (/ g) in V by lra.
  destruct (op_abs _ _ N V ltac:(rewrite AI; lra)) as (Fd & _ & Ad). rewrite AI in Ad. set (dd := b64_div (b64_ofZ 1) gamma) in *.
  assert (AD : Rabs (B2R64 dd) <= 11 / 10 * k).
  { pose proof (Rabs_triang (B2R64 dd - / g) (/ g)) as T. replace (B2R64 dd - / g + / g) with (B2R64 dd) in T by lra. unfold eps in Ad. lra. }
  destruct (plus_xval _ dd F1 Fd) as (N2 & V2). rewrite E1 in V2.
  assert (A1 : Rabs (1 + B2R64 dd) <= k + eps * k + / 10 ^ 59).
  { replace (1 + B2R64 dd) with (1 + / g + (B2R64 dd - / g)) by lra. eapply Rle_trans; [apply Rabs_triang|]. pose proof (Rabs_triang 1 (/ g)) as T. rewrite Rabs_R1, AI in T. unfold eps in *. lra. }
  destruct (op_abs _ _ N2 V2 ltac:(unfold eps in A1; lra)) as (Fc & _ & Ac). set (c := b64_plus (b64_ofZ 1) dd) in *.
  assert (Fcc : finite64 cc = true) by (unfold cc; fold dd; fold c; rewrite finite_opp; exact Fc).
  assert (Ecc : B2R64 cc = - B2R64 c) by (rewrite <- (xval_finite _ Fcc); unfold cc; fold dd; fold c; rewrite xval_opp, (xval_finite _ Fc); reflexivity).
  split; [exact Fcc|]. split.
  - rewrite Ecc. replace (- B2R64 c - - (1 + / g)) with (- ((B2R64 c - (1 + B2R64 dd)) + (B2R64 dd - / g))) by lra. rewrite Rabs_Ropp. eapply Rle_trans; [apply Rabs_triang|].
    assert (EK : eps * Rabs (1 + B2R64 dd) <= eps * (k + eps * k + / 10 ^ 59)) by (apply Rmult_le_compat_l; [left; apply eps_pos|exact A1]). unfold eps in *. lra.
  - pose proof (Rabs_triang 1 (/ g)) as T. rewrite Rabs_R1, AI in T. lra.
Qed.

Let xx := b64_div gamma sigma.
Let term (v : b64) := b64_mult cc (xlog (N := B64) musl_utils (b64_plus (b64_ofZ 1) (b64_mult xx v))).
Let rterm (v : b64) : R := - (1 + / g) * ln (1 + g * B2R64 v / s).

Lemma xx_close : finite64 xx = true /\ Rabs (B2R64 xx - g / s) <= eps * Rabs (g / s) /\ Rabs (g / s) <= 10 ^ 106.
Proof.
  pose proof s_pos as SP. pose proof g_nz as GN. destruct (div_xval gamma sigma Fg Fs ltac:(fold s; lra)) as (N & V). fold g s in V.
  assert (P100 : 0 < 10 ^ 100) by (apply pow_lt; lra). assert (IP : 0 < / s) by (apply Rinv_0_lt_compat; exact SP).
  assert (IS : / 10 ^ 100 <= / s <= 10 ^ 100). { split; [apply Rinv_le; lra|]. replace (10 ^ 100) with (/ / 10 ^ 100) by apply Rinv_inv. apply Rinv_le; [apply Rinv_0_lt_compat; exact P100|lra]. }
  assert (P1 : 0 < / 10 ^ 100) by (apply Rinv_0_lt_compat; exact P100). assert (P17 : 0 < / 10 ^ 17) by (apply Rinv_0_lt_compat, pow_lt; lra).
  assert (AB : Rabs (g / s) = Rabs g * / s) by (unfold Rdiv; rewrite Rabs_mult, (Rabs_pos_eq (/ s)) by lra; reflexivity).
  assert (U : Rabs (g / s) <= 10 ^ 106). { rewrite AB. apply Rle_trans with (10 ^ 6 * 10 ^ 100); [apply Rmult_le_compat; lra|]. rewrite <- pow_add. apply Rle_refl. }
  assert (L : bpow radix2 (-1022) <= Rabs (g / s)).
  { rewrite AB. apply Rle_trans with (/ 10 ^ 17 * / 10 ^ 100); [|apply Rmult_le_compat; lra]. rewrite <- Rinv_mult, <- pow_add. change (bpow radix2 (-1022)) with (/ IZR (2 ^ 1022)).
    apply Rinv_le; [apply pow_lt; lra|]. rewrite pow_IZR. apply IZR_le. vm_compute. discriminate. }
  assert (T3 : 10 ^ 106 <= 10 ^ 300) by (apply Rle_pow; [lra|lia]).
  destruct (op_abs _ _ N V ltac:(lra)) as (Fx & Rx & _). fold xx in Fx, Rx. split; [exact Fx|]. split; [|exact U]. rewrite Rx. apply rnd_rel. exact L.
Qed.

Lemma term_close v : In v w -> finite64 (term v) = true /\ Rabs (B2R64 (term v) - rterm v) <= 2 / 10 ^ 10 * k /\ Rabs (rterm v) <= 577 * k.
Proof.
  intros Hv. destruct (FW v Hv) as (Fv & Bv). specialize (HA v Hv). pose proof s_pos as SP. pose proof k_range as K. destruct cc_close as (Fc & Ac & Bc). destruct xx_close as (Fx & Ax & Bx).
  pose proof inv59_le as I59. pose proof inv59_pos as I59'. set (y := B2R64 v) in *. set (z := g * y / s) in *. assert (Ez : z = g / s * y) by (unfold z; field; lra).
  set (a := 1 + z) in *. assert (P5 : 0 < / 10 ^ 5) by (apply Rinv_0_lt_compat, pow_lt; lra).
  (* the product *)
  destruct (mult_xval xx v Fx Fv) as (N1 & V1). fold y in V1.
  assert (AZ : Rabs z = Rabs (g / s) * y) by (rewrite Ez, Rabs_mult, (Rabs_pos_eq y) by lra; reflexivity).
  assert (ZU : Rabs z <= 10 ^ 206). { rewrite AZ. apply Rle_trans with (10 ^ 106 * 10 ^ 100); [apply Rmult_le_compat; try lra; apply Rabs_pos|]. rewrite <- pow_add. apply Rle_refl. }
  assert (XY : Rabs (B2R64 xx * y - z) <= eps * Rabs z).
  { rewrite Ez. replace (B2R64 xx * y - g / s * y) with ((B2R64 xx - g / s) * y) by ring. rewrite Rabs_mult, (Rabs_pos_eq y) by lra. rewrite <- Ez, AZ.
    apply Rle_trans with (eps * Rabs (g / s) * y); [apply Rmult_le_compat_r; lra|lra]. }
  assert (XB : Rabs (B2R64 xx * y) <= (1 + eps) * Rabs z).
  { pose proof (Rabs_triang (B2R64 xx * y - z) z) as T. replace (B2R64 xx * y - z + z) with (B2R64 xx * y) in T by lra. lra. }
  assert (T3 : 10 * 10 ^ 206 <= 10 ^ 300). { rewrite !pow_IZR, <- mult_IZR. apply IZR_le. vm_compute. discriminate. }
  assert (T2 : 1 <= 10 ^ 206) by (apply pow_R1_Rle; lra). pose proof (Rabs_pos z) as Z0.
  destruct (op_abs _ _ N1 V1 ltac:(unfold eps in XB; lra)) as (Fp & _ & Ap). set (pr := b64_mult xx v) in *.
  assert (PZ : Rabs (B2R64 pr - z) <= 3 * eps * Rabs z + / 10 ^ 59).
  { replace (B2R64 pr - z) with ((B2R64 pr - B2R64 xx * y) + (B2R64 xx * y - z)) by lra. eapply Rle_trans; [apply Rabs_triang|]. unfold eps in *. lra. }
  (* one plus *)
  destruct (ofZ_exact 1 ltac:(lia)) as (F1 & E1). destruct (plus_xval _ pr F1 Fp) as (N2 & V2). rewrite E1 in V2.
  assert (ZA : Rabs z <= a + 1). { apply Rabs_le. unfold a. unfold a in HA. lra. }
  assert (OB : Rabs (1 + B2R64 pr - a) <= 3 * eps * Rabs z + / 10 ^ 59) by (unfold a; replace (1 + B2R64 pr - (1 + z)) with (B2R64 pr - z) by lra; exact PZ).
  assert (OU : Rabs (1 + B2R64 pr) <= 2 * a + 1).
  { pose proof (Rabs_triang (1 + B2R64 pr - a) a) as T. replace (1 + B2R64 pr - a + a) with (1 + B2R64 pr) in T by lra. rewrite (Rabs_pos_eq a) in T by lra. unfold eps in OB. lra. }
  assert (AU : a <= 2 * 10 ^ 206) by (unfold a; apply Rabs_le_inv in ZU; lra).
  destruct (op_abs _ _ N2 V2 ltac:(lra)) as (FA & _ & AA). set (A := b64_plus (b64_ofZ 1) pr) in *.
  assert (AC : Rabs (B2R64 A - a) <= 6 * eps * (a + 1)).
  { replace (B2R64 A - a) with ((B2R64 A - (1 + B2R64 pr)) + (1 + B2R64 pr - a)) by lra. eapply Rle_trans; [apply Rabs_triang|]. unfold eps in *. lra. }
  assert (NR : Nr A a (7 / 10 ^ 11)).
  { split; [exact FA|]. rewrite (Rabs_pos_eq a) by lra. apply Rle_trans with (1 := AC). unfold eps. lra. }
  destruct (ln_ratio _ _ _ NR ltac:(lra) ltac:(lra)) as (PA & LA).
  (* the logarithm *)
  destruct (xlog_abs A FA PA) as (Fl & Al). set (l := xlog (N := B64) musl_utils A) in *.
  assert (LB : Rabs (ln a) <= 576).
  { assert (/ 10 ^ 207 <= a <= 10 ^ 207).
    { split; [apply Rle_trans with (2 := HA); apply Rinv_le; [apply pow_lt; lra|apply Rle_pow; [lra|lia]]|]. apply Rle_trans with (1 := AU). rewrite !pow_IZR, <- mult_IZR. apply IZR_le. vm_compute. discriminate. }
    pose proof (ln_bound a 207 H) as X. replace (INR 207) with 207 in X by (rewrite INR_IZR_INZ; reflexivity). lra. }
  assert (LLA : Rabs (ln (B2R64 A)) <= 577).
  { pose proof (Rabs_triang (ln (B2R64 A) - ln a) (ln a)) as T. replace (ln (B2R64 A) - ln a + ln a) with (ln (B2R64 A)) in T by lra. lra. }
  assert (LE : Rabs (B2R64 l - ln a) <= 18 / 10 ^ 11).
  { replace (B2R64 l - ln a) with ((B2R64 l - ln (B2R64 A)) + (ln (B2R64 A) - ln a)) by lra. eapply Rle_trans; [apply Rabs_triang|]. lra. }
  assert (LU : Rabs (B2R64 l) <= 578) by (pose proof (Rabs_triang (B2R64 l - ln a) (ln a)) as T; replace (B2R64 l - ln a + ln a) with (B2R64 l) in T by lra; lra).
  (* the product with the exponent *)
  set (c0 := - (1 + / g)) in *. assert (C0 : Rabs c0 <= k) by (unfold c0; rewrite Rabs_Ropp; exact Bc).
  assert (CU : Rabs (B2R64 cc) <= 11 / 10 * k) by (pose proof (Rabs_triang (B2R64 cc - c0) c0) as T; replace (B2R64 cc - c0 + c0) with (B2R64 cc) in T by lra; unfold eps in Ac; lra).
  destruct (mult_xval cc l Fc Fl) as (N3 & V3).
  assert (CL : Rabs (B2R64 cc * B2R64 l) <= 11 / 10 * k * 578) by (rewrite Rabs_mult; apply Rmult_le_compat; try apply Rabs_pos; lra).
  assert (T4 : 10 ^ 24 <= 10 ^ 300) by (apply Rle_pow; [lra|lia]).
  destruct (op_abs _ _ N3 V3 ltac:(lra)) as (Ft & _ & At). split; [exact Ft|].
  change (b64_mult cc l) with (term v) in At, Ft. change (rterm v) with (c0 * ln a). split.
  - replace (B2R64 (term v) - c0 * ln a) with ((B2R64 (term v) - B2R64 cc * B2R64 l) + ((B2R64 cc - c0) * B2R64 l + c0 * (B2R64 l - ln a))) by ring.
    eapply Rle_trans; [apply Rabs_triang|]. eapply Rle_trans; [apply Rplus_le_compat_l, Rabs_triang|].
    assert (X1 : Rabs ((B2R64 cc - c0) * B2R64 l) <= 3 * eps * k * 578) by (rewrite Rabs_mult; apply Rmult_le_compat; try apply Rabs_pos; assumption).
    assert (X2 : Rabs (c0 * (B2R64 l - ln a)) <= k * (18 / 10 ^ 11)) by (rewrite Rabs_mult; apply Rmult_le_compat; try apply Rabs_pos; assumption).
    unfold eps in *. lra.
  - rewrite Rabs_mult. apply Rle_trans with (k * 576); [apply Rmult_le_compat; try apply Rabs_pos; assumption|lra].
Qed.

Lemma exact_shape : gpd_log_likelihood g s (map B2R64 w) = - n * ln s + rsumf rterm w.
Proof.
  pose proof s_pos as SP. unfold gpd_log_likelihood, n, rsumf. clear Hn. revert HA. pose proof g_nz as GN. clear - SP GN. induction w as [|v u IH]; intros HA.
  - cbn. lra.
  - cbn [map fold_right length]. rewrite IH by (intros z Hz; apply HA; right; exact Hz). rewrite Nat2Z.inj_succ, succ_IZR.
    unfold gpd_density. destruct (Req_EM_T g 0); [contradiction|]. unfold Rdiv at 1. specialize (HA v (or_introl eq_refl)). assert (P5 : 0 < / 10 ^ 5) by (apply Rinv_0_lt_compat, pow_lt; lra).
    rewrite ln_mult; [|apply exp_pos|apply Rinv_0_lt_compat; exact SP]. rewrite ln_Rinv by exact SP. unfold Rpower. rewrite ln_exp. unfold rterm. ring.
Qed.

Lemma shape_accuracy (e : b64) : finite64 (log_likelihood_of cm e w gamma sigma : b64) = true /\
  Rabs (B2R64 (log_likelihood_of cm e w gamma sigma : b64) - gpd_log_likelihood g s (map B2R64 w)) <= likelihood_error n g.
Proof.
  pose proof n_pos as NP. pose proof k_range as K. pose proof g_nz as GN. destruct first_close as (F1 & A1 & L1).
  unfold log_likelihood_of. replace (neq (n := B64) gamma (nofZ 0)) with false.
  2:{ symmetry. change (b64_eqb gamma (b64_ofZ 0) = false). rewrite eqb_xval, xval_zero, (xval_finite _ Fg) by (first [reflexivity|apply finite_not_nan; assumption]). apply Req_bool_false. exact GN. }
  cbv iota.
  set (Mx := 900 * n * k). set (dl := eps * Mx + / 10 ^ 59). pose proof inv59_le as I59. pose proof inv59_pos as I59'.
  assert (NK : n <= n * k) by (pose proof (Rmult_le_compat_l n 1 k ltac:(lra) ltac:(lra)); lra).
  assert (NK2 : n * k <= 3 * 10 ^ 29).
  { apply Rle_trans with (1099511627776 * (2 * 10 ^ 17)); [apply Rmult_le_compat; lra|lra]. }
  assert (DL : 0 <= dl <= 11 / 10 ^ 14 * (n * k)) by (unfold dl, Mx, eps; lra).
  assert (T4 : 10 ^ 40 <= 10 ^ 300) by (apply Rle_pow; [lra|lia]).
  destruct (fold_close term rterm (2 / 10 ^ 10 * k) (577 * k) dl Mx ltac:(lra) ltac:(lra) ltac:(lra) ltac:(unfold Mx; lra) ltac:(unfold dl; lra) w first (- n * ln s) (2 / 10 ^ 10 * n)) as (FF & AF).
  - intros v Hv. destruct (term_close v Hv) as (X & Y & Z). auto.
  - exact F1.
  - exact A1.
  - fold n. rewrite Rabs_mult, Rabs_Ropp, (Rabs_pos_eq n) by lra. assert (X : n * Rabs (ln s) <= n * 278) by (apply Rmult_le_compat_l; lra).
    assert (Y : n * dl <= n * k * (1 / 5)).
    { apply Rle_trans with (n * (11 / 10 ^ 14 * (n * k))); [apply Rmult_le_compat_l; lra|]. replace (n * (11 / 10 ^ 14 * (n * k))) with (n * (11 / 10 ^ 14) * (n * k)) by ring.
      rewrite Rmult_comm. apply Rmult_le_compat_l; lra. }
    unfold Mx. lra.
  - fold n in AF. split; [exact FF|]. rewrite exact_shape. eapply Rle_trans; [exact AF|]. unfold likelihood_error. fold k.
    assert (X : n * dl <= n * (11 / 10 ^ 14 * (n * k))) by (apply Rmult_le_compat_l; lra).
    assert (N2 : 0 <= n * (n * k)) by (apply Rmult_le_pos; lra).
    replace (n * k * (/ 10 ^ 9 + n * (2 / 10 ^ 13))) with (/ 10 ^ 9 * (n * k) + 2 / 10 ^ 13 * (n * (n * k))) by ring. lra.
Qed.
End Shape.

Section Exponential.
Variable e : b64.
Hypothesis G0 : g = 0.
Hypothesis Fe : finite64 e = true.
Hypothesis He : 0 <= B2R64 e <= 10 ^ 150.

Lemma exact_exponential : gpd_log_likelihood 0 s (map B2R64 w) = - n * ln s - fold_right Rplus 0 (map B2R64 w) / s.
Proof.
  pose proof s_pos as SP. unfold gpd_log_likelihood, n. clear - SP. induction w as [|v u IH].
  - cbn. lra.
  - cbn [map fold_right length]. rewrite IH, Nat2Z.inj_succ, succ_IZR. unfold gpd_density. destruct (Req_EM_T 0 0); [|lra]. unfold Rdiv at 1.
    rewrite ln_mult; [|apply exp_pos|apply Rinv_0_lt_compat; exact SP]. rewrite ln_Rinv by exact SP. rewrite ln_exp. field. lra.
Qed.

Lemma exponential_accuracy : finite64 (log_likelihood_of cm e w gamma sigma : b64) = true /\
  Rabs (B2R64 (log_likelihood_of cm e w gamma sigma : b64) - gpd_log_likelihood 0 s (map B2R64 w)) <=
    n / 10 ^ 9 + (4 / 10 ^ 16 * B2R64 e + Rabs (B2R64 e - fold_right Rplus 0 (map B2R64 w))) / s.
Proof.
  pose proof n_pos as NP. pose proof s_pos as SP. destruct first_close as (F1 & A1 & L1). pose proof inv59_le as I59. pose proof inv59_pos as I59'.
  unfold log_likelihood_of. replace (neq (n := B64) gamma (nofZ 0)) with true.
  2:{ symmetry. change (b64_eqb gamma (b64_ofZ 0) = true). rewrite eqb_xval, xval_zero, (xval_finite _ Fg) by (first [reflexivity|apply finite_not_nan; assumption]). apply Req_bool_true. exact G0. }
  cbv iota. set (L := nsub _ _). assert (IP : 0 < / s) by (apply Rinv_0_lt_compat; exact SP).
  destruct (div_xval e sigma Fe Fs ltac:(fold s; lra)) as (N & V). fold s in V. set (E := B2R64 e) in *.
  assert (P100 : 0 < 10 ^ 100) by (apply pow_lt; lra).
  assert (IS : / s <= 10 ^ 100). { replace (10 ^ 100) with (/ / 10 ^ 100) by apply Rinv_inv. apply Rinv_le; [apply Rinv_0_lt_compat; exact P100|lra]. }
  assert (Q : 0 <= E / s <= 10 ^ 250). { unfold Rdiv. split; [apply Rmult_le_pos; lra|]. replace (10 ^ 250) with (10 ^ 150 * 10 ^ 100) by (rewrite <- pow_add; reflexivity). apply Rmult_le_compat; lra. }
  assert (T3 : 10 * 10 ^ 250 <= 10 ^ 300). { rewrite !pow_IZR, <- mult_IZR. apply IZR_le. vm_compute. discriminate. }
  assert (T2 : 10 ^ 40 <= 10 ^ 250) by (apply Rle_pow; [lra|lia]).
  destruct (op_abs _ _ N V ltac:(rewrite Rabs_pos_eq; lra)) as (Fd & _ & Ad). rewrite (Rabs_pos_eq (E / s)) in Ad by lra. set (dd := b64_div e sigma) in *.
  destruct (minus_xval first dd F1 Fd) as (N2 & V2).
  assert (FB : Rabs (B2R64 first) <= 279 * n).
  { pose proof (Rabs_triang (B2R64 first - - n * ln s) (- n * ln s)) as T. replace (B2R64 first - - n * ln s + - n * ln s) with (B2R64 first) in T by lra.
    rewrite (Rabs_mult (- n)), Rabs_Ropp, (Rabs_pos_eq n) in T by lra. assert (n * Rabs (ln s) <= n * 278) by (apply Rmult_le_compat_l; lra). lra. }
  assert (DB : Rabs (B2R64 dd) <= E / s + eps * (E / s) + / 10 ^ 59).
  { pose proof (Rabs_triang (B2R64 dd - E / s) (E / s)) as T. replace (B2R64 dd - E / s + E / s) with (B2R64 dd) in T by lra. rewrite (Rabs_pos_eq (E / s)) in T by lra. lra. }
  assert (SB : Rabs (B2R64 first - B2R64 dd) <= 279 * n + (E / s + eps * (E / s) + / 10 ^ 59)) by (unfold Rminus; eapply Rle_trans; [apply Rabs_triang|]; rewrite Rabs_Ropp; lra).
  destruct (op_abs _ _ N2 V2 ltac:(unfold eps in SB; lra)) as (FL & _ & AL). change (b64_minus first dd) with L in FL, AL. split; [exact FL|]. rewrite exact_exponential.
  set (S := fold_right Rplus 0 (map B2R64 w)).
  assert (HS : Rabs (E / s - S / s) = Rabs (E - S) / s) by (replace (E / s - S / s) with ((E - S) * / s) by (unfold Rdiv; ring); rewrite Rabs_mult, (Rabs_pos_eq (/ s)) by lra; reflexivity).
  replace (B2R64 (L : b64) - (- n * ln s - S / s)) with ((B2R64 L - (B2R64 first - B2R64 dd)) + ((B2R64 first - - n * ln s) + (- (B2R64 dd - E / s) + - (E / s - S / s)))) by ring.
  eapply Rle_trans; [apply Rabs_triang|]. eapply Rle_trans; [apply Rplus_le_compat_l, Rabs_triang|]. eapply Rle_trans; [apply Rplus_le_compat_l, Rplus_le_compat_l, Rabs_triang|].
  rewrite !Rabs_Ropp, HS. replace ((4 / 10 ^ 16 * E + Rabs (E - S)) / s) with (4 / 10 ^ 16 * (E / s) + Rabs (E - S) / s) by (unfold Rdiv; ring).
  assert (EK : eps * Rabs (B2R64 first - B2R64 dd) <= eps * (279 * n + (E / s + eps * (E / s) + / 10 ^ 59))) by (apply Rmult_le_compat_l; [left; apply eps_pos|exact SB]).
  unfold eps in *. lra.
Qed.
End Exponential.
End Acc.
