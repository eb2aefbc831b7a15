(** * BenchLog: lemmas on the logarithm of the benchmarks (C74) *)
From Coq Require Import ZArith List Bool Reals Lra Lia Psatz.
From Flocq Require Import Core.Core IEEE754.BinarySingleNaN.
From Verif Require Import Num XMath B64 RNum B64Facts FloatErr FloatUtilsLemmas LogExact LogB64 LogB64Up LogAcc Bench BenchBits.
Open Scope R_scope.

(** ** One to two *)
Lemma lrat_opp w : lrat (- w) = - lrat w.
Proof. unfold lrat. replace (- w * - w) with (w * w) by ring. unfold Rdiv. ring. Qed.
Lemma warg_inv z : 0 < z -> warg (/ z) = - warg z.
Proof. intros H. unfold warg. field. split; lra. Qed.

Lemma cf_up_rel z : 1 <= z <= 2 -> - (26 / 10 ^ 18 * ln z) <= lrat (warg z) - ln z <= 0.
Proof.
  intros H. assert (I : 1 / 2 <= / z <= 1).
  { split; [replace (1 / 2) with (/ 2) by lra|rewrite <- Rinv_1]; apply Rinv_le_contravar; lra. }
  destruct (cf_half_rel (/ z) I) as (A & B). rewrite warg_inv, lrat_opp, ln_Rinv in A, B by lra. lra.
Qed.
Lemma ln_pos_1 z : 1 <= z -> 0 <= ln z.
Proof. intros H. destruct (Req_dec z 1) as [->|]; [rewrite ln_1; lra|]. rewrite <- ln_1. left. apply ln_increasing; lra. Qed.

Lemma above_one (z : b64) : finite64 z = true -> 1 < B2R64 z < 2 -> 1 + eps <= B2R64 z.
Proof.
  intros F H. pose proof (generic_format_B2R 53 1024 z) as G.
  assert (M : mag radix2 (B2R64 z) = 1%Z :> Z).
  { apply mag_unique. rewrite Rabs_pos_eq by lra. simpl. lra. }
  unfold generic_format, F2R, cexp in G. rewrite M in G. cbn [Fnum Fexp] in G. change (fexp64 1) with (-52)%Z in G.
  set (k := Ztrunc _) in G. rewrite G in H |- *.
  assert (B : bpow radix2 (-52) = 2 * eps) by (unfold eps; simpl; lra). rewrite B in *.
  assert (K : (2 ^ 52 < k)%Z).
  { apply lt_IZR. replace (IZR (2 ^ 52)) with (1 / (2 * eps)) by (unfold eps; simpl; lra).
    apply Rmult_lt_reg_r with (2 * eps); [pose proof eps_pos; lra|]. unfold Rdiv. rewrite Rmult_1_l, Rinv_l by (pose proof eps_pos; lra). lra. }
  assert (K1 : (2 ^ 52 + 1 <= k)%Z) by lia. apply IZR_le in K1. rewrite plus_IZR in K1.
  replace (IZR (2 ^ 52)) with (1 / (2 * eps)) in K1 by (unfold eps; simpl; lra).
  apply Rle_trans with ((1 / (2 * eps) + 1) * (2 * eps)); [|apply Rmult_le_compat_r; [pose proof eps_pos; lra|assumption]].
  replace ((1 / (2 * eps) + 1) * (2 * eps)) with (1 + 2 * eps) by (field; pose proof eps_pos; lra).
  pose proof eps_pos. lra.
Qed.

Lemma cf_b64_up (z : b64) : finite64 z = true -> 1 <= B2R64 z < 2 ->
  finite64 (log_cf_11 (N := B64) z) = true /\
  Rabs (B2R64 (log_cf_11 (N := B64) z) - ln (B2R64 z)) <= 8 / 10 ^ 16 * ln (B2R64 z).
Proof.
  intros F H. destruct (Req_dec (B2R64 z) 1) as [E1|NE].
  - assert (Ez : z = b64_ofZ 1).
    { apply B2R_Bsign_inj; [assumption|reflexivity| |].
      - rewrite E1. symmetry. apply ofZ_exact. vm_compute. discriminate.
      - destruct (Bsign z) eqn:S; [|reflexivity]. pose proof (Bsign_neg z F S). lra. }
    subst z. assert (S : B2SF (log_cf_11 (N := B64) (b64_ofZ 1) : b64) = SpecFloat.S754_zero false) by (vm_compute; reflexivity).
    rewrite E1, ln_1. set (v := log_cf_11 (N := B64) (b64_ofZ 1)) in *. clearbody v.
    destruct v as [s|s| |s m e X]; try discriminate. split; [reflexivity|]. cbn [B2R]. rewrite Rminus_0_r, Rabs_R0. lra.
  - pose proof (above_one z F ltac:(lra)) as H1.
    destruct (U_result z F H1 ltac:(lra)) as ((Fv & Nv) & E).
    rewrite log_cf_exact in E by lra. injection E as E. rewrite <- E in Nv.
    split; [exact Fv|].
    destruct (cf_up_rel (B2R64 z) ltac:(lra)) as (C1 & C2). pose proof (ln_pos_1 (B2R64 z) ltac:(lra)) as L0.
    set (l := ln (B2R64 z)) in *. set (r := lrat (warg (B2R64 z))) in *.
    assert (R0 : 0 <= r <= l) by lra. rewrite (Rabs_pos_eq r) in Nv by lra.
    replace (B2R64 (log_cf_11 (N := B64) z) - l) with ((B2R64 (log_cf_11 (N := B64) z) - r) + (r - l)) by lra.
    eapply Rle_trans; [apply Rabs_triang|]. rewrite (Rabs_left1 (r - l)) by lra.
    eapply Rle_trans; [apply Rplus_le_compat_r; exact Nv|].
    unfold eps in *. lra.
Qed.

(** ** Adding the multiple of ln 2 *)
Lemma bench_log_sum (c : b64) (ly : R) (f : Z) : finite64 c = true -> 0 <= ly <= ln 2 -> Rabs (B2R64 c - ly) <= 8 / 10 ^ 16 * ly ->
  (f <= -2 \/ 1 <= f)%Z -> (Z.abs f <= 1100)%Z ->
  let v := b64_plus c (b64_mult (b64_minus (b64_ofZ (f + 1023)) (b64_ofZ 1023)) (LOG2 (N := B64))) in
  finite64 v = true /\ Rabs (B2R64 v - (ly + IZR f * ln 2)) <= 15 / 10 ^ 16 * Rabs (ly + IZR f * ln 2).
Proof.
  intros Fc Ly Ac Hf0 Hf1. cbv zeta. pose proof ln2_bounds as L2. assert (Hf : (f <= -2 \/ 1 <= f)%Z /\ (Z.abs f <= 1100)%Z) by lia.
  (* the exponent is exact *)
  assert (Nf : Nr (b64_minus (b64_ofZ (f + 1023)) (b64_ofZ 1023)) (IZR f) 0).
  { destruct (ofZ_exact (f + 1023) ltac:(lia)) as (F1 & V1). destruct (ofZ_exact 1023 ltac:(lia)) as (F2 & V2). destruct (ofZ_exact f ltac:(lia)) as (_ & V3).
    destruct (minus_xval (b64_ofZ (f + 1023)) (b64_ofZ 1023) F1 F2) as (Nn & Ex).
    rewrite V1, V2, <- minus_IZR in Ex. replace (f + 1023 - 1023)%Z with f in Ex by (lia).
    assert (Rf : rnd (IZR f) = IZR f).
    { rewrite <- V3. apply round_generic; [apply valid_rnd_N|apply generic_format_B2R]. }
    assert (Tf : Rabs (rnd (IZR f)) < TOP).
    { rewrite Rf, <- abs_IZR. apply Rle_lt_trans with (IZR 1100); [apply IZR_le; lia|]. pose proof bpow_1024. lra. }
    unfold rndc in Ex. rewrite clamp_id in Ex by lra. rewrite Rf in *.
    assert (Fs : finite64 (b64_minus (b64_ofZ (f + 1023)) (b64_ofZ 1023)) = true) by (apply finite_of_xval; [assumption|rewrite Ex; assumption]).
    rewrite xval_finite in Ex by assumption. split; [exact Fs|]. rewrite Ex, Rminus_eq_0, Rabs_R0. lra. }
  assert (He : 1 <= Rabs (IZR f) <= 2000).
  { rewrite <- abs_IZR. split; apply IZR_le; lia. }
  assert (Np : Nr (b64_mult (b64_minus (b64_ofZ (f + 1023)) (b64_ofZ 1023)) (LOG2 (N := B64))) (IZR f * ln 2) (16 / 10 * eps)).
  { apply (Nr_mult _ _ _ _ 0 (eps / 2) _ Nf log2_b64); try (unfold eps; lra).
    unfold mid. rewrite Rabs_mult, (Rabs_pos_eq (ln 2)) by lra. split.
    - apply Rle_trans with (1 / 2); [lra|]. nra.
    - apply Rle_trans with (2000 * 1); [|lra]. apply Rmult_le_compat; lra. }
  destruct Np as (Fp & Ap). set (p := b64_mult _ (LOG2 (N := B64))) in *. clearbody p. clear Nf.
  rewrite Rabs_mult, (Rabs_pos_eq (ln 2)) in Ap by lra.
  (* size of the sum *)
  assert (Sz : Rabs (IZR f) * ln 2 <= 2 * Rabs (ly + IZR f * ln 2) /\ ly <= Rabs (ly + IZR f * ln 2) /\
               8 / 10 ^ 16 * ly + 16 / 10 * eps * (Rabs (IZR f) * ln 2) <= 12 / 10 ^ 16 * Rabs (ly + IZR f * ln 2) /\ 1 / 2 <= Rabs (ly + IZR f * ln 2)).
  { destruct Hf as ([N|P] & _).
    - assert (Q : IZR f <= -2) by (apply IZR_le; assumption). set (g := IZR f) in *. clearbody g.
      rewrite (Rabs_left1 g) by lra. rewrite (Rabs_left1 (ly + g * ln 2)) by nra.
      assert (G : 2 * ln 2 <= - g * ln 2) by nra. set (h := - g * ln 2) in *.
      replace (- (ly + g * ln 2)) with (h - ly) by (unfold h; ring). unfold eps. repeat split; lra.
    - assert (Q : 1 <= IZR f) by (apply IZR_le; assumption). set (g := IZR f) in *. clearbody g.
      rewrite (Rabs_pos_eq g) by lra. assert (G : ln 2 <= g * ln 2) by nra. set (h := g * ln 2) in *.
      rewrite (Rabs_pos_eq (ly + h)) by lra. unfold eps. repeat split; lra. }
  destruct Sz as (S1 & S2 & S3 & S4).
  set (l := ly + IZR f * ln 2) in *.
  destruct (plus_xval c p Fc Fp) as (Ns & Es). set (t := B2R64 c + B2R64 p) in *.
  assert (Ht : Rabs (t - l) <= 12 / 10 ^ 16 * Rabs l).
  { unfold t, l. replace (B2R64 c + B2R64 p - (ly + IZR f * ln 2)) with ((B2R64 c - ly) + (B2R64 p - IZR f * ln 2)) by ring.
    eapply Rle_trans; [apply Rabs_triang|]. fold l. lra. }
  assert (Hl : Rabs l <= 2000).
  { unfold l. eapply Rle_trans; [apply Rabs_triang|]. rewrite (Rabs_pos_eq ly), Rabs_mult, (Rabs_pos_eq (ln 2)) by lra.
    assert (Rabs (IZR f) * ln 2 <= 2000 * (7 / 10)) by (apply Rmult_le_compat; lra). lra. }
  assert (Ht2 : Rabs t <= Rabs l + 12 / 10 ^ 16 * Rabs l).
  { pose proof (Rabs_triang (t - l) l) as T. replace (t - l + l) with t in T by lra. lra. }
  pose proof (rnd_abs t) as Rt.
  assert (Hr : Rabs (rnd t - l) <= 15 / 10 ^ 16 * Rabs l).
  { replace (rnd t - l) with ((rnd t - t) + (t - l)) by lra.
    eapply Rle_trans; [apply Rabs_triang|]. unfold eps in Rt. lra. }
  assert (Fs : Rabs (rnd t) < TOP).
  { pose proof (Rabs_triang (rnd t - l) l) as T. replace (rnd t - l + l) with (rnd t) in T by lra.
    pose proof bpow_1024. lra. }
  unfold rndc in Es. rewrite clamp_id in Es by lra.
  assert (Fr : finite64 (b64_plus c p) = true) by (apply finite_of_xval; [assumption|rewrite Es; assumption]).
  rewrite xval_finite in Es by assumption.
  split; [exact Fr|]. rewrite Es. exact Hr.
Qed.

(** ** Every positive normal double *)
Lemma bench_log_accuracy (x : b64) : finite64 x = true -> bpow radix2 (-1022) <= B2R64 x ->
  let v := bench_log (log_cf_11 (N := B64)) x in
  finite64 v = true /\ Rabs (B2R64 v - ln (B2R64 x)) <= 15 / 10 ^ 16 * Rabs (ln (B2R64 x)).
Proof.
  intros F L. pose proof (bpow_gt_0 radix2 (-1022)) as B0. cbv zeta.
  destruct (normal_shape x F) as (s & m & e & H & -> & Hm). { rewrite Rabs_pos_eq by lra. exact L. }
  pose proof (bounded_inv m e H) as (H1 & H2 & _). pose proof (mant_range m ltac:(lia)) as Rm.
  pose proof (bpow_gt_0 radix2 e) as Be.
  assert (s = false) as ->.
  { destruct s; [|reflexivity]. rewrite normal_value in L. pose proof (bpow_gt_0 radix2 52). nra. }
  assert (Vx : B2R64 (B754_finite false m e H) = IZR (Zpos m) * bpow radix2 e) by (rewrite normal_value; ring).
  unfold bench_log. rewrite (expo_normal false m e H Hm).
  destruct (Z.eqb_spec (e + 1075) 1022) as [E1|N1].
  { cbn [orb]. assert (e = (-53)%Z) as -> by lia.
    assert (HX : 1 / 2 <= B2R64 (B754_finite false m (-53) H) < 1).
    { rewrite Vx.
      assert (Q1 : bpow radix2 52 * bpow radix2 (-53) = 1 / 2) by (rewrite <- bpow_plus; simpl; lra).
      assert (Q2 : bpow radix2 53 * bpow radix2 (-53) = 1) by (rewrite <- bpow_plus; simpl; lra). nra. }
    destruct (cf_b64_half _ F HX) as (Fv & Av). split; [exact Fv|]. eapply Rle_trans; [exact Av|].
    apply Rmult_le_compat_r; [apply Rabs_pos|lra]. }
  destruct (Z.eqb_spec (e + 1075) 1023) as [E2|N2].
  { cbn [orb]. assert (e = (-52)%Z) as -> by lia.
    assert (HX : 1 <= B2R64 (B754_finite false m (-52) H) < 2).
    { rewrite Vx. assert (Q1 : bpow radix2 52 * bpow radix2 (-52) = 1) by (rewrite <- bpow_plus; simpl; lra).
      assert (Q2 : bpow radix2 53 * bpow radix2 (-52) = 2) by (rewrite <- bpow_plus; simpl; lra). nra. }
    destruct (cf_b64_up _ F HX) as (Fv & Av). split; [exact Fv|]. pose proof (ln_pos_1 _ (proj1 HX)) as P0. rewrite (Rabs_pos_eq (ln _)) by assumption.
    eapply Rle_trans; [exact Av|]. apply Rmult_le_compat_r; [assumption|lra]. }
  cbn [orb].
  destruct (set_exp_normal false m e H 1023 Hm ltac:(lia)) as (H' & Ey). rewrite Ey. clear Ey.
  change (1023 - 1075)%Z with (-52)%Z in H'. change (1023 - 1075)%Z with (-52)%Z.
  set (y := B754_finite false m (-52) H' : b64).
  assert (Vy : B2R64 y = IZR (Zpos m) * bpow radix2 (-52)) by (unfold y; rewrite normal_value; ring).
  assert (HX : 1 <= B2R64 y < 2).
  { rewrite Vy. assert (Q1 : bpow radix2 52 * bpow radix2 (-52) = 1) by (rewrite <- bpow_plus; simpl; lra).
    assert (Q2 : bpow radix2 53 * bpow radix2 (-52) = 2) by (rewrite <- bpow_plus; simpl; lra). pose proof (bpow_gt_0 radix2 (-52)). nra. }
  set (f := (e + 52)%Z).
  assert (Hf : (f <= -2 \/ 1 <= f)%Z /\ (Z.abs f <= 1100)%Z) by (unfold f; lia).
  assert (Vxy : B2R64 (B754_finite false m e H) = B2R64 y * bpow radix2 f).
  { rewrite Vx, Vy, Rmult_assoc, <- bpow_plus. f_equal. f_equal. unfold f. lia. }
  destruct (cf_b64_up y eq_refl HX) as (Fc & Ac).
  assert (Lx : ln (B2R64 (B754_finite false m e H)) = ln (B2R64 y) + IZR f * ln 2).
  { rewrite Vxy, ln_mult by (try apply bpow_gt_0; lra). f_equal. rewrite bpow_powerRZ. change (IZR radix2) with 2.
    rewrite powerRZ_Rpower by lra. apply ln_exp. }
  rewrite Lx.
  assert (Ly : 0 <= ln (B2R64 y) <= ln 2).
  { split; [apply ln_pos_1; lra|]. left. apply ln_increasing; lra. }
  replace (e + 1075)%Z with (f + 1023)%Z by (unfold f; lia).
  apply (bench_log_sum (log_cf_11 (N := B64) y) (ln (B2R64 y)) f Fc Ly Ac); apply Hf.
Qed.

(** ** The library's logarithm has no such bound *)
Lemma library_log_not_benchmarked :
  ~ (forall x : b64, finite64 x = true -> bpow radix2 (-1022) <= B2R64 x ->
       Rabs (B2R64 (xlog (N := B64) musl_utils x) - ln (B2R64 x)) <= 48 / 100 * Rabs (ln (B2R64 x))).
Proof.
  intros H. destruct just_above_one_refuted as (x & F & V & L). specialize (H x F).
  assert (0 < / 2 ^ 52) by (apply Rinv_0_lt_compat; lra).
  assert (B : bpow radix2 (-1022) <= B2R64 x).
  { apply Rle_trans with (bpow radix2 0); [apply bpow_le; lia|]. change (bpow radix2 0) with 1. change (B2R64 x) with (B2R x). rewrite V. lra. }
  specialize (H B). assert (P : 0 < Rabs (ln (B2R64 x))).
  { apply Rabs_pos_lt. rewrite <- ln_1. intros E. apply ln_inv in E; change (B2R64 x) with (B2R x) in *; rewrite ?V in *; lra. }
  change (B2R64 x) with (B2R x) in *. lra.
Qed.
