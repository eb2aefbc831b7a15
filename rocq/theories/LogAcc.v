(** * Lemmas: accuracy of xlog (C29) *)
From Coq Require Import ZArith List Bool Reals Lra Lia Psatz.
From Flocq Require Import Core.Core IEEE754.BinarySingleNaN.
From Coquelicot Require Import Coquelicot.
From Verif Require Import Num XMath B64 RNum B64Facts FloatErr FloatUtilsLemmas LogExact LogB64.
Open Scope R_scope.

(** ** Special values *)
Lemma xlog_nan_or_negative (fu : FloatUtils B64) (x : b64) : nan64 x = true \/ b64_ltb x (b64_ofZ 0) = true -> xlog (N := B64) fu x = (B754_nan : num B64).
Proof.
  intros H. unfold xlog. rewrite is_nan_b64.
  change (@nlt B64 x (nofZ 0)) with (b64_ltb x (b64_ofZ 0)). destruct H as [H|H]; rewrite H.
  - rewrite orb_true_r. apply c_nan_b64.
  - cbn [orb]. apply c_nan_b64.
Qed.
Lemma xlog_zero (fu : FloatUtils B64) (s : bool) : xlog (N := B64) fu (B754_zero s : num B64) = (B754_infinity true : num B64).
Proof. destruct s; apply B2SF_inj; vm_compute; reflexivity. Qed.
Lemma xlog_infinity : xlog (N := B64) musl_utils (B754_infinity false : num B64) = (B754_nan : num B64).
Proof. apply B2SF_inj. vm_compute. reflexivity. Qed.

(** ** One half to one *)
Lemma below_one (z : b64) : finite64 z = true -> 1 / 2 <= B2R64 z < 1 -> B2R64 z <= 1 - eps.
Proof.
  intros F H. pose proof (generic_format_B2R 53 1024 z) as G.
  assert (M : mag radix2 (B2R64 z) = 0%Z :> Z).
  { apply mag_unique. rewrite Rabs_pos_eq by lra. simpl. lra. }
  unfold generic_format, F2R, cexp in G. rewrite M in G. cbn [Fnum Fexp] in G. change (fexp64 0) with (-53)%Z in G.
  set (k := Ztrunc _) in G. rewrite G in H |- *.
  assert (B : bpow radix2 (-53) = eps) by (unfold eps; simpl; lra). rewrite B in *.
  assert (K : (k < 2 ^ 53)%Z).
  { apply lt_IZR. replace (IZR (2 ^ 53)) with (1 / eps) by (unfold eps; simpl; lra).
    apply Rmult_lt_reg_r with eps; [apply eps_pos|]. unfold Rdiv. rewrite Rmult_1_l, Rinv_l by (pose proof eps_pos; lra). lra. }
  assert (K1 : (k <= 2 ^ 53 - 1)%Z) by lia. apply IZR_le in K1. rewrite minus_IZR in K1.
  replace (IZR (2 ^ 53)) with (1 / eps) in K1 by (unfold eps; simpl; lra).
  apply Rle_trans with ((1 / eps - 1) * eps); [apply Rmult_le_compat_r; [left; apply eps_pos|assumption]|].
  right. field. pose proof eps_pos. lra.
Qed.

Lemma atanh_low w : -1 < w <= 0 -> ln ((1 + w) / (1 - w)) <= 2 * w.
Proof.
  intros H. assert (G : 2 * 0 - ln ((1 + 0) / (1 - 0)) <= 2 * w - ln ((1 + w) / (1 - w))).
  { apply (decreasing (fun w => 2 * w - ln ((1 + w) / (1 - w))) (fun w => - 2 * (w * w) / (1 - w * w))); [lra| |].
    - intros x Hx. auto_derive.
      + repeat split; try lra. apply Rdiv_lt_0_compat; lra.
      + field. repeat split; try lra; nra.
    - intros x Hx. assert (0 <= x * x < 1) by nra.
      assert (0 <= 2 * (x * x) / (1 - x * x)) by (apply Rmult_le_pos; [lra|left; apply Rinv_0_lt_compat; lra]).
      unfold Rdiv in *. lra. }
  replace ((1 + 0) / (1 - 0)) with 1 in G by field. rewrite ln_1 in G. lra.
Qed.

Lemma lrat_nonpos w : -1 < w <= 0 -> lrat w <= 0.
Proof.
  intros H. assert (Hu : 0 <= w * w < 1) by nra. pose proof (q1_0 _ Hu). pose proof (q2_0 _ Hu).
  assert (0 <= 2 * - w * q2 (w * w) / q1 (w * w)).
  { apply Rmult_le_pos; [apply Rmult_le_pos; lra|]. left. apply Rinv_0_lt_compat. assumption. }
  unfold lrat. unfold Rdiv in *. lra.
Qed.

Lemma warg_range z : 1 / 4 <= z <= 1 -> - (3 / 5) <= warg z <= 0.
Proof.
  intros H. unfold warg. split; apply Rmult_le_reg_r with (z + 1); try lra;
    unfold Rdiv; rewrite Rmult_assoc, Rinv_l by lra; lra.
Qed.
Lemma warg_range_half z : 1 / 2 <= z <= 1 -> - (1 / 3) <= warg z <= 0.
Proof.
  intros H. unfold warg. split; apply Rmult_le_reg_r with (z + 1); try lra;
    unfold Rdiv; rewrite Rmult_assoc, Rinv_l by lra; lra.
Qed.

(** relative accuracy on [1/2, 1) *)
Lemma cf_half_rel z : 1 / 2 <= z <= 1 -> 0 <= lrat (warg z) - ln z <= 26 / 10 ^ 18 * - ln z.
Proof.
  intros H. destruct (cf_third z H) as ((A & _) & B). split; [exact A|].
  pose proof (warg_range_half z H) as W. pose proof (atanh_low (warg z) ltac:(lra)) as L. rewrite warg_ln in L by lra.
  eapply Rle_trans; [exact B|].
  replace ((- warg z) ^ 23) with ((- warg z) ^ 22 * - warg z) by ring.
  pose proof (pow_le_r (- warg z) (1 / 3) 22 ltac:(lra)) as P.
  assert (P0 : 0 <= (- warg z) ^ 22) by (apply pow_le; lra).
  assert (X : (- warg z) ^ 22 * - warg z <= (1 / 3) ^ 22 * (- ln z / 2)) by (apply Rmult_le_compat; lra).
  apply Rle_trans with (16 / 10 ^ 7 * ((1 / 3) ^ 22 * (- ln z / 2))); [apply Rmult_le_compat_l; lra|].
  assert (0 <= - ln z) by lra.
  replace (16 / 10 ^ 7 * ((1 / 3) ^ 22 * (- ln z / 2))) with ((16 / 10 ^ 7 * (1 / 3) ^ 22 / 2) * (- ln z)) by field.
  apply Rmult_le_compat_r; [assumption|]. lra.
Qed.

Lemma cf_b64_half (z : b64) : finite64 z = true -> 1 / 2 <= B2R64 z < 1 ->
  finite64 (log_cf_11 (N := B64) z) = true /\
  Rabs (B2R64 (log_cf_11 (N := B64) z) - ln (B2R64 z)) <= 8 / 10 ^ 16 * Rabs (ln (B2R64 z)).
Proof.
  intros F H. pose proof (below_one z F H) as H1.
  destruct (A_result z F ltac:(lra) H1) as ((Fv & Nv) & E).
  rewrite log_cf_exact in E by lra. injection E as E. rewrite <- E in Nv.
  split; [exact Fv|].
  destruct (cf_half_rel (B2R64 z) ltac:(lra)) as (C1 & C2).
  pose proof (warg_range_half (B2R64 z) ltac:(lra)) as W. pose proof (lrat_nonpos (warg (B2R64 z)) ltac:(lra)) as L.
  set (l := ln (B2R64 z)) in *. set (r := lrat (warg (B2R64 z))) in *.
  rewrite (Rabs_left1 r) in Nv by assumption. rewrite (Rabs_left1 l) by lra.
  replace (B2R64 (log_cf_11 (N := B64) z) - l) with ((B2R64 (log_cf_11 (N := B64) z) - r) + (r - l)) by lra.
  eapply Rle_trans; [apply Rabs_triang|]. rewrite (Rabs_pos_eq (r - l)) by lra.
  eapply Rle_trans; [apply Rplus_le_compat; [exact Nv|exact C2]|].
  unfold eps in *. lra.
Qed.

Lemma cf_b64_quarter (z : b64) : finite64 z = true -> 1 / 4 <= B2R64 z < 1 / 2 ->
  finite64 (log_cf_11 (N := B64) z) = true /\
  Rabs (B2R64 (log_cf_11 (N := B64) z) - ln (B2R64 z)) <= 1 / 10 ^ 10.
Proof.
  intros F H.
  destruct (B_result z F ltac:(lra)) as ((Fv & Nv) & E). { unfold eps. lra. }
  rewrite log_cf_exact in E by lra. injection E as E. rewrite <- E in Nv.
  split; [exact Fv|].
  pose proof (cf_three_fifths (B2R64 z) ltac:(lra)) as (C1 & C2).
  pose proof (warg_range (B2R64 z) ltac:(lra)) as W. pose proof (lrat_nonpos (warg (B2R64 z)) ltac:(lra)) as L.
  assert (L4 : - 2 <= ln (B2R64 z)).
  { apply Rle_trans with (ln (1 / 4)).
    - replace (1 / 4) with (/ (2 * 2)) by lra. rewrite ln_Rinv, ln_mult by lra. pose proof ln2_bounds. lra.
    - destruct (Req_dec (1 / 4) (B2R64 z)) as [<-|]; [lra|]. left. apply ln_increasing; lra. }
  set (l := ln (B2R64 z)) in *. set (r := lrat (warg (B2R64 z))) in *.
  rewrite (Rabs_left1 r) in Nv by assumption.
  replace (B2R64 (log_cf_11 (N := B64) z) - l) with ((B2R64 (log_cf_11 (N := B64) z) - r) + (r - l)) by lra.
  eapply Rle_trans; [apply Rabs_triang|]. rewrite (Rabs_pos_eq (r - l)) by lra.
  unfold eps in *. lra.
Qed.

(** ** Every positive double *)
Lemma rnd_abs t : Rabs (rnd t - t) <= eps * Rabs t + / 10 ^ 59.
Proof.
  assert (P : 0 < / 10 ^ 60) by (apply Rinv_0_lt_compat, pow_lt; lra).
  destruct (Rle_lt_dec (bpow radix2 (-1022)) (Rabs t)) as [H|H].
  - pose proof (rnd_rel t H). lra.
  - assert (G : generic_format radix2 fexp64 (bpow radix2 (-1022))) by (apply generic_format_bpow; vm_compute; discriminate).
    pose proof (abs_round_le_generic radix2 fexp64 ZnearestE t (bpow radix2 (-1022)) G ltac:(lra)) as R1.
    pose proof bpow_m1022. pose proof (Rabs_triang (rnd t) (- t)) as T. rewrite Rabs_Ropp in T.
    replace (rnd t + - t) with (rnd t - t) in T by lra. pose proof eps_pos. pose proof (Rabs_pos t).
    assert (0 <= eps * Rabs t) by (apply Rmult_le_pos; lra). lra.
Qed.

Lemma log2_b64 : Nr (LOG2 (N := B64)) (ln 2) (eps / 2).
Proof.
  assert (E : B2SF (LOG2 (N := B64) : b64) = SpecFloat.S754_finite false 0x162e42fefa39ef (-53)) by (vm_compute; reflexivity).
  destruct (LOG2 (N := B64) : b64) as [s|s| |s m e X]; try discriminate. injection E as -> -> ->.
  split; [reflexivity|]. pose proof ln2_bounds. unfold B2R, F2R. cbn [Fnum Fexp cond_Zopp].
  replace (bpow radix2 (-53)) with (/ 9007199254740992) by (simpl; lra).
  rewrite (Rabs_pos_eq (ln 2)) by lra. unfold eps. apply Rabs_le. lra.
Qed.

Lemma xlog_accuracy (x : b64) : finite64 x = true -> 0 < B2R64 x ->
  finite64 (xlog (N := B64) musl_utils x) = true /\
  let err := Rabs (B2R64 (xlog (N := B64) musl_utils x) - ln (B2R64 x)) in
  (1 / 2 <= B2R64 x < 1 -> err <= 8 / 10 ^ 16 * Rabs (ln (B2R64 x))) /\
  (1 / 4 <= B2R64 x < 1 / 2 -> err <= 1 / 10 ^ 10) /\
  (B2R64 x < 1 / 4 \/ 1 <= B2R64 x -> err <= 1 / 10 ^ 15 + 3 / 10 ^ 16 * Rabs (ln (B2R64 x))).
Proof.
  intros F P. pose proof (finite_not_nan x F) as Nx.
  assert (N0 : nan64 (b64_ofZ 0) = false) by reflexivity.
  assert (L0 : b64_ltb x (b64_ofZ 0) = false).
  { rewrite ltb_xval, xval_zero, xval_finite by assumption. apply Rlt_bool_false. lra. }
  assert (E0 : b64_eqb x (b64_ofZ 0) = false).
  { rewrite eqb_xval, xval_zero, xval_finite by assumption. apply Req_bool_false. lra. }
  destruct (C28_lemma x 0) as (C & _). destruct (C F E0) as (m & e & Em & Fm & Rm & Ex & Sm). clear C.
  assert (EX : xlog (N := B64) musl_utils x = if (Z.eqb e 0 || Z.eqb e (-1))%bool then log_cf_11 (N := B64) x
      else b64_plus (log_cf_11 (N := B64) m) (b64_mult (LOG2 (N := B64)) (b64_ofZ e))).
  { unfold xlog. rewrite is_nan_b64, Nx.
    change (@nlt B64 x (nofZ 0)) with (b64_ltb x (b64_ofZ 0)). rewrite L0. cbn [orb].
    change (@neq B64 x (nofZ 0)) with (b64_eqb x (b64_ofZ 0)). rewrite E0.
    change (fu_frexp musl_utils x 0%Z) with (musl_frexp x 0). rewrite Em. reflexivity. }
  pose proof (bpow_gt_0 radix2 e) as Be.
  assert (Pm : 0 < B2R64 m) by (rewrite Ex in P; nra).
  rewrite Rabs_pos_eq in Rm by lra.
  destruct (Z.eqb_spec e 0) as [->|He0].
  { (* x = m *)
    cbn [orb] in EX. simpl (bpow radix2 0) in Ex. rewrite EX.
    destruct (cf_b64_half x F ltac:(lra)) as (Fv & A). split; [exact Fv|]. cbv zeta.
    split; [intros _; exact A|]. split; [intros X; exfalso; lra|]. intros [X|X]; exfalso; lra. }
  destruct (Z.eqb_spec e (-1)) as [->|He1].
  { cbn [orb] in EX. replace (bpow radix2 (-1)) with (1 / 2) in Ex by (simpl; lra). rewrite EX.
    destruct (cf_b64_quarter x F ltac:(lra)) as (Fv & A). split; [exact Fv|]. cbv zeta.
    split; [intros X; exfalso; lra|]. split; [intros _; exact A|]. intros [X|X]; exfalso; lra. }
  cbn [orb] in EX. rewrite EX.
  assert (Out : B2R64 x < 1 / 4 \/ 1 <= B2R64 x).
  { destruct (Z_lt_ge_dec e 0) as [L|G].
    - left. assert (bpow radix2 e <= bpow radix2 (-2)) by (apply bpow_le; lia).
      replace (bpow radix2 (-2)) with (1 / 4) in * by (simpl; lra). nra.
    - right. assert (bpow radix2 1 <= bpow radix2 e) by (apply bpow_le; lia).
      replace (bpow radix2 1) with 2 in * by (simpl; lra). nra. }
  (* bound on the exponent *)
  assert (Be1 : (Z.abs e <= 2000)%Z).
  { pose proof (B2R_bounds x) as Bx. 
    assert (U : (e <= 1026)%Z).
    { destruct (Z_le_gt_dec e 1026); [assumption|]. exfalso.
      assert (bpow radix2 1026 <= bpow radix2 e) by (apply bpow_le; lia).
      unfold TOP in Bx. assert (bpow radix2 1026 = 4 * bpow radix2 1024) by (change 1026%Z with (2 + 1024)%Z; rewrite bpow_plus; simpl (bpow radix2 2); lra).
      pose proof (bpow_gt_0 radix2 1024). nra. }
    assert (L : (-1080 <= e)%Z).
    { destruct (Z_le_gt_dec (-1080) e); [assumption|]. exfalso.
      assert (bpow radix2 e <= bpow radix2 (-1080)) by (apply bpow_le; lia).
      pose proof (abs_B2R_ge_emin 53 1024 x) as G.
      assert (FS : is_finite_strict x = true) by (apply is_finite_strict_B2R; lra).
      specialize (G FS). rewrite Rabs_pos_eq in G by lra. change (SpecFloat.emin 53 1024) with (-1074)%Z in G.
      assert (bpow radix2 (-1080) < bpow radix2 (-1074)) by (apply bpow_lt; lia). nra. }
    lia. }
  destruct (cf_b64_half m Fm ltac:(lra)) as (Fc & Ac).
  set (c := log_cf_11 (N := B64) m) in *.
  assert (Lx : ln (B2R64 x) = ln (B2R64 m) + IZR e * ln 2).
  { rewrite Ex, ln_mult by assumption. f_equal. rewrite bpow_powerRZ. change (IZR radix2) with 2.
    rewrite powerRZ_Rpower by lra. apply ln_exp. }
  pose proof ln2_bounds as L2.
  assert (Lm : - 7 / 10 <= ln (B2R64 m) <= 0).
  { split.
    - apply Rle_trans with (ln (1 / 2)).
      + replace (1 / 2) with (/ 2) by lra. rewrite ln_Rinv by lra. lra.
      + destruct (Req_dec (1 / 2) (B2R64 m)) as [<-|]; [lra|]. left. apply ln_increasing; lra.
    - rewrite <- ln_1. left. apply ln_increasing; lra. }
  rewrite (Rabs_left1 (ln (B2R64 m))) in Ac by lra.
  assert (Ne : Nr (b64_ofZ e) (IZR e) 0) by (apply Nr_ofZ; lia).
  assert (He : 1 <= Rabs (IZR e) <= 2000).
  { rewrite <- abs_IZR. split; apply IZR_le; lia. }
  assert (Np : Nr (b64_mult (LOG2 (N := B64)) (b64_ofZ e)) (ln 2 * IZR e) (16 / 10 * eps)).
  { apply (Nr_mult _ _ _ _ (eps / 2) 0 _ log2_b64 Ne); try (unfold eps; lra).
    unfold mid. rewrite Rabs_mult, (Rabs_pos_eq (ln 2)) by lra. split.
    - apply Rle_trans with (1 / 2); [lra|]. nra.
    - apply Rle_trans with (1 * 2000); [|lra]. apply Rmult_le_compat; lra. }
  destruct Np as (Fp & Ap). set (p := b64_mult (LOG2 (N := B64)) (b64_ofZ e)) in *.
  rewrite Rabs_mult, (Rabs_pos_eq (ln 2)) in Ap by lra.
  (* |e| ln 2 <= |ln x| + 7/10 *)
  assert (Hel : ln 2 * Rabs (IZR e) <= Rabs (ln (B2R64 x)) + 7 / 10).
  { rewrite <- (Rabs_pos_eq (ln 2)) at 1 by lra. rewrite <- Rabs_mult.
    replace (ln 2 * IZR e) with (ln (B2R64 x) + - ln (B2R64 m)) by lra.
    eapply Rle_trans; [apply Rabs_triang|]. rewrite Rabs_Ropp, (Rabs_left1 (ln (B2R64 m))) by lra. lra. }
  assert (Hlx : Rabs (ln (B2R64 x)) <= 2000).
  { rewrite Lx. eapply Rle_trans; [apply Rabs_triang|]. rewrite Rabs_mult, (Rabs_pos_eq (ln 2)) by lra.
    rewrite (Rabs_left1 (ln (B2R64 m))) by lra. assert (Rabs (IZR e) * ln 2 <= 2000 * (7 / 10)) by (apply Rmult_le_compat; lra). lra. }
  destruct (plus_xval c p Fc Fp) as (Ns & Es). set (t := B2R64 c + B2R64 p) in *.
  assert (Ht : Rabs (t - ln (B2R64 x)) <= 56 / 10 ^ 17 + 18 / 10 ^ 17 * (Rabs (ln (B2R64 x)) + 7 / 10)).
  { unfold t. rewrite Lx. replace (B2R64 c + B2R64 p - (ln (B2R64 m) + IZR e * ln 2)) with ((B2R64 c - ln (B2R64 m)) + (B2R64 p - ln 2 * IZR e)) by lra.
    rewrite <- Lx. eapply Rle_trans; [apply Rabs_triang|]. apply Rplus_le_compat; [lra|].
    eapply Rle_trans; [exact Ap|]. apply Rmult_le_compat; [unfold eps; lra|apply Rmult_le_pos; lra|unfold eps; lra|exact Hel]. }
  pose proof (Rabs_pos (ln (B2R64 x))) as Pl.
  assert (Ht2 : Rabs t <= Rabs (ln (B2R64 x)) + 1 / 10 ^ 10).
  { pose proof (Rabs_triang (t - ln (B2R64 x)) (ln (B2R64 x))) as T. replace (t - ln (B2R64 x) + ln (B2R64 x)) with t in T by lra. lra. }
  pose proof (rnd_abs t) as Rt.
  assert (Hr : Rabs (rnd t - ln (B2R64 x)) <= 1 / 10 ^ 15 + 3 / 10 ^ 16 * Rabs (ln (B2R64 x))).
  { replace (rnd t - ln (B2R64 x)) with ((rnd t - t) + (t - ln (B2R64 x))) by lra.
    eapply Rle_trans; [apply Rabs_triang|]. unfold eps in Rt. lra. }
  assert (Fs : Rabs (rnd t) < TOP).
  { pose proof (Rabs_triang (rnd t - ln (B2R64 x)) (ln (B2R64 x))) as T. replace (rnd t - ln (B2R64 x) + ln (B2R64 x)) with (rnd t) in T by lra.
    pose proof bpow_1024. lra. }
  unfold rndc in Es. rewrite clamp_id in Es by lra.
  assert (Fr : finite64 (b64_plus c p) = true) by (apply finite_of_xval; [assumption|rewrite Es; assumption]).
  rewrite xval_finite in Es by assumption.
  split; [exact Fr|]. cbv zeta.
  split; [intros X; exfalso; lra|]. split; [intros X; exfalso; lra|]. intros _. rewrite Es. exact Hr.
Qed.

(** ** Where the accuracy is lost *)
Lemma sf_value (x : b64) s : B2SF x = s -> B2R64 x = SF2R radix2 s.
Proof. intros <-. symmetry. apply SF2R_B2SF. Qed.

Lemma just_above_one :
  let x := b64_plus (b64_ofZ 1) (musl_ldexp (b64_ofZ 1) (-52)) in
  finite64 x = true /\ B2R64 x = 1 + 2 * eps /\
  Rabs (B2R64 (xlog (N := B64) musl_utils x) - ln (B2R64 x)) >= 49 / 100 * Rabs (ln (B2R64 x)).
Proof.
  cbv zeta. set (x := b64_plus _ _).
  assert (E1 : B2SF x = SpecFloat.S754_finite false 4503599627370497 (-52)) by (vm_compute; reflexivity).
  assert (E2 : B2SF (xlog (N := B64) musl_utils x : b64) = SpecFloat.S754_finite false 4503599627370496 (-105)) by (vm_compute; reflexivity).
  split; [vm_compute; reflexivity|].
  apply sf_value in E1. apply sf_value in E2. cbn [SF2R cond_Zopp] in E1, E2. unfold F2R in E1, E2. cbn [Fnum Fexp] in E1, E2.
  replace (bpow radix2 (-52)) with (/ 4503599627370496) in E1 by (simpl; lra).
  replace (bpow radix2 (-105)) with (/ 4503599627370496 / 9007199254740992) in E2 by (simpl; lra).
  rewrite E1, E2. clear E1 E2. clearbody x. split; [unfold eps; lra|].
  set (y := 4503599627370497 * / 4503599627370496).
  assert (L : 1 - / y <= ln y).
  { pose proof (exp_ineq1_le (- ln y)) as I. rewrite exp_Ropp, exp_ln in I by (unfold y; lra). lra. }
  assert (U : ln y <= y - 1).
  { pose proof (exp_ineq1_le (ln y)) as I. rewrite exp_ln in I by (unfold y; lra). lra. }
  unfold y in *. rewrite Rabs_left1 by lra. rewrite Rabs_pos_eq by lra. lra.
Qed.

Lemma at_one_quarter :
  let x := b64_div (b64_ofZ 1) (b64_ofZ 4) in
  finite64 x = true /\ B2R64 x = 1 / 4 /\
  Rabs (B2R64 (xlog (N := B64) musl_utils x) - ln (B2R64 x)) >= 6 / 10 ^ 11.
Proof.
  cbv zeta. set (x := b64_div _ _).
  assert (E1 : B2SF x = SpecFloat.S754_finite false 4503599627370496 (-54)) by (vm_compute; reflexivity).
  assert (E2 : B2SF (xlog (N := B64) musl_utils x : b64) = SpecFloat.S754_finite true 6243314767872859 (-52)) by (vm_compute; reflexivity).
  split; [vm_compute; reflexivity|].
  apply sf_value in E1. apply sf_value in E2. cbn [SF2R cond_Zopp] in E1, E2. unfold F2R in E1, E2. cbn [Fnum Fexp Z.opp] in E1, E2.
  replace (bpow radix2 (-54)) with (/ 18014398509481984) in E1 by (simpl; lra).
  replace (bpow radix2 (-52)) with (/ 4503599627370496) in E2 by (simpl; lra).
  rewrite E1, E2. clear E1 E2. clearbody x. split; [lra|].
  replace (4503599627370496 * / 18014398509481984) with (/ (2 * 2)) by lra.
  rewrite ln_Rinv, ln_mult by lra. pose proof ln2_bounds. rewrite Rabs_pos_eq by lra. lra.
Qed.

(** ** The continued fraction in exact arithmetic *)
Lemma exact_cf (z : R) :
  (1 / 2 <= z <= 1 -> exists v, log_cf_11 (N := RNum) (Some z) = Some v /\ 0 <= v - ln z <= 2 / 10 ^ 17 /\ v - ln z <= 26 / 10 ^ 18 * - ln z) /\
  (1 / 4 <= z <= 1 -> exists v, log_cf_11 (N := RNum) (Some z) = Some v /\ 0 <= v - ln z <= 9 / 10 ^ 11) /\
  (z = 1 / 4 -> exists v, log_cf_11 (N := RNum) (Some z) = Some v /\ 6 / 10 ^ 11 <= v - ln z).
Proof.
  split; [|split]; intros H; exists (lrat (warg z)); (split; [apply log_cf_exact; lra|]).
  - split; [apply (cf_third z H)|apply (cf_half_rel z H)].
  - apply (cf_three_fifths z H).
  - subst z. apply cf_quarter.
Qed.

Lemma xlog_special (fu : FloatUtils B64) (x : b64) :
  (BinarySingleNaN.is_nan x = true -> xlog (N := B64) fu x = (B754_nan : b64)) /\
  (b64_ltb x (b64_ofZ 0) = true -> xlog (N := B64) fu x = (B754_nan : b64)) /\
  (forall s, x = B754_zero s -> xlog (N := B64) fu x = (B754_infinity true : b64)) /\
  (x = B754_infinity false -> xlog (N := B64) musl_utils x = (B754_nan : b64)).
Proof.
  split; [|split; [|split]].
  - intros H. apply xlog_nan_or_negative. left. exact H.
  - intros H. apply xlog_nan_or_negative. right. exact H.
  - intros s ->. apply xlog_zero.
  - intros ->. apply xlog_infinity.
Qed.
Lemma just_above_one_refuted :
  exists x : b64, BinarySingleNaN.is_finite x = true /\ B2R x = 1 + / 2 ^ 52 /\
    Rabs (B2R (xlog (N := B64) musl_utils x : b64) - ln (B2R x)) >= 49 / 100 * Rabs (ln (B2R x)).
Proof.
  destruct just_above_one as (F & V & E). eexists. split; [exact F|]. split; [|exact E].
  rewrite V. unfold eps. lra.
Qed.
Lemma at_one_quarter_refuted :
  exists x : b64, BinarySingleNaN.is_finite x = true /\ B2R x = 1 / 4 /\
    Rabs (B2R (xlog (N := B64) musl_utils x : b64) - ln (B2R x)) >= 6 / 10 ^ 11.
Proof. destruct at_one_quarter as (F & V & E). eexists. split; [exact F|]. split; [exact V|exact E]. Qed.
