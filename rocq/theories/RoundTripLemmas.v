(** * Proofs of C91: the probability of the quantile *)
From Coq Require Import ZArith List Bool Reals Lra Lia.
From Flocq Require Import Core.Core IEEE754.BinarySingleNaN.
From Verif Require Import Num XMath Ubend Session Peaks Brent Estimator Tail P2 Spot B64 Spec AccSpec B64Facts PowAcc PowAcc2 PowAcc3 PowAcc4 PowAcc5 Demo AccDemo SpotFacts SpotB64 DetectorLemmas RefitLemmas VerdictSpec Verdict AdmissibleProps RoundTripSpec.
Import ListNotations.
Open Scope R_scope.

Lemma exp_near x : Rabs x <= 1 -> Rabs (exp x - 1) <= 3 * Rabs x.
Proof.
  intros H. apply Rabs_le_inv in H. destruct (Rle_or_lt 0 x) as [P|P].
  - rewrite (Rabs_pos_eq x) by lra. pose proof (exp_ineq1_le x). rewrite Rabs_pos_eq by lra.
    pose proof (exp_ineq1_le (- x)) as Q. rewrite exp_Ropp in Q. pose proof exp_le_3 as E3.
    pose proof (exp_pos x). assert (exp x <= 3). { eapply Rle_trans; [|exact E3]. destruct (Req_dec x 1) as [->|N]; [lra|]. left. apply exp_increasing. lra. }
    assert (exp x * (1 + - x) <= 1). { apply (Rmult_le_compat_l (exp x)) in Q; [|lra]. rewrite Rinv_r in Q by lra. exact Q. }
    nra.
  - rewrite (Rabs_left x) by lra. pose proof (exp_ineq1_le x). assert (exp x < 1) by (rewrite <- exp_0; apply exp_increasing; lra).
    rewrite Rabs_left by lra. lra.
Qed.

Lemma ln_near u : Rabs u <= 1 / 2 -> Rabs (ln (1 + u)) <= 2 * Rabs u.
Proof.
  intros H. apply Rabs_le_inv in H. assert (P : 0 < 1 + u) by lra.
  assert (U : ln (1 + u) <= u). { rewrite <- (ln_exp u) at 2. apply Rcomplements.ln_le; [lra|]. apply exp_ineq1_le. }
  assert (L : - ln (1 + u) <= - u / (1 + u)).
  { rewrite <- ln_Rinv by lra. rewrite <- (ln_exp (- u / (1 + u))). apply Rcomplements.ln_le; [apply Rinv_0_lt_compat; lra|].
    eapply Rle_trans; [|apply exp_ineq1_le]. right. field. lra. }
  destruct (Rle_or_lt 0 u) as [Q|Q].
  - rewrite (Rabs_pos_eq u) by lra. rewrite Rabs_pos_eq; [lra|]. rewrite <- ln_1. apply Rcomplements.ln_le; lra.
  - rewrite (Rabs_left u) by lra. rewrite Rabs_left1.
    + eapply Rle_trans; [exact L|]. apply (Rmult_le_reg_r (1 + u)); [lra|]. unfold Rdiv. rewrite Rmult_assoc, Rinv_l by lra. nra.
    + lra.
Qed.

(** the survival function at a point near the quantile of rho *)
Lemma survival_near gamma sigma rho delta : 0 < sigma -> 0 < rho -> Rabs gamma <= 2 ->
  Rabs delta <= 1 / 10 ^ 6 * (sigma * Rpower rho (- gamma)) ->
  let D := gpd_quantile gamma sigma rho + delta in
  let t := delta / (sigma * Rpower rho (- gamma)) in
  (gamma <> 0 -> 1 + gamma * D / sigma = Rpower rho (- gamma) * (1 + gamma * t)) /\
  Rabs (gpd_survival gamma sigma D - rho) <= 6 * Rabs t * rho.
Proof.
  intros S R G B D t. assert (A : 0 < Rpower rho (- gamma)) by (unfold Rpower; apply exp_pos).
  set (a := Rpower rho (- gamma)) in *. assert (SA : 0 < sigma * a) by (apply Rmult_lt_0_compat; lra).
  assert (T : Rabs t <= 1 / 10 ^ 6).
  { unfold t, Rdiv. rewrite Rabs_mult, (Rabs_pos_eq (/ _)) by (left; apply Rinv_0_lt_compat; lra).
    apply (Rmult_le_reg_r (sigma * a)); [lra|]. rewrite Rmult_assoc, Rinv_l by lra. lra. }
  assert (ED : delta = t * (sigma * a)) by (unfold t; field; split; lra).
  assert (E1 : gamma <> 0 -> 1 + gamma * D / sigma = a * (1 + gamma * t)).
  { intros N. unfold D, gpd_quantile. destruct (Req_EM_T gamma 0); [contradiction|]. fold a. rewrite ED. field. lra. }
  split; [exact E1|].
  assert (Main : exists e, Rabs e <= 2 * Rabs t /\ gpd_survival gamma sigma D = rho * exp e).
  { unfold gpd_survival. destruct (Req_EM_T gamma 0) as [Z|Z].
    - exists (- t). split; [rewrite Rabs_Ropp; pose proof (Rabs_pos t); lra|].
      unfold D, gpd_quantile. destruct (Req_EM_T gamma 0); [|contradiction].
      assert (Ea : a = 1) by (unfold a; rewrite Z, Ropp_0; apply Rpower_O; lra).
      rewrite ED, Ea. replace (- (- sigma * ln rho + t * (sigma * 1)) / sigma) with (ln rho + - t) by (field; lra).
      rewrite exp_plus, exp_ln by lra. reflexivity.
    - specialize (E1 Z). rewrite E1.
      assert (U : Rabs (gamma * t) <= 2 * Rabs t) by (rewrite Rabs_mult; pose proof (Rabs_pos t); nra).
      assert (U2 : Rabs (gamma * t) <= 1 / 2) by lra. pose proof (ln_near _ U2) as LN. apply Rabs_le_inv in U2.
      exists (- ln (1 + gamma * t) / gamma). split.
      + unfold Rdiv. rewrite Rabs_mult, Rabs_Ropp, Rabs_inv. assert (0 < Rabs gamma) by (apply Rabs_pos_lt; exact Z).
        apply (Rmult_le_reg_r (Rabs gamma)); [lra|]. rewrite Rmult_assoc, Rinv_l by lra. rewrite Rabs_mult in LN. nra.
      + unfold Rpower. rewrite ln_mult by (try exact A; lra). unfold a, Rpower. rewrite ln_exp.
        replace (-1 / gamma * (- gamma * ln rho + ln (1 + gamma * t))) with (ln rho + - ln (1 + gamma * t) / gamma) by (field; exact Z).
        rewrite exp_plus, exp_ln by lra. reflexivity. }
  destruct Main as (e & He & ->). replace (rho * exp e - rho) with (rho * (exp e - 1)) by ring. rewrite Rabs_mult, (Rabs_pos_eq rho) by lra.
  assert (Rabs e <= 1) by lra. pose proof (exp_near e H). nra.
Qed.

Lemma log_error_small lo hi a L : Rabs (ln a) <= L -> L <= 10 ^ 4 -> log_error lo hi a <= 1 / 10 ^ 10.
Proof. intros H K. unfold log_error. destruct (Rle_dec lo a); [destruct (Rlt_dec a hi)|]; lra. Qed.

Lemma exp_at_least_pow2 n : 2 ^ n <= exp (INR n).
Proof.
  induction n as [|n IH]; [simpl; rewrite exp_0; lra|]. rewrite S_INR, exp_plus. simpl. pose proof (exp_ineq1_le 1).
  pose proof (pow_lt 2 n). nra.
Qed.
Lemma exp_at_most_pow3 n : exp (INR n) <= 3 ^ n.
Proof.
  induction n as [|n IH]; [simpl; rewrite exp_0; lra|]. rewrite S_INR, exp_plus. simpl. pose proof exp_le_3.
  pose proof (exp_pos (INR n)). pose proof (exp_pos 1). nra.
Qed.
Lemma exp_le_mono x y : x <= y -> exp x <= exp y.
Proof. intros [H| ->]; [left; apply exp_increasing; exact H|lra]. Qed.

(** sizes in an everyday detector *)
Lemma everyday_sizes gamma rho : (gamma = 0 \/ 1 / 100 <= Rabs gamma <= 2) -> 1 / 10 ^ 6 <= rho <= 1 -> gamma * ln rho <= 6 ->
  Rabs (ln rho) <= 20 /\ 1 / 729 <= Rpower rho (- gamma) <= 10 ^ 20 /\ Rabs (gamma * ln rho) <= 40.
Proof.
  intros G R H. assert (L1 : ln rho <= 0) by (rewrite <- ln_1; apply Rcomplements.ln_le; lra).
  assert (L2 : - 20 <= ln rho).
  { replace (-20) with (Ropp 20) by lra. rewrite <- (ln_exp (Ropp 20)). apply Rcomplements.ln_le; [apply exp_pos|]. apply Rle_trans with (1 / 10 ^ 6); [|lra].
    rewrite exp_Ropp. pose proof (exp_at_least_pow2 20) as P. replace (INR 20) with 20 in P by (simpl; ring).
    apply Rle_trans with (/ (2 ^ 20)); [|lra]. apply Rinv_le; [lra|exact P]. }
  assert (AL : Rabs (ln rho) <= 20) by (apply Rabs_le; lra). split; [exact AL|].
  assert (GL : Rabs (gamma * ln rho) <= 40).
  { rewrite Rabs_mult. pose proof (Rabs_pos gamma). pose proof (Rabs_pos (ln rho)).
    assert (Rabs gamma <= 2) by (destruct G as [-> | G]; [rewrite Rabs_R0; lra|lra]). nra. }
  split; [|exact GL]. apply Rabs_le_inv in GL. unfold Rpower. split.
  - apply Rle_trans with (exp (- INR 6)); [|apply exp_le_mono; simpl; lra]. rewrite exp_Ropp.
    apply Rle_trans with (/ (3 ^ 6)); [lra|]. apply Rinv_le; [apply exp_pos|apply exp_at_most_pow3].
  - apply Rle_trans with (exp (INR 40)); [apply exp_le_mono; simpl; lra|]. eapply Rle_trans; [apply exp_at_most_pow3|]. lra.
Qed.

Lemma quantile_size gamma sigma rho : 0 < sigma -> (gamma = 0 \/ 1 / 100 <= Rabs gamma <= 2) -> 1 / 10 ^ 6 <= rho <= 1 -> gamma * ln rho <= 6 ->
  Rabs (gpd_quantile gamma sigma rho) <= 73000 * (sigma * Rpower rho (- gamma)) /\ (gamma = 0 -> Rabs (gpd_quantile gamma sigma rho) <= 20 * sigma).
Proof.
  intros S G R H. destruct (everyday_sizes gamma rho G R H) as (L & (A1 & A2) & _). set (a := Rpower rho (- gamma)) in *.
  unfold gpd_quantile. destruct (Req_EM_T gamma 0) as [Z|Z].
  - assert (Ea : a = 1) by (unfold a; rewrite Z, Ropp_0; apply Rpower_O; lra).
    assert (Q : Rabs (- sigma * ln rho) <= 20 * sigma) by (rewrite Rabs_mult, Rabs_Ropp, (Rabs_pos_eq sigma) by lra; nra).
    split; [rewrite Ea; lra|intros _; exact Q].
  - split; [|contradiction]. fold a. destruct G as [G|G]; [contradiction|]. unfold Rdiv. rewrite !Rabs_mult, (Rabs_pos_eq sigma), Rabs_inv by lra.
    assert (I : / Rabs gamma <= 100) by (replace 100 with (/ (1 / 100)) by lra; apply Rinv_le; lra).
    assert (0 < / Rabs gamma) by (apply Rinv_0_lt_compat; lra).
    assert (D : Rabs (a - 1) <= 730 * a) by (apply Rabs_le; lra). pose proof (Rabs_pos (a - 1)).
    assert (M : / Rabs gamma * Rabs (a - 1) <= 100 * (730 * a)) by (apply Rmult_le_compat; lra).
    rewrite Rmult_assoc. nra.
Qed.

Lemma quantile_point (s : spot B64) et dir sigma gamma (q : b64) :
  finite_detector s et dir sigma gamma -> is_finite q = true -> everyday s et sigma gamma (B2R q) ->
  exists z : b64, spot_quantile (c_math musl_utils) s q = Ret z /\ is_finite z = true /\
    let D := dir * (B2R z - et) in
    probability_range et (B2R z) sigma gamma D /\ probability_error gamma sigma D <= 11 / 10 ^ 9 /\
    Rabs (IZR (s_Nt s) / IZR (s_n s) * gpd_survival gamma sigma D - B2R q) <= 2 / 10 ^ 9 * B2R q /\ 0 < B2R q.
Proof.
  intros FD Fq (S & E & G & Q & H). pose proof FD as FD0.
  destruct FD0 as (_ & _ & Dir & _ & _ & S0 & _ & _ & (N1 & N2) & N3).
  set (r := IZR (s_Nt s) / IZR (s_n s)) in *.
  assert (R0 : / 2 ^ 53 <= r <= 1).
  { apply IZR_lt in N1. apply IZR_le in N2. change (2 ^ 53)%Z with 9007199254740992%Z in N3. apply IZR_le in N3.
    assert (1 <= IZR (s_Nt s)) by (change 1 with (IZR 1); apply IZR_le; apply lt_IZR in N1; lia).
    unfold r. split.
    - apply (Rmult_le_reg_r (IZR (s_n s))); [lra|]. unfold Rdiv. rewrite Rmult_assoc, Rinv_l by lra. 
      apply (Rmult_le_reg_l (2 ^ 53)); [lra|]. rewrite <- Rmult_assoc, Rinv_r by lra. nra.
    - apply (Rmult_le_reg_r (IZR (s_n s))); [lra|]. unfold Rdiv. rewrite Rmult_assoc, Rinv_l by lra. lra. }
  set (rho := relative_risk s (B2R q)) in *. assert (Erho : B2R q = r * rho) by (unfold rho, relative_risk; fold r; field; lra).
  assert (Rho : 1 / 10 ^ 6 <= rho <= 1).
  { rewrite Erho in Q. split; apply (Rmult_le_reg_l r); lra. }
  destruct (everyday_sizes gamma rho G Rho H) as (L & (A1 & A2) & GL).
  destruct (quantile_size gamma sigma rho S0 G Rho H) as (QS & QS0).
  assert (G2 : Rabs gamma <= 2) by (destruct G as [-> | G]; [rewrite Rabs_R0; lra|lra]).
  assert (U : usual_range s et sigma gamma (B2R q)).
  { split; [eapply Rle_trans; [exact E|]; lra|]. split; [lra|]. split; [destruct G as [G|G]; [left; exact G|right; lra]|].
    split; [|fold rho; lra]. rewrite Erho. split; [|nra].
    apply Rle_trans with (/ 2 ^ 53 * (1 / 10 ^ 6)); [lra|]. apply Rmult_le_compat; lra. }
  destruct (quantile_accuracy s et dir sigma gamma q FD Fq U) as (z & Ez & Fz & Bz). fold rho in Bz.
  set (D0 := gpd_quantile gamma sigma rho) in *. set (a := Rpower rho (- gamma)) in *.
  assert (SA : / 10 ^ 30 * (1 / 729) <= sigma * a) by (apply Rmult_le_compat; lra).
  assert (Dir2 : dir * dir = 1 /\ Rabs dir = 1) by (destruct Dir as [(_ & ->)|(_ & ->)]; split; try lra; [apply Rabs_R1|rewrite Rabs_left; lra]).
  destruct Dir2 as (Dir2 & DirA).
  assert (ET : Rabs et <= 729000 * (sigma * a)).
  { apply Rle_trans with (1000 * (sigma * 1)); [lra|]. replace (729000 * (sigma * a)) with (1000 * (sigma * (729 * a))) by ring.
    apply Rmult_le_compat_l; [lra|]. apply Rmult_le_compat_l; lra. }
  assert (ID : Rabs (et + dir * D0) <= 802000 * (sigma * a)).
  { eapply Rle_trans; [apply Rabs_triang|]. rewrite Rabs_mult, DirA. lra. }
  assert (QE : quantile_error gamma sigma rho <= 14 / 10 ^ 11 * (sigma * a)).
  { unfold quantile_error. fold D0 a.
    pose proof (log_error_small (1 / 5) (3 / 5) rho 20 L ltac:(lra)) as LE.
    assert (K : 102 / 100 * log_error (1 / 5) (3 / 5) rho + 5 / 10 ^ 16 * (1 + Rabs (ln rho)) + (if Req_EM_T gamma 0 then 0 else 32 / 10 ^ 16 / Rabs gamma) <= 11 / 10 ^ 11).
    { assert ((if Req_EM_T gamma 0 then 0 else 32 / 10 ^ 16 / Rabs gamma) <= 32 / 10 ^ 14).
      { destruct (Req_EM_T gamma 0); [lra|]. destruct G as [G|G]; [contradiction|].
        assert (I : / Rabs gamma <= 100) by (replace 100 with (/ (1 / 100)) by lra; apply Rinv_le; lra). unfold Rdiv at 1. lra. }
      lra. }
    apply Rle_trans with (sigma * a * (11 / 10 ^ 11) + 4 / 10 ^ 16 * (73000 * (sigma * a))); [|lra].
    apply Rplus_le_compat; [apply Rmult_le_compat_l; lra|lra]. }
  set (delta := dir * (B2R z - (et + dir * D0))).
  assert (BD : Rabs delta <= 31 / 10 ^ 11 * (sigma * a)) by (unfold delta; rewrite Rabs_mult, DirA; lra).
  assert (ED : dir * (B2R z - et) = D0 + delta).
  { unfold delta. replace (dir * (B2R z - (et + dir * D0))) with (dir * (B2R z - et) - (dir * dir) * D0) by ring. rewrite Dir2. ring. }
  assert (BD2 : Rabs delta <= 1 / 10 ^ 6 * (sigma * Rpower rho (- gamma))) by (fold a; lra).
  destruct (survival_near gamma sigma rho delta S0 ltac:(lra) G2 BD2) as (AR & SV). fold a D0 in AR, SV.
  set (t := delta / (sigma * a)) in *.
  assert (T : Rabs t <= 31 / 10 ^ 11).
  { unfold t, Rdiv. rewrite Rabs_mult, (Rabs_pos_eq (/ _)) by (left; apply Rinv_0_lt_compat; lra).
    apply (Rmult_le_reg_r (sigma * a)); [lra|]. rewrite Rmult_assoc, Rinv_l by lra. lra. }
  assert (AR2 : gamma <> 0 -> 1 / 1000 <= 1 + gamma * (D0 + delta) / sigma <= 10 ^ 21 /\ Rabs (ln (1 + gamma * (D0 + delta) / sigma) / gamma) <= 21).
  { intros Z. rewrite (AR Z). assert (GT : Rabs (gamma * t) <= 62 / 10 ^ 11) by (rewrite Rabs_mult; apply Rle_trans with (2 * (31 / 10 ^ 11)); [apply Rmult_le_compat; try apply Rabs_pos; lra|lra]).
    pose proof (ln_near (gamma * t) ltac:(lra)) as LN. apply Rabs_le_inv in GT. split.
    { split; [apply Rle_trans with (1 / 729 * (1 - 62 / 10 ^ 11)); [lra|]; apply Rmult_le_compat; lra|].
      apply Rle_trans with (10 ^ 20 * 2); [|lra]. apply Rmult_le_compat; lra. }
    rewrite ln_mult by lra. replace (ln a) with (- gamma * ln rho) by (unfold a, Rpower; rewrite ln_exp; reflexivity).
    replace ((- gamma * ln rho + ln (1 + gamma * t)) / gamma) with (- ln rho + ln (1 + gamma * t) / gamma) by (field; exact Z).
    eapply Rle_trans; [apply Rabs_triang|]. rewrite Rabs_Ropp. assert (0 < Rabs gamma) by (apply Rabs_pos_lt; exact Z).
    enough (Rabs (ln (1 + gamma * t) / gamma) <= 2 * Rabs t) by lra. unfold Rdiv. rewrite Rabs_mult, Rabs_inv.
    apply (Rmult_le_reg_r (Rabs gamma)); [lra|]. rewrite Rmult_assoc, Rinv_l by lra. rewrite Rabs_mult in LN. lra. }
  assert (D1 : gamma = 0 -> Rabs ((D0 + delta) / sigma) <= 21).
  { intros Z. assert (Ea : a = 1) by (unfold a; rewrite Z, Ropp_0; apply Rpower_O; lra). rewrite Ea in BD.
    unfold Rdiv. rewrite Rabs_mult, (Rabs_pos_eq (/ _)) by (left; apply Rinv_0_lt_compat; lra).
    apply (Rmult_le_reg_r sigma); [lra|]. rewrite Rmult_assoc, Rinv_l by lra. eapply Rle_trans; [rewrite Rmult_1_r; apply Rabs_triang|].
    specialize (QS0 Z). lra. }
  assert (PR : probability_range et (B2R z) sigma gamma (D0 + delta)).
  { split; [eapply Rle_trans; [exact E|]; lra|]. split.
    - assert (sigma * a <= 10 ^ 30 * 10 ^ 20) by (apply Rmult_le_compat; lra).
      replace (B2R z) with (et + dir * D0 + (B2R z - (et + dir * D0))) by ring. eapply Rle_trans; [apply Rabs_triang|]. lra.
    - split; [lra|]. destruct (Req_dec gamma 0) as [Z|Z]; [left; split; [exact Z|specialize (D1 Z); lra]|right].
      destruct G as [G|G]; [contradiction|]. destruct (AR2 Z) as (X & Y). lra. }
  assert (PE : probability_error gamma sigma (D0 + delta) <= 11 / 10 ^ 9).
  { unfold probability_error. destruct (Req_EM_T gamma 0) as [Z|Z]; [specialize (D1 Z); lra|].
    destruct (AR2 Z) as (X & Y). destruct G as [G|G]; [contradiction|]. set (b := 1 + gamma * (D0 + delta) / sigma) in *.
    assert (LB : Rabs (ln b) <= 42).
    { replace (ln b) with (ln b / gamma * gamma) by (field; exact Z). rewrite Rabs_mult. apply Rle_trans with (21 * 2); [apply Rmult_le_compat; try apply Rabs_pos; lra|lra]. }
    pose proof (log_error_small (1 / 5) (3 / 5) b 42 LB ltac:(lra)) as LE.
    assert (IB : / b <= 1000) by (replace 1000 with (/ (1 / 1000)) by lra; apply Rinv_le; lra).
    assert (I : / Rabs gamma <= 100) by (replace 100 with (/ (1 / 100)) by lra; apply Rinv_le; lra).
    assert (0 < / Rabs gamma) by (apply Rinv_0_lt_compat; lra).
    assert (M : (102 / 100 * log_error (1 / 5) (3 / 5) b + 6 / 10 ^ 16 + 5 / 10 ^ 16 / b) / Rabs gamma <= (102 / 10 ^ 12 + 6 / 10 ^ 16 + 5 / 10 ^ 13) * 100).
    { unfold Rdiv at 1. apply Rle_trans with ((102 / 10 ^ 12 + 6 / 10 ^ 16 + 5 / 10 ^ 13) * / Rabs gamma); [|apply Rmult_le_compat_l; lra].
      apply Rmult_le_compat_r; [lra|]. unfold Rdiv at 5. lra. }
    lra. }
  rewrite <- ED in PR, PE, SV.
  exists z. split; [exact Ez|]. split; [exact Fz|]. cbv zeta. split; [exact PR|]. split; [exact PE|].
  assert (RR : 0 < r * rho) by (apply Rmult_lt_0_compat; lra). rewrite Erho. split; [|exact RR].
  rewrite <- Rmult_minus_distr_l, Rabs_mult, (Rabs_pos_eq r) by lra. replace (2 / 10 ^ 9 * (r * rho)) with (r * (2 / 10 ^ 9 * rho)) by ring.
  apply Rmult_le_compat_l; [lra|]. eapply Rle_trans; [exact SV|]. apply Rmult_le_compat_r; lra.
Qed.

Lemma round_trip (s : spot B64) et dir sigma gamma (q : b64) :
  finite_detector s et dir sigma gamma -> is_finite q = true -> everyday s et sigma gamma (B2R q) ->
  exists z p : b64, spot_quantile (c_math musl_utils) s q = Ret z /\ is_finite z = true /\
    spot_probability (c_math musl_utils) s z = Ret p /\ is_finite p = true /\ Rabs (B2R p - B2R q) <= 2 / 10 ^ 8 * B2R q.
Proof.
  intros FD Fq EV. destruct (quantile_point s et dir sigma gamma q FD Fq EV) as (z & Ez & Fz & PR & PE & SV & Q0).
  destruct (probability_accuracy s et dir sigma gamma z FD Fz PR) as (p & Ep & Fp & Bp).
  exists z, p. split; [exact Ez|]. split; [exact Fz|]. split; [exact Ep|]. split; [exact Fp|].
  set (ideal := IZR (s_Nt s) / IZR (s_n s) * gpd_survival gamma sigma (dir * (B2R z - et))) in *.
  assert (S2 : 0 <= ideal <= 101 / 100 * B2R q) by (apply Rabs_le_inv in SV; lra).
  assert (probability_error gamma sigma (dir * (B2R z - et)) * ideal <= 11 / 10 ^ 9 * (101 / 100 * B2R q)).
  { apply Rle_trans with (11 / 10 ^ 9 * ideal); [apply Rmult_le_compat_r; lra|lra]. }
  replace (B2R p - B2R q) with (B2R p - ideal + (ideal - B2R q)) by ring. eapply Rle_trans; [apply Rabs_triang|]. lra.
Qed.

(** the threshold in use *)
Lemma threshold_probability (s s' : spot B64) et dir sigma gamma :
  (exists x, spot_step (c_math musl_utils) s x = Ret (s', EXCESS)) \/ (exists l, spot_fit (c_math musl_utils) s l = Ret (s', 0%Z)) ->
  finite_detector s' et dir sigma gamma -> is_finite (s_q s' : b64) = true -> everyday s' et sigma gamma (B2R (s_q s' : b64)) ->
  exists p : b64, spot_probability (c_math musl_utils) s' (s_at s') = Ret p /\ is_finite p = true /\
    Rabs (B2R p - B2R (s_q s' : b64)) <= 2 / 10 ^ 8 * B2R (s_q s' : b64).
Proof.
  intros H FD Fq EV. assert (E : spot_quantile (c_math musl_utils) s' (s_q s') = Ret (s_at s')).
  { destruct H as [(x & H)|(l & H)]; [exact (step_threshold _ _ _ _ H)|exact (fit_threshold _ _ _ _ H)]. }
  destruct (round_trip s' et dir sigma gamma (s_q s') FD Fq EV) as (z & p & Ez & _ & Ep & Fp & Bp). rewrite E in Ez. injection Ez as <-.
  exists p. split; [exact Ep|]. split; [exact Fp|exact Bp].
Qed.

Lemma survival_antitone gamma sigma D1 D2 : 0 < sigma -> D1 <= D2 ->
  gamma = 0 \/ (0 < 1 + gamma * D1 / sigma /\ 0 < 1 + gamma * D2 / sigma) -> gpd_survival gamma sigma D2 <= gpd_survival gamma sigma D1.
Proof.
  intros S H G. assert (I : 0 < / sigma) by (apply Rinv_0_lt_compat; lra). unfold gpd_survival. destruct (Req_EM_T gamma 0) as [Z|Z].
  - apply exp_le_mono. unfold Rdiv. nra.
  - destruct G as [G|(G1 & G2)]; [contradiction|]. unfold Rpower. apply exp_le_mono.
    destruct (Rtotal_order gamma 0) as [N|[N|N]]; [|contradiction|].
    + assert (L : ln (1 + gamma * D2 / sigma) <= ln (1 + gamma * D1 / sigma)) by (apply Rcomplements.ln_le; [exact G2|]; unfold Rdiv; assert (gamma * D2 <= gamma * D1) by nra; nra).
      pose proof (neg_inv gamma N). nra.
    + assert (L : ln (1 + gamma * D1 / sigma) <= ln (1 + gamma * D2 / sigma)) by (apply Rcomplements.ln_le; [exact G1|]; unfold Rdiv; assert (gamma * D1 <= gamma * D2) by nra; nra).
      assert (0 < / gamma) by (apply Rinv_0_lt_compat; lra). unfold Rdiv. nra.
Qed.

(** the verdict and the reported probability *)
Lemma verdict_probability q low discard level cap (s0 s1 s2 : spot B64) et dir sigma gamma (x : b64) r :
  detector (c_math musl_utils) q low discard level cap s0 -> discard <> 0%Z ->
  (exists y, spot_step (c_math musl_utils) s0 y = Ret (s1, EXCESS)) \/ (exists l, spot_fit (c_math musl_utils) s0 l = Ret (s1, 0%Z)) ->
  finite_detector s1 et dir sigma gamma -> is_finite q = true -> everyday s1 et sigma gamma (B2R (q : b64)) ->
  spot_step (c_math musl_utils) s1 x = Ret (s2, r) -> is_finite x = true ->
  let D := dir * (B2R x - et) in probability_range et (B2R x) sigma gamma D ->
  exists p : b64, spot_probability (c_math musl_utils) s1 x = Ret p /\ is_finite p = true /\
    (r = ANOMALY -> B2R p <= (1 + probability_error gamma sigma D) * (1 + 1 / 10 ^ 8) * B2R (q : b64)) /\
    (r <> ANOMALY -> probability_error gamma sigma D <= 1 -> (1 - probability_error gamma sigma D) * (1 - 1 / 10 ^ 8) * B2R (q : b64) <= B2R p).
Proof.
  intros D0 HD R FD Fq EV EX Fx D PR.
  pose proof (refit_detector _ _ _ _ _ _ _ _ D0 (refit_of _ _ R)) as D1.
  pose proof (detector_facts _ _ _ _ _ _ _ D1) as (QQ & _).
  assert (E : spot_quantile (c_math musl_utils) s1 q = Ret (s_at s1)).
  { rewrite <- QQ. destruct R as [(y & R)|(l & R)]; [exact (step_threshold _ _ _ _ R)|exact (fit_threshold _ _ _ _ R)]. }
  destruct (quantile_point s1 et dir sigma gamma q FD Fq EV) as (z & Ez & Fz & PRz & _ & SV & Q0). rewrite E in Ez. injection Ez as <-.
  destruct (probability_accuracy s1 et dir sigma gamma x FD Fx PR) as (p & Ep & Fp & Bp). fold D in Bp.
  exists p. split; [exact Ep|]. split; [exact Fp|].
  pose proof FD as (_ & _ & Hdir & _ & _ & Hs & _ & _ & HN & _).
  assert (NN : 0 < IZR (s_Nt s1) / IZR (s_n s1)) by (apply Rdiv_lt_0_compat; apply IZR_lt; lia).
  set (rate := IZR (s_Nt s1) / IZR (s_n s1)) in *.
  assert (PEP : 0 <= probability_error gamma sigma D).
  { unfold probability_error. destruct (Req_EM_T gamma 0) as [Z|Z]; [pose proof (Rabs_pos (D / sigma)); lra|].
    destruct PR as (_ & _ & _ & [(Z' & _)|(_ & A & _)]); [contradiction|]. set (a := 1 + gamma * D / sigma) in *.
    assert (0 <= log_error (1 / 5) (3 / 5) a) by (unfold log_error; pose proof (Rabs_pos (ln a)); destruct (Rle_dec _ _); [destruct (Rlt_dec _ _)|]; lra).
    assert (0 < / a) by (apply Rinv_0_lt_compat; lra). assert (0 < / Rabs gamma) by (apply Rinv_0_lt_compat, Rabs_pos_lt; exact Z).
    pose proof (Rabs_pos (ln a / gamma)).
    assert (0 <= (102 / 100 * log_error (1 / 5) (3 / 5) a + 6 / 10 ^ 16 + 5 / 10 ^ 16 / a) / Rabs gamma); [|lra].
    unfold Rdiv at 1. apply Rmult_le_pos; [|lra]. unfold Rdiv at 5. lra. }
  assert (Args : forall u D', probability_range et u sigma gamma D' -> gamma = 0 \/ 0 < 1 + gamma * D' / sigma).
  { intros u D' (_ & _ & _ & [(Z & _)|(_ & A & _)]); [left; exact Z|right; lra]. }
  set (Dz := dir * (B2R (s_at s1 : b64) - et)) in *.
  assert (Both : gamma = 0 \/ (0 < 1 + gamma * D / sigma /\ 0 < 1 + gamma * Dz / sigma)).
  { destruct (Args _ _ PR) as [Z|A]; [left; exact Z|]. destruct (Args _ _ PRz) as [Z|B]; [left; exact Z|right; split; assumption]. }
  assert (Nx : is_NaN x = false) by (rewrite is_NaN_eq; apply finite_not_nan; exact Fx).
  destruct (C07_lemma _ _ _ _ _ _ s1 x D1 Nx) as (A1 & A2).
  assert (SP : 0 < gpd_survival gamma sigma D) by (unfold gpd_survival, Rpower; destruct (Req_EM_T gamma 0); apply exp_pos).
  apply Rabs_le_inv in SV. apply Rabs_le_inv in Bp. split.
  - intros ->. destruct (A2 _ EX) as (_ & B & _). assert (LE : Dz <= D).
    { unfold beyond in B. unfold D, Dz. destruct (detector_sided _ _ _ _ _ _ _ D1) as [(L & U)|(L & U)].
      - rewrite (proj2 (Z.eqb_eq _ _) L) in B. apply ltb_true_iff in B as (_ & _ & B). rewrite !xval_finite in B by assumption.
        destruct Hdir as [(_ & ->)|(U' & _)]; [|rewrite U in U'; discriminate]. lra.
      - destruct (low =? 0)%Z eqn:LZ; [apply Z.eqb_eq in LZ; contradiction|]. apply ltb_true_iff in B as (_ & _ & B). rewrite !xval_finite in B by assumption.
        destruct Hdir as [(U' & _)|(_ & ->)]; [rewrite U in U'; discriminate|]. lra. }
    assert (SL : gpd_survival gamma sigma D <= gpd_survival gamma sigma Dz) by (apply survival_antitone; [exact Hs|exact LE|tauto]).
    assert (rate * gpd_survival gamma sigma D <= rate * gpd_survival gamma sigma Dz) by (apply Rmult_le_compat_l; lra).
    apply Rle_trans with ((1 + probability_error gamma sigma D) * (rate * gpd_survival gamma sigma D)); [lra|].
    rewrite Rmult_assoc. apply Rmult_le_compat_l; lra.
  - intros NA PE1. assert (B : beyond low (s_at s1) x = false).
    { destruct (beyond low (s_at s1) x) eqn:B; [|reflexivity]. rewrite (A1 (conj HD eq_refl)) in EX. injection EX as _ <-. contradiction. }
    assert (LE : D <= Dz).
    { unfold beyond in B. unfold D, Dz. destruct (detector_sided _ _ _ _ _ _ _ D1) as [(L & U)|(L & U)].
      - rewrite (proj2 (Z.eqb_eq _ _) L) in B. rewrite ltb_xval, !xval_finite in B by (try assumption; apply finite_not_nan; assumption).
        destruct (Rlt_bool_spec (B2R64 (s_at s1)) (B2R64 x)) as [|LE]; [discriminate|].
        destruct Hdir as [(_ & ->)|(U' & _)]; [|rewrite U in U'; discriminate]. lra.
      - destruct (low =? 0)%Z eqn:LZ; [apply Z.eqb_eq in LZ; contradiction|]. rewrite ltb_xval, !xval_finite in B by (try assumption; apply finite_not_nan; assumption).
        destruct (Rlt_bool_spec (B2R64 x) (B2R64 (s_at s1))) as [|LE]; [discriminate|].
        destruct Hdir as [(U' & _)|(_ & ->)]; [rewrite U in U'; discriminate|]. lra. }
    assert (SL : gpd_survival gamma sigma Dz <= gpd_survival gamma sigma D) by (apply survival_antitone; [exact Hs|exact LE|tauto]).
    assert (rate * gpd_survival gamma sigma Dz <= rate * gpd_survival gamma sigma D) by (apply Rmult_le_compat_l; lra).
    apply Rle_trans with ((1 - probability_error gamma sigma D) * (rate * gpd_survival gamma sigma D)); [|lra].
    rewrite Rmult_assoc. apply Rmult_le_compat_l; lra.
Qed.
