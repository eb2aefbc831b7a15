(** * Verdict: what a verdict says about the observation (C63) *)
From Coq Require Import ZArith List Bool Reals Lra Lia.
From Flocq Require Import Core.Core IEEE754.BinarySingleNaN.
From Verif Require Import Num XMath Ubend Session Peaks Brent Estimator Tail P2 Spot SpotFacts B64 B64Facts Spec SpotB64 DetectorLemmas RefitLemmas AccSpec
  PowAcc PowAcc5 AccDemo VerdictSpec AdmissibleProps.
Import ListNotations.
Open Scope R_scope.

Lemma neg_inv gamma : gamma < 0 -> 0 <= -1 / gamma.
Proof.
  intros N. assert (0 < / (- gamma)) by (apply Rinv_0_lt_compat; lra). rewrite Rinv_opp in H. unfold Rdiv. lra.
Qed.

Lemma tail_antitone gamma sigma D1 D2 : 0 < sigma -> D1 <= D2 -> gpd_tail gamma sigma D2 <= gpd_tail gamma sigma D1.
Proof.
  intros S H. unfold gpd_tail.
  assert (P : forall D, 0 < D -> 0 < 1 + gamma * D / sigma -> 0 < gpd_survival gamma sigma D <= 1).
  { intros D HD HA. unfold gpd_survival. destruct (Req_EM_T gamma 0) as [G|G].
    - split; [apply exp_pos|]. rewrite <- exp_0. apply Raux.exp_le. assert (0 < D / sigma) by (apply Rdiv_lt_0_compat; lra). unfold Rdiv in *. lra.
    - unfold Rpower. split; [apply exp_pos|]. apply Rle_trans with (exp 0); [apply Raux.exp_le|rewrite exp_0; lra]. set (a := 1 + gamma * D / sigma) in *.
      assert (Q : 0 < D / sigma) by (apply Rdiv_lt_0_compat; lra). assert (E : a = 1 + gamma * (D / sigma)) by (unfold a, Rdiv; ring).
      destruct (Rtotal_order gamma 0) as [N|[N|N]]; [|contradiction|].
      + assert (a <= 1) by nra. assert (ln a <= 0) by (rewrite <- ln_1; apply ln_mono; lra).
        assert (X := Rmult_le_pos _ (- ln a) (neg_inv _ N) ltac:(lra)). lra.
      + assert (1 <= a) by nra. assert (0 <= ln a) by (rewrite <- ln_1; apply ln_mono; lra).
        assert (0 < / gamma) by (apply Rinv_0_lt_compat; lra). assert (X := Rmult_le_pos (/ gamma) (ln a) ltac:(lra) ltac:(lra)). unfold Rdiv. lra. }
  destruct (Rle_dec D1 0) as [A1|A1].
  - destruct (Rle_dec D2 0); [lra|]. destruct (Rle_dec (1 + gamma * D2 / sigma) 0); [lra|]. apply P; lra.
  - destruct (Rle_dec D2 0) as [|A2]; [lra|].
    assert (M : gamma * D1 / sigma <= gamma * D2 / sigma \/ gamma < 0 /\ gamma * D2 / sigma <= gamma * D1 / sigma).
    { assert (K : D1 / sigma <= D2 / sigma) by (unfold Rdiv; apply Rmult_le_compat_r; [left; apply Rinv_0_lt_compat; lra|lra]).
      replace (gamma * D1 / sigma) with (gamma * (D1 / sigma)) by (unfold Rdiv; ring). replace (gamma * D2 / sigma) with (gamma * (D2 / sigma)) by (unfold Rdiv; ring).
      destruct (Rlt_le_dec gamma 0); [right; split; [lra|nra]|left; nra]. }
    assert (X : 0 < D1 / sigma) by (apply Rdiv_lt_0_compat; lra).
    assert (EX : gamma * D1 / sigma = gamma * (D1 / sigma)) by (unfold Rdiv; ring).
    destruct (Rle_dec (1 + gamma * D2 / sigma) 0) as [B2|B2].
    + destruct (Rle_dec (1 + gamma * D1 / sigma) 0); [lra|]. left. apply P; lra.
    + destruct (Rle_dec (1 + gamma * D1 / sigma) 0) as [B1|B1]; [exfalso; destruct M as [M|M]; [|lra]; destruct (Rlt_le_dec gamma 0); [|nra]|].
      { assert (Y : D1 / sigma <= D2 / sigma) by (unfold Rdiv; apply Rmult_le_compat_r; [left; apply Rinv_0_lt_compat; lra|lra]).
        assert (EY : gamma * D2 / sigma = gamma * (D2 / sigma)) by (unfold Rdiv; ring). rewrite EX, EY in *. nra. }
      assert (EY : gamma * D2 / sigma = gamma * (D2 / sigma)) by (unfold Rdiv; ring).
      assert (Y : D1 / sigma <= D2 / sigma) by (unfold Rdiv; apply Rmult_le_compat_r; [left; apply Rinv_0_lt_compat; lra|lra]).
      unfold gpd_survival. destruct (Req_EM_T gamma 0) as [G|G].
      * apply Raux.exp_le. unfold Rdiv in *. lra.
      * unfold Rpower. apply Raux.exp_le. destruct (Rtotal_order gamma 0) as [N|[N|N]]; [|contradiction|].
        -- assert (Z : ln (1 + gamma * D2 / sigma) <= ln (1 + gamma * D1 / sigma)) by (apply ln_mono; nra).
           assert (X1 := Rmult_le_compat_l _ _ _ (neg_inv _ N) Z). lra.
        -- assert (Z : ln (1 + gamma * D1 / sigma) <= ln (1 + gamma * D2 / sigma)) by (apply ln_mono; nra).
           assert (X1 : 0 < / gamma) by (apply Rinv_0_lt_compat; lra). assert (X2 := Rmult_le_compat_l (/ gamma) _ _ ltac:(lra) Z).
           replace (-1 / gamma) with (- / gamma) by (unfold Rdiv; ring). lra.
Qed.

Lemma tail_of_quantile gamma sigma rho : 0 < sigma -> 0 < rho <= 1 -> gpd_tail gamma sigma (gpd_quantile gamma sigma rho) = rho.
Proof.
  intros S R. assert (L : ln rho <= 0) by (rewrite <- ln_1; apply ln_mono; lra).
  unfold gpd_tail. destruct (Req_EM_T rho 1) as [->|R1].
  { replace (gpd_quantile gamma sigma 1) with 0; [destruct (Rle_dec 0 0); lra|]. unfold gpd_quantile, Rpower. rewrite ln_1. destruct (Req_EM_T gamma 0); [ring|]. rewrite Rmult_0_r, exp_0. ring. }
  assert (L1 : ln rho < 0) by (rewrite <- ln_1; apply ln_increasing; lra).
  unfold gpd_quantile, gpd_survival. destruct (Req_EM_T gamma 0) as [G|G].
  - destruct (Rle_dec (- sigma * ln rho) 0) as [X|X]; [nra|]. subst gamma. destruct (Rle_dec _ 0) as [Y|Y]; [unfold Rdiv in Y; lra|].
    replace (- (- sigma * ln rho) / sigma) with (ln rho) by (field; lra). apply exp_ln. lra.
  - set (w := Rpower rho (- gamma)). assert (W : 0 < w) by apply exp_pos.
    replace (1 + gamma * (sigma / gamma * (w - 1)) / sigma) with w by (field; split; lra).
    destruct (Rle_dec w 0) as [X|_]; [lra|]. destruct (Rle_dec (sigma / gamma * (w - 1)) 0) as [X|_].
    + exfalso. assert (Q : 0 < sigma / gamma * (w - 1)); [|lra]. unfold w, Rpower. destruct (Rtotal_order gamma 0) as [N|[N|N]]; [|contradiction|].
      * assert (exp (- gamma * ln rho) < exp 0) by (apply exp_increasing; nra). rewrite exp_0 in H.
        replace (sigma / gamma * (exp (- gamma * ln rho) - 1)) with (sigma * / (- gamma) * (1 - exp (- gamma * ln rho))) by (field; lra).
        apply Rmult_lt_0_compat; [apply Rmult_lt_0_compat; [lra|apply Rinv_0_lt_compat; lra]|lra].
      * assert (exp 0 < exp (- gamma * ln rho)) by (apply exp_increasing; nra). rewrite exp_0 in H.
        apply Rmult_lt_0_compat; [unfold Rdiv; apply Rmult_lt_0_compat; [lra|apply Rinv_0_lt_compat; lra]|lra].
    + unfold w. rewrite Rpower_mult. replace (- gamma * (-1 / gamma)) with 1 by (field; lra). apply Rpower_1. lra.
Qed.

(** steps without an excess leave the thresholds, the side and the window alone *)
Lemma quiet_steps (mf : MathFns B64) q low discard level cap xs : forall (s s' : spot B64) rs, detector mf q low discard level cap s ->
  spot_steps mf s xs = Ret (s', rs) -> ~ In EXCESS rs -> detector mf q low discard level cap s' /\ s_at s' = s_at s /\ s_et s' = s_et s.
Proof.
  induction xs as [|x xs IH]; intros s s' rs D; cbn [spot_steps]; [intros H _; injection H as <- <-; auto|].
  destruct (spot_step mf s x) as [[s1 r]|] eqn:E; [|discriminate]. cbn [bind]. destruct (spot_steps mf s1 xs) as [[s2 l]|] eqn:E2; [|discriminate]. cbn [bind].
  intros H NE. injection H as <- <-.
  assert (D1 : detector mf q low discard level cap s1) by (eapply (detector_call _ _ _ _ _ _ _ (CStep (N := B64) x)); [exact D|]; cbn [do_call]; rewrite E; reflexivity).
  destruct (IH s1 s2 l D1 E2) as (A & B & C); [intros Y; apply NE; right; exact Y|]. split; [exact A|]. rewrite B, C.
  apply step_inv in E. destruct E as [? -> _|? ? ? -> _|? ? ? -> _|? ? ? ? ? ? ? ? ? ? ? R]; auto. exfalso. apply NE. left. exact R.
Qed.

Lemma verdict_meaning q low discard level cap (s0 s1 s2 s3 : spot B64) et dir sigma gamma xs rs (x : b64) r :
  detector (c_math musl_utils) q low discard level cap s0 -> discard <> 0%Z ->
  (exists y, spot_step (c_math musl_utils) s0 y = Ret (s1, EXCESS)) \/ (exists l, spot_fit (c_math musl_utils) s0 l = Ret (s1, 0%Z)) ->
  finite_detector s1 et dir sigma gamma -> finite64 q = true -> usual_range s1 et sigma gamma (B2R64 q) ->
  B2R64 q <= IZR (s_Nt s1) / IZR (s_n s1) ->
  spot_steps (c_math musl_utils) s1 xs = Ret (s2, rs) -> ~ In EXCESS rs ->
  spot_step (c_math musl_utils) s2 x = Ret (s3, r) -> finite64 x = true ->
  let rho := relative_risk s1 (B2R64 q) in
  let err := quantile_error gamma sigma rho + 2 / 10 ^ 16 * Rabs (et + dir * gpd_quantile gamma sigma rho) + 1 / 10 ^ 58 in
  let D := dir * (B2R64 x - et) in
  (r = ANOMALY -> IZR (s_Nt s1) / IZR (s_n s1) * gpd_tail gamma sigma (D + err) <= B2R64 q) /\
  (r <> ANOMALY -> B2R64 q <= IZR (s_Nt s1) / IZR (s_n s1) * gpd_tail gamma sigma (D - err)).
Proof.
  intros D0 HD R FD Fq UR Hq ST NE EX Fx rho err D.
  pose proof (refit_detector _ _ _ _ _ _ _ _ D0 (refit_of _ _ R)) as D1.
  destruct (quiet_steps _ _ _ _ _ _ _ _ _ _ D1 ST NE) as (D2 & EA & EE).
  pose proof (detector_facts _ _ _ _ _ _ _ D1) as (QQ & _).
  assert (TA := threshold_accuracy s0 s1 et dir sigma gamma R FD). rewrite QQ in TA. destruct (TA Fq UR) as (Fa & Ha). clear TA. fold rho in Ha. fold err in Ha.
  pose proof FD as (Fe & Ee & Hdir & _ & _ & Hs & _ & _ & HN & _).
  assert (NN : 0 < IZR (s_Nt s1) / IZR (s_n s1)) by (apply Rdiv_lt_0_compat; apply IZR_lt; lia).
  assert (Q0 : 0 < B2R64 q) by (destruct UR as (_ & _ & _ & (U & _) & _); assert (0 < / 10 ^ 40) by (apply Rinv_0_lt_compat, pow_lt; lra); lra).
  assert (RH : 0 < rho <= 1).
  { unfold rho, relative_risk. split; [apply Rdiv_lt_0_compat; assumption|]. apply Rmult_le_reg_r with (IZR (s_Nt s1) / IZR (s_n s1)); [exact NN|].
    unfold Rdiv at 1. rewrite Rmult_assoc, Rinv_l by lra. lra. }
  assert (RQ : IZR (s_Nt s1) / IZR (s_n s1) * rho = B2R64 q).
  { unfold rho, relative_risk. unfold Rdiv at 2. rewrite <- Rmult_assoc, (Rmult_comm _ (B2R64 q)), Rmult_assoc, Rinv_r by lra. ring. }
  assert (TQ := tail_of_quantile gamma sigma rho Hs RH). set (z := gpd_quantile gamma sigma rho) in *.
  assert (Nx : is_NaN x = false) by (rewrite is_NaN_eq; apply finite_not_nan; exact Fx).
  destruct (C07_lemma _ _ _ _ _ _ s2 x D2 Nx) as (A1 & A2).
  assert (BD : beyond low (s_at s2) x = true -> z <= D + err).
  { intros B. unfold beyond in B. rewrite EA in B. unfold D. destruct (detector_sided _ _ _ _ _ _ _ D1) as [(L & U)|(L & U)].
    - rewrite (proj2 (Z.eqb_eq _ _) L) in B. apply ltb_true_iff in B as (_ & _ & B). rewrite !xval_finite in B by assumption.
      destruct Hdir as [(_ & ->)|(U' & _)]; [|rewrite U in U'; discriminate]. apply Rabs_le_inv in Ha. lra.
    - destruct (low =? 0)%Z eqn:LZ; [apply Z.eqb_eq in LZ; contradiction|]. apply ltb_true_iff in B as (_ & _ & B). rewrite !xval_finite in B by assumption.
      destruct Hdir as [(U' & _)|(_ & ->)]; [rewrite U in U'; discriminate|]. apply Rabs_le_inv in Ha. lra. }
  assert (NB : beyond low (s_at s2) x = false -> D - err <= z).
  { intros B. unfold beyond in B. rewrite EA in B. unfold D. destruct (detector_sided _ _ _ _ _ _ _ D1) as [(L & U)|(L & U)].
    - rewrite (proj2 (Z.eqb_eq _ _) L) in B. rewrite ltb_xval, !xval_finite in B by (try assumption; apply finite_not_nan; assumption).
      destruct (Rlt_bool_spec (B2R64 (s_at s1)) (B2R64 x)); [discriminate|].
      destruct Hdir as [(_ & ->)|(U' & _)]; [|rewrite U in U'; discriminate]. apply Rabs_le_inv in Ha. lra.
    - destruct (low =? 0)%Z eqn:LZ; [apply Z.eqb_eq in LZ; contradiction|]. rewrite ltb_xval, !xval_finite in B by (try assumption; apply finite_not_nan; assumption).
      destruct (Rlt_bool_spec (B2R64 x) (B2R64 (s_at s1))); [discriminate|].
      destruct Hdir as [(U' & _)|(_ & ->)]; [rewrite U in U'; discriminate|]. apply Rabs_le_inv in Ha. lra. }
  rewrite <- RQ. split.
  - intros ->. destruct (A2 _ EX) as (_ & B & _). apply Rmult_le_compat_l; [lra|]. rewrite <- TQ. apply tail_antitone; [exact Hs|]. exact (BD B).
  - intros NA. apply Rmult_le_compat_l; [lra|]. rewrite <- TQ. apply tail_antitone; [exact Hs|]. apply NB.
    destruct (beyond low (s_at s2) x) eqn:B; [|reflexivity]. exfalso. apply NA. assert (X := A1 (conj HD eq_refl)). rewrite X in EX. injection EX as _ <-. reflexivity.
Qed.

Lemma tail_survival gamma sigma : 0 < sigma ->
  (forall D1 D2, D1 <= D2 -> gpd_tail gamma sigma D2 <= gpd_tail gamma sigma D1) /\
  (forall D, D <= 0 -> gpd_tail gamma sigma D = 1) /\
  (forall rho, 0 < rho <= 1 -> gpd_tail gamma sigma (gpd_quantile gamma sigma rho) = rho).
Proof.
  intros S. split; [intros D1 D2; apply tail_antitone; exact S|]. split; [|intros rho; apply tail_of_quantile; exact S].
  intros D H. unfold gpd_tail. destruct (Rle_dec D 0); [reflexivity|contradiction].
Qed.
