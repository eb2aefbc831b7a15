(** * StaleLemmas: the anomaly threshold between two excesses, in exact arithmetic (C68) *)
From Coq Require Import ZArith List Bool Lia Reals Lra.
From Flocq Require Import Core.Core.
From Verif Require Import Num NumFacts XMath Ubend Session Peaks Brent Estimator Tail P2 Spot SpotFacts RNum Spec TailSpec ExactTail RefitLemmas DetectorLemmas.
Import ListNotations.
Open Scope R_scope.

Lemma quiet_counts (mf : MathFns RNum) xs : forall (s s' : spot RNum) rs, spot_steps mf s xs = Ret (s', rs) -> ~ In EXCESS rs ->
  (0 <= s_n s)%Z -> (s_n s + Z.of_nat (length xs) < 2 ^ 64)%Z ->
  s' = with_counts s (s_Nt s) (s_n s + Z.of_nat (count_occ Z.eq_dec rs NORMAL)).
Proof.
  induction xs as [|x xs IH]; intros s s' rs; cbn [spot_steps].
  - intros H; injection H as <- <-. intros _ _ _. cbn. rewrite Z.add_0_r. destruct s; reflexivity.
  - destruct (spot_step mf s x) as [[s1 r]|] eqn:E; cbn [bind]; [|discriminate].
    destruct (spot_steps mf s1 xs) as [[s2 l]|] eqn:E2; cbn [bind]; [|discriminate].
    intros H; injection H as <- <-. intros NI N0 N1. cbn [length] in N1.
    apply step_inv in E. destruct E as [Nx -> ->|? ? ? -> ->|? ? ? -> ->|t1 t2 ll a ? ? ? ? ? ? ? ->].
    + rewrite (IH _ _ _ E2) at 1; [|intros H; apply NI; right; exact H|lia|lia]. cbn [count_occ]. destruct (Z.eq_dec _ NORMAL) as [H|_]; [discriminate H|reflexivity].
    + rewrite (IH _ _ _ E2) at 1; [|intros H'; apply NI; right; exact H'|lia|lia]. cbn [count_occ]. destruct (Z.eq_dec _ NORMAL) as [H'|_]; [discriminate H'|reflexivity].
    + assert (U : u64 (s_n s + 1) = (s_n s + 1)%Z) by (apply Z.mod_small; lia). rewrite U in E2.
      rewrite (IH _ _ _ E2); cbn [s_n s_Nt with_counts]; [|intros H'; apply NI; right; exact H'|lia|lia].
      cbn [count_occ]. destruct (Z.eq_dec NORMAL NORMAL) as [_|H']; [|congruence]. unfold with_counts. cbn [s_q s_level s_discard s_low s_updown s_at s_et s_tail]. f_equal. lia.
    + exfalso. apply NI. left. reflexivity.
Qed.

Lemma zq_rate (s1 s2 : spot RNum) et u sg g q : 0 < excess_rate s1 -> 0 < excess_rate s2 ->
  zq s2 et u sg g q = zq s1 et u sg g (q * (excess_rate s1 / excess_rate s2)).
Proof.
  intros H1 H2. unfold zq. replace (q * (excess_rate s1 / excess_rate s2) / excess_rate s1) with (q / excess_rate s2) by (field; lra). reflexivity.
Qed.

Lemma C68_lemma (s0 s1 s2 : spot RNum) et dir sigma gamma q xs rs :
  (exists y, spot_step exact_math s0 y = Ret (s1, EXCESS)) \/ (exists data, spot_fit exact_math s0 data = Ret (s1, 0%Z)) ->
  real_detector s1 et dir sigma gamma -> s_q s1 = Some q -> 0 < q ->
  spot_steps exact_math s1 xs = Ret (s2, rs) -> ~ In EXCESS rs -> In NORMAL rs -> (s_n s1 + Z.of_nat (length xs) < 2 ^ 64)%Z ->
  exists a z, s_at s1 = Some a /\ s_at s2 = Some a /\ spot_quantile exact_math s2 (Some q : num RNum) = Ret (Some z) /\ dir * z < dir * a /\
    forall x, dir * z < dir * x <= dir * a ->
      (exists p, spot_probability exact_math s2 (Some x : num RNum) = Ret (Some p) /\ p < q) /\
      (forall s3 r, spot_step exact_math s2 (Some x : num RNum) = Ret (s3, r) -> r <> ANOMALY).
Proof.
  intros RF D Q Hq H NE NN HN.
  assert (RQ : spot_quantile exact_math s1 (Some q : num RNum) = Ret (s_at s1)).
  { destruct (refit_tail exact_math s0 s1) as (g0 & t0 & ll & _ & RQ).
    - destruct RF as [A|(data & A)]; [left; exact A|right; exists data, 0%Z; split; [exact A|lia]].
    - rewrite Q in RQ. exact RQ. }
  pose proof (quantile_eq s1 et dir sigma gamma D q Hq) as QE. rewrite RQ in QE. injection QE as QE.
  pose proof D as (D1 & D2 & D3 & D4 & D5 & D6 & D7 & D8).
  pose proof (quiet_counts _ _ _ _ _ H NE ltac:(lia) HN) as E. set (k := count_occ Z.eq_dec rs NORMAL) in *.
  assert (K : (1 <= Z.of_nat k)%Z) by (apply (count_occ_In Z.eq_dec) in NN; subst k; lia).
  assert (D' : real_detector s2 et dir sigma gamma) by (rewrite E; repeat split; try assumption; cbn [s_n with_counts]; lia).
  pose proof (rate_pos _ _ _ _ _ D) as R1. pose proof (rate_pos _ _ _ _ _ D') as R2.
  set (a := zq s1 et dir sigma gamma q) in *. set (z := zq s2 et dir sigma gamma q).
  pose proof (quantile_eq s2 et dir sigma gamma D' q Hq) as QE2. fold z in QE2.
  assert (LT : excess_rate s2 < excess_rate s1).
  { unfold excess_rate. rewrite E. cbn [s_Nt s_n with_counts]. apply Rmult_lt_compat_l; [apply IZR_lt; lia|]. apply Rinv_lt_contravar; [|apply IZR_lt; lia].
    apply Rmult_lt_0_compat; apply IZR_lt; lia. }
  assert (LZ : dir * z < dir * a).
  { unfold z. rewrite (zq_rate s1 s2) by assumption.
    pose proof (offset_decreasing s1 et dir sigma gamma D q (q * (excess_rate s1 / excess_rate s2)) Hq) as O. fold a in O.
    assert (1 < excess_rate s1 / excess_rate s2).
    { apply (Rmult_lt_reg_r (excess_rate s2)); [assumption|]. unfold Rdiv. rewrite Rmult_assoc, Rinv_l by lra. lra. }
    assert (q < q * (excess_rate s1 / excess_rate s2)) by (rewrite <- (Rmult_1_r q) at 1; apply Rmult_lt_compat_l; assumption).
    specialize (O ltac:(assumption)). lra. }
  exists a, z. split; [exact QE|]. split; [rewrite E; exact QE|]. split; [exact QE2|]. split; [exact LZ|].
  intros x (X1 & X2).
  assert (SZ : gpd_support gamma sigma (dir * (z - et))) by (unfold gpd_support, z; rewrite (zq_scaled s2) by exact D'; apply exp_pos).
  assert (SA : gpd_support gamma sigma (dir * (a - et))) by (unfold gpd_support, a; rewrite (zq_scaled s1) by exact D; apply exp_pos).
  assert (SX : gpd_support gamma sigma (dir * (x - et))).
  { unfold gpd_support in *. set (c := gamma / sigma).
    assert (F : forall y, 1 + gamma * y / sigma = 1 + c * y) by (intros y; unfold c; field; lra). rewrite F in *.
    assert (Y : dir * (z - et) < dir * (x - et) <= dir * (a - et)) by lra.
    destruct (Rle_or_lt 0 c) as [G|G].
    - assert (c * (dir * (z - et)) <= c * (dir * (x - et))) by (apply Rmult_le_compat_l; lra). lra.
    - assert (- c * (dir * (x - et)) <= - c * (dir * (a - et))) by (apply Rmult_le_compat_l; lra). lra. }
  split.
  - destruct (C31_backward s2 et dir sigma gamma D' x SX) as (p & P1 & P2 & P3). exists p. split; [exact P1|].
    destruct (Rlt_or_le p q) as [L|L]; [exact L|exfalso]. destruct (Rle_lt_or_eq_dec _ _ L) as [L'|<-].
    + pose proof (C32_decreasing_lemma s2 et dir sigma gamma D' q p z x Hq L' QE2 P3). lra.
    + rewrite QE2 in P3. injection P3 as ->. lra.
  - intros s3 r ST ->. apply step_inv in ST. destruct ST as [? ? A|? ? C|? ? ? ? A|? ? ? ? ? ? ? ? ? ? ? A]; try discriminate.
    rewrite E in C. cbn [s_updown s_at with_counts] in C. rewrite D2, QE in C. cbn in C. revert C. case Rlt_bool_spec; intros C C'; [lra|discriminate].
Qed.
