(** * FlatLemmas: proofs for C103 (a calibration without excess) *)
From Coq Require Import ZArith List Bool Lia.
From Flocq Require Import IEEE754.BinarySingleNaN.
From Verif Require Import Num XMath Ubend Session Peaks Brent Estimator Tail P2 Spot B64 Spec P2Spec
  SpotB64 WindowLemmas FitEffect CastLemmas CastApi LogAcc P2Lemmas PeaksFacts.
Import ListNotations.
Open Scope Z_scope.

Lemma risk_over_zero (q : b64) : b64_leb q (b64_ofZ 0) = false -> b64_div q (B754_zero false) = B754_infinity false \/ b64_div q (B754_zero false) = B754_nan.
Proof. destruct q as [[]|[]| |[] m e H]; intros L; try (right; reflexivity); try (left; reflexivity); discriminate L. Qed.
Lemma log_blind (x : b64) : x = B754_infinity false \/ x = B754_nan -> xlog (N := B64) musl_utils x = (B754_nan : b64).
Proof. destruct (xlog_special musl_utils x) as (A & _ & _ & B). intros [-> | ->]; [apply B|apply A]; reflexivity. Qed.
Lemma nan_mult (x : b64) : b64_mult x B754_nan = B754_nan.
Proof. destruct x; reflexivity. Qed.
Lemma quantile_without_excess (s : spot B64) (q : b64) : b64_leb q (b64_ofZ 0) = false -> s_Nt s = 0 -> 0 <= s_n s < 2 ^ 64 ->
  spot_quantile (c_math musl_utils) s q = Ret (B754_nan : b64).
Proof.
  intros Q T n. unfold spot_quantile. rewrite T. set (r := ndiv (nofZ 0) (nofZ (s_n s))).
  assert (R : ndiv (n := B64) q r = (B754_infinity false : b64) \/ ndiv (n := B64) q r = (B754_nan : b64)).
  { destruct (ratio_cases 0 (s_n s)) as [(_ & [E|E])|(E & _)]; try lia; subst r; change (ndiv (n := B64)) with b64_div; change (nofZ (n := B64)) with b64_ofZ; rewrite E;
      [right; destruct q; reflexivity|exact (risk_over_zero q Q)]. }
  unfold tail_quantile. destruct (neq _ _).
  - cbn [bind m_log c_math]. rewrite (log_blind _ R). change (nmul (n := B64)) with b64_mult. rewrite !nan_mult. change (nadd (n := B64)) with b64_plus.
    destruct (s_et s : b64); reflexivity.
  - cbn [m_pow c_math]. unfold xpow. rewrite (log_blind _ R). change (nmul (n := B64)) with b64_mult. rewrite nan_mult.
    replace (xexp (N := B64) musl_utils (B754_nan : b64)) with (Ret (B754_nan : num B64)) by reflexivity. cbn [bind].
    change (nsub (n := B64)) with b64_minus. change (b64_minus B754_nan (nofZ (n := B64) 1)) with (B754_nan : b64). rewrite !nan_mult. change (nadd (n := B64)) with b64_plus.
    destruct (s_et s : b64); reflexivity.
Qed.
Lemma fit_without_excess q low discard level cap (s : spot B64) (data : list b64) s' r :
  detector (c_math musl_utils) q low discard level cap s -> Z.of_nat (length data) < 2 ^ 64 -> spot_fit (c_math musl_utils) s data = Ret (s', r) -> r <> -1003 ->
  (forall x, In x data -> beyond low (s_et s') x = false) ->
  r = -1004 /\ s_at s' = (B754_nan : b64) /\ s_Nt s' = 0 /\ t_peaks (s_tail s') = t_peaks (s_tail s).
Proof.
  intros D L F NR NB. destruct (C51_lemma _ _ _ _ _ _ _ _ _ _ D L F) as (et & _ & A & B).
  destruct (is_NaN et) eqn:E; [destruct (A eq_refl) as (-> & _); contradiction|].
  destruct (B eq_refl) as (E1 & E2 & E3 & E4 & _ & _ & _ & _ & (filled & ll & P & T) & Q & R).
  assert (NF : filter (beyond low et) data = []).
  { rewrite E1 in NB. clear - NB. induction data as [|x data IH]; [reflexivity|]. cbn [filter]. rewrite (NB x (or_introl eq_refl)). apply IH. intros y Y. apply NB. right. exact Y. }
  unfold count in E3. unfold excesses in P. rewrite NF in E3, P. cbn [length map peaks_pushes] in E3, P. injection P as <-.
  rewrite quantile_without_excess in Q; [|rewrite E4; exact (detector_risk _ _ _ _ _ _ _ D)|exact E3|rewrite E2; lia].
  injection Q as Q. rewrite <- Q in R. split; [exact R|]. split; [symmetry; exact Q|]. split; [exact E3|].
  apply tail_fit_peaks in T. exact T.
Qed.
Lemma flat_batch q low discard level cap (s : spot B64) (data : list b64) s' r :
  detector (c_math musl_utils) q low discard level cap s -> bounded_batch data -> (forall x y, In x data -> In y data -> b64_eqb x y = true) ->
  spot_fit (c_math musl_utils) s data = Ret (s', r) ->
  r = -1004 /\ s_at s' = (B754_nan : b64) /\ s_Nt s' = 0 /\ t_peaks (s_tail s') = t_peaks (s_tail s).
Proof.
  intros D BB EQ F. destruct (C22_lemma _ _ _ _ _ BB F) as (NR & _ & (x & X & Lx) & (y & Y & Ly)). pose proof BB as ((_ & LL) & FX & _).
  refine (fit_without_excess _ _ _ _ _ _ _ _ _ D _ F NR _); [lia|]. intros z Hz.
  assert (K : forall a b, In a data -> In b data -> b64_leb a b = true).
  { intros a b Ha Hb. specialize (EQ a b Ha Hb). unfold b64_eqb, b64_leb, Beqb, Bleb, SpecFloat.SFeqb, SpecFloat.SFleb in *. destruct (SpecFloat.SFcompare _ _) as [[]|]; try discriminate; reflexivity. }
  pose proof (leb_trans _ _ _ (K z x Hz X) Lx) as U1. pose proof (leb_trans _ _ _ Ly (K y z Y Hz)) as U2. unfold beyond.
  assert (V : forall a b, b64_leb a b = true -> b64_leb b a = true -> b64_ltb a b = false).
  { intros a b H1 H2. destruct (b64_ltb a b) eqn:H; [|reflexivity]. exfalso. unfold b64_ltb, b64_leb, Bltb, Bleb, SpecFloat.SFltb, SpecFloat.SFleb in *.
    change (SpecFloat.SFcompare (B2SF b) (B2SF a)) with (Bcompare b a) in H2. change (SpecFloat.SFcompare (B2SF a) (B2SF b)) with (Bcompare a b) in H, H1.
    rewrite (Bcompare_swap _ _ a b) in H2. destruct (Bcompare a b) as [[]|]; cbn in *; discriminate. }
  destruct (low =? 0); [exact (V _ _ U2 U1)|exact (V _ _ U1 U2)].
Qed.
Lemma zero_div (x : b64) z : (exists z', b64_div (B754_zero z) x = B754_zero z') \/ b64_div (B754_zero z) x = B754_nan.
Proof. destruct x as [[]|[]| |[] m e H], z; cbn; eauto. Qed.
Lemma zero_mult (x : b64) z : (exists z', b64_mult (B754_zero z) x = B754_zero z') \/ b64_mult (B754_zero z) x = B754_nan.
Proof. destruct x as [[]|[]| |[] m e H], z; cbn; eauto. Qed.
Lemma probability_without_excess mf (s : spot B64) (z v : b64) : s_Nt s = 0 -> spot_probability mf s z = Ret (v : num B64) ->
  b64_eqb v (b64_ofZ 0) = true \/ is_NaN v = true.
Proof.
  intros T. unfold spot_probability. rewrite T. set (r := ndiv (nofZ 0) (nofZ (s_n s))).
  assert (R : (exists z', r = (B754_zero z' : b64)) \/ r = (B754_nan : b64)) by exact (zero_div _ false).
  assert (K : forall y : b64, b64_eqb (nmul (n := B64) r y) (b64_ofZ 0) = true \/ is_NaN (nmul (n := B64) r y : b64) = true).
  { intros y. destruct R as [(z' & ->)| ->]; [|right; destruct y; reflexivity]. destruct (zero_mult y z') as [(z2 & E)|E];
      change (nmul (n := B64)) with b64_mult; rewrite E; [left; destruct z2; reflexivity|right; reflexivity]. }
  unfold tail_probability. destruct (neq _ _); (match goal with |- bind ?e _ = _ -> _ => destruct e as [y|] end; cbn [bind]; [|discriminate]); intros H; injection H as <-; apply K.
Qed.
