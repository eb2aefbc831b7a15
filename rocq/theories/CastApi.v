(** * Lemmas: when spot_step and spot_fit reach the undefined conversion of xexp (C45) *)
From Coq Require Import ZArith List Bool Reals Lia.
From Flocq Require Import IEEE754.BinarySingleNaN.
From Verif Require Import Num XMath Ubend Session Peaks Brent Estimator Tail P2 Spot B64 Spec
  NumFacts UbendFacts PeaksFacts B64Facts P2Facts SpotFacts SpotB64 DetectorLemmas WindowLemmas FitEffect CastLemmas.
Import ListNotations.
Open Scope Z_scope.

(** the risk accepted by spot_init is not below or equal to zero *)
Lemma detector_risk mf q low discard level cap (s : spot B64) :
  detector mf q low discard level cap s -> b64_leb (s_q s) (b64_ofZ 0) = false.
Proof.
  intros D. pose proof (detector_facts _ _ _ _ _ _ _ D) as (-> & _).
  destruct D as (old & blk & s0 & calls & answers & _ & _ & H & _).
  unfold spot_init in H. destruct (spot_check q level) eqn:C.
  { injection H as _ ->. unfold spot_check in C. destruct (_ || _)%bool in C; [discriminate|]. destruct (_ || _)%bool in C; discriminate. }
  unfold spot_check in C. destruct (_ || _)%bool in C; [discriminate|].
  destruct (nle (nsub (nofZ 1) level) q || nle q (nofZ 0))%bool eqn:E in C; [discriminate|].
  apply orb_false_iff in E as (_ & E). exact E.
Qed.

Lemma step_undefined_lemma q low discard level cap (s : spot B64) (x : b64) w :
  detector (c_math musl_utils) q low discard level cap s -> 0 <= s_Nt s <= s_n s -> s_n s + 1 < 2 ^ 64 ->
  spot_step (c_math musl_utils) s x = Undef w ->
  exists t1 t2 ll, tail_push (s_tail s) (b64_mult (s_updown s) (b64_minus x (s_et s))) = Ret t1 /\
    tail_fit (c_math musl_utils) t1 = Ret (t2, ll) /\ huge (t_gamma t2).
Proof.
  intros D Hc Hn. pose proof (detector_risk _ _ _ _ _ _ _ D) as Hq.
  apply detector_facts in D as (_ & _ & _ & _ & _ & l & W).
  unfold spot_step. destruct (XMath.is_nan (N := B64) x); [discriminate|].
  destruct (_ && _)%bool; [discriminate|]. cbv zeta.
  cbn [s_updown s_et with_counts s_Nt s_n s_q s_tail].
  destruct (nle _ _); [|discriminate].
  destruct (tail_push_total cap (s_tail s) l (@nmul B64 (s_updown s) (@nsub B64 x (s_et s))) W) as (t1 & E1 & W' & _).
  rewrite E1. cbn [bind]. destruct (tail_fit_total (c_math musl_utils) cap t1 _ W') as (t2 & ll & E2 & _). rewrite E2.
  cbn [bind s_q with_tail].
  destruct (spot_quantile _ _ _) eqn:E; cbn [bind]; [discriminate|]. intros _.
  exists t1, t2, ll. split; [exact E1|]. split; [exact E2|].
  apply (spot_quantile_huge _ _ _ Hq) in E; [exact E| |]; cbn [s_Nt s_n with_tail with_counts]; rewrite ?u64_small; lia.
Qed.

Lemma filter_length_le {A} (f : A -> bool) l : (length (filter f l) <= length l)%nat.
Proof. induction l as [|a l IH]; [apply Nat.le_refl|]. cbn. destruct (f a); cbn; lia. Qed.

Lemma fit_undefined_lemma q low discard level cap (s : spot B64) (data : list (num B64)) w :
  detector (c_math musl_utils) q low discard level cap s -> Z.of_nat (length data) < 2 ^ 64 ->
  spot_fit (c_math musl_utils) s data = Undef w ->
  exists (et : b64) filled t2 ll, p2_quantile (N := B64) (if low =? 0 then level else b64_minus (b64_ofZ 1) level) data = Ret (et : num B64) /\
    peaks_pushes (t_peaks (s_tail s)) (excesses low et data) = Ret filled /\
    tail_fit (c_math musl_utils) (MkTail (t_gamma (s_tail s)) (t_sigma (s_tail s)) filled) = Ret (t2, ll) /\ huge (t_gamma t2).
Proof.
  intros D HL. pose proof (detector_risk _ _ _ _ _ _ _ D) as Hq. pose proof (detector_sided _ _ _ _ _ _ _ D) as S.
  apply detector_facts in D as (_ & Dl & _ & Dlow & _ & l & W).
  unfold spot_fit. cbv zeta. cbn [s_low s_level with_counts].
  assert (EL : (if Z.eqb (s_low s) 0 then s_level s else nsub (nofZ 1) (s_level s))
               = (if low =? 0 then level else b64_minus (b64_ofZ 1) level)).
  { rewrite Dlow, Dl. destruct (low =? 0); reflexivity. }
  rewrite EL. destruct (p2_quantile_total trunc_ok_b64 (if low =? 0 then level else b64_minus (b64_ofZ 1) level) data) as (et & Ee).
  rewrite Ee. cbn [bind]. destruct (XMath.is_nan et); [discriminate|].
  destruct (fit_fill_wf cap et (with_et (with_counts s 0 (Z.of_nat (length data))) et) data l W) as (s1 & E1 & W1).
  rewrite E1. cbn [bind]. destruct (tail_fit_total (c_math musl_utils) cap (s_tail s1) _ W1) as (t2 & ll & E2 & _). rewrite E2.
  cbn [bind s_q with_tail].
  destruct (spot_quantile _ _ _) eqn:E; cbn [bind].
  { destruct (XMath.is_nan a); discriminate. }
  intros _. exists et, (t_peaks (s_tail s1)), t2, ll. split; [reflexivity|].
  pose proof (fit_fill_pushes _ _ _ _ E1) as P.
  pose proof (fit_fill_counts _ _ _ _ E1) as C. cbn [s_Nt with_et with_counts] in C. specialize (C ltac:(lia)).
  pose proof (fit_fill_frame _ _ _ _ E1) as (Fr & G1 & G2). cbn [s_tail with_et with_counts] in P, G1, G2.
  assert (Fn : s_n s1 = Z.of_nat (length data)) by (rewrite Fr; reflexivity).
  assert (Fq : s_q s1 = s_q s) by (rewrite Fr; reflexivity).
  split.
  { rewrite <- (fit_excesses_eq low s et data S). exact P. }
  split.
  { rewrite <- G1, <- G2. destruct (s_tail s1). exact E2. }
  assert (LE : (length (fit_excesses (with_et (with_counts s 0 (Z.of_nat (length data))) et) et data) <= length data)%nat).
  { unfold fit_excesses. eapply Nat.le_trans; [apply filter_length_le|]. rewrite map_length. apply Nat.le_refl. }
  change (num B64) with b64 in *.
  rewrite u64_small in C by lia. rewrite Fq in E.
  apply (spot_quantile_huge _ _ _ Hq) in E; [exact E| |]; cbn [s_Nt s_n with_tail with_counts]; rewrite ?C, ?Fn; lia.
Qed.

Lemma spot_quantile_defined_lemma (s : spot B64) (q : b64) :
  b64_leb q (d 0) = false -> 0 <= s_Nt s <= s_n s -> s_n s < 2 ^ 64 ->
  is_NaN (t_gamma (s_tail s)) = true \/ (finite64 (t_gamma (s_tail s)) = true /\ (Rabs (B2R64 (t_gamma (s_tail s))) <= 39 * 10 ^ 5)%R) ->
  exists v, spot_quantile (c_math musl_utils) s q = Ret v.
Proof.
  intros Hq H Hn G. rewrite is_NaN_eq in G. unfold spot_quantile.
  destruct (quantile_defined (s_tail s) (b64_div (b64_ofZ (s_Nt s)) (b64_ofZ (s_n s))) q G (risk_not_zero q _ _ Hq H Hn)) as (v & E).
  change (@ndiv B64 (nofZ (s_Nt s)) (nofZ (s_n s))) with (b64_div (b64_ofZ (s_Nt s)) (b64_ofZ (s_n s))). rewrite E. eexists. reflexivity.
Qed.
Lemma spot_probability_defined_lemma (s : spot B64) (z : b64) :
  finite64 (t_gamma (s_tail s)) = true -> (3 / 10 ^ 7 <= Rabs (B2R64 (t_gamma (s_tail s))))%R ->
  (forall sg, b64_plus (d 1) (b64_mult (b64_mult (s_updown s) (b64_minus z (s_et s))) (b64_div (t_gamma (s_tail s)) (t_sigma (s_tail s)))) <> B754_zero sg) ->
  exists v, spot_probability (c_math musl_utils) s z = Ret v.
Proof. intros F G H. unfold spot_probability. apply probability_defined; assumption. Qed.
Lemma spot_probability_exponential_lemma fu (s : spot B64) (z : b64) :
  b64_eqb (t_gamma (s_tail s)) (d 0) = true ->
  let e := b64_div (b64_opp (b64_mult (s_updown s) (b64_minus z (s_et s)))) (t_sigma (s_tail s)) in
  (is_NaN e = true \/ (finite64 e = true /\ (Rabs (B2R64 e) <= 2977044471)%R) -> exists v, spot_probability (c_math fu) s z = Ret v) /\
  ((exists sg, e = B754_infinity sg) \/ (finite64 e = true /\ (2977044472 <= Rabs (B2R64 e))%R) -> spot_probability (c_math fu) s z = Undef CastRange).
Proof.
  intros G e. rewrite is_NaN_eq. unfold spot_probability.
  exact (probability_gamma_zero fu (s_tail s) (b64_div (b64_ofZ (s_Nt s)) (b64_ofZ (s_n s))) (b64_mult (s_updown s) (b64_minus z (s_et s))) G).
Qed.
