(** * Lemmas: the complete effect of a calibration (C51) *)
From Coq Require Import ZArith List Bool Lia.
From Flocq Require Import IEEE754.BinarySingleNaN.
From Verif Require Import Num XMath Ubend Session Peaks Brent Estimator Tail P2 Spot B64 Spec
  NumFacts UbendFacts PeaksFacts B64Facts SpotFacts SpotB64 DetectorLemmas WindowLemmas.
Import ListNotations.
Open Scope Z_scope.

Section Generic.
Context {N : NumOps}.

(** the calibration loop pushes the excesses one after the other *)
Lemma fit_fill_pushes (et : num N) (data : list (num N)) : forall (s s' : spot N), fit_fill et s data = Ret s' ->
  peaks_pushes (t_peaks (s_tail s)) (fit_excesses s et data) = Ret (t_peaks (s_tail s')).
Proof.
  unfold fit_excesses.
  induction data as [|x data IH]; intros s s'; cbn [fit_fill map filter].
  - intros H; injection H as <-. reflexivity.
  - destruct (nlt _ _).
    2: apply IH.
    unfold tail_push. cbn [peaks_pushes]. destruct (peaks_push _ _) as [p|] eqn:E; cbn [bind]; [|discriminate].
    intros H. apply IH in H. exact H.
Qed.

End Generic.

Lemma C51_lemma mf q low discard level cap (s : spot B64) (data : list b64) s' r :
  detector mf q low discard level cap s -> Z.of_nat (length data) < 2 ^ 64 -> spot_fit mf s data = Ret (s', r) ->
  exists et : b64, p2_quantile (N := B64) (if low =? 0 then level else b64_minus (b64_ofZ 1) level) data = Ret (et : num B64) /\
  (is_NaN et = true -> r = -1003 /\ s' = with_counts s 0 (Z.of_nat (length data))) /\
  (is_NaN et = false ->
     s_et s' = et /\ s_n s' = Z.of_nat (length data) /\ s_Nt s' = count (beyond low et) data /\
     s_q s' = s_q s /\ s_level s' = s_level s /\ s_low s' = s_low s /\ s_discard s' = s_discard s /\ s_updown s' = s_updown s /\
     (exists filled ll, peaks_pushes (t_peaks (s_tail s)) (excesses low et data) = Ret filled /\
        tail_fit mf (MkTail (t_gamma (s_tail s)) (t_sigma (s_tail s)) filled) = Ret (s_tail s', ll)) /\
     spot_quantile mf s' (s_q s') = Ret (s_at s') /\
     r = if is_NaN (s_at s') then -1004 else 0).
Proof.
  intros D HL F. pose proof (detector_sided _ _ _ _ _ _ _ D) as S.
  apply detector_facts in D as (Dq & Dl & _ & Dlow & _ & l & W).
  pose proof (fit_wf mf cap s data l s' r W F) as FW.
  assert (EL : (if Z.eqb (s_low s) 0 then s_level s else nsub (nofZ 1) (s_level s))
               = (if low =? 0 then level else b64_minus (b64_ofZ 1) level)).
  { rewrite Dlow, Dl. destruct (low =? 0); reflexivity. }
  apply fit_inv in F. destruct F as [et E Ne -> ->|et s1 t2 ll a E Ne E2 E3 E4 -> ->]; rewrite EL in E;
    exists et; split; try exact E; rewrite is_NaN_model in Ne; (split; intros C; try congruence).
  { split; reflexivity. }
  destruct FW as [(Er & _)|(_ & _ & _ & Cn & Ct & F1 & F2 & F3 & F4 & F5)].
  { destruct (XMath.is_nan a); discriminate. }
  assert (Eet : s_et (with_at (with_tail s1 t2) a) = et).
  { apply fit_fill_frame in E2 as (-> & _). reflexivity. }
  rewrite Eet in Ct. rewrite (fit_excess_count low s et data S) in Ct.
  split; [exact Eet|]. split; [exact Cn|]. split.
  { rewrite Ct. apply u64_small. pose proof (@count_le b64 (beyond low et) data). change (num B64) with b64 in *. lia. }
  split; [exact F1|]. split; [exact F2|]. split; [exact F3|]. split; [exact F4|]. split; [exact F5|].
  split.
  { pose proof (fit_fill_pushes _ _ _ _ E2) as P. apply fit_fill_frame in E2 as (_ & G1 & G2).
    cbn [s_tail with_et with_counts] in P, G1, G2. exists (t_peaks (s_tail s1)), ll. split.
    - rewrite <- (fit_excesses_eq low s et data S). exact P.
    - cbn [s_tail with_at with_tail]. rewrite <- G1, <- G2. destruct (s_tail s1). exact E3. }
  split.
  { exact E4. }
  rewrite is_NaN_model. reflexivity.
Qed.
