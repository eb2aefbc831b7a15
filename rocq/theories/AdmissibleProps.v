(** * AdmissibleProps: C61 and C62 in the form of their statements *)
From Coq Require Import ZArith List Bool Reals Lra Lia.
From Flocq Require Import IEEE754.BinarySingleNaN.
From Verif Require Import Num XMath Ubend Session Peaks Brent Estimator Tail P2 Spot B64 B64Facts Spec SpotB64 RefitLemmas AdmissibleApi.
Import ListNotations.
Open Scope R_scope.

Lemma refit_of (s s' : spot B64) :
  (exists x, spot_step (c_math musl_utils) s x = Ret (s', EXCESS)) \/ (exists data, spot_fit (c_math musl_utils) s data = Ret (s', 0%Z)) ->
  refit (c_math musl_utils) s s'.
Proof. intros [R|(data & R)]; [left; exact R|right; exists data, 0%Z; split; [exact R|discriminate]]. Qed.

Lemma C62_or q low discard level cap (s s' : spot B64) :
  detector (c_math musl_utils) q low discard level cap s -> (cap <= 2 ^ 53)%Z ->
  (exists x, spot_step (c_math musl_utils) s x = Ret (s', EXCESS)) \/ (exists data, spot_fit (c_math musl_utils) s data = Ret (s', 0%Z)) ->
  let t := s_tail s' in
  is_finite (peaks_mean (t_peaks t)) = true -> 0 < B2R (peaks_mean (t_peaks t) : b64) ->
  (is_finite (t_gamma t) = true /\ is_finite (t_sigma t) = true /\ 0 < B2R (t_sigma t : b64) /\
   (B2R (t_gamma t : b64) <> 0 -> forall v : b64, In (Some (v : num B64)) (oldest_first (window s')) ->
      b64_leb (b64_ofZ 0) (b64_plus (b64_ofZ 1) (b64_mult (b64_div (t_gamma t) (t_sigma t)) v)) = true)) \/
  (B2R (t_gamma t : b64) = 0 /\ is_finite (t_gamma t) = true /\ t_sigma t = (B754_zero true : b64)).
Proof.
  intros D C R t F H. destruct (usable_or_collapsed q low discard level cap s s' D (refit_of _ _ R) C F H) as [A|((z & A) & B)]; [left; exact A|right].
  unfold t. rewrite A. auto.
Qed.

Lemma C62_good q low discard level cap (s s' : spot B64) :
  detector (c_math musl_utils) q low discard level cap s -> (cap <= 2 ^ 50)%Z ->
  (exists x, spot_step (c_math musl_utils) s x = Ret (s', EXCESS)) \/ (exists data, spot_fit (c_math musl_utils) s data = Ret (s', 0%Z)) ->
  let t := s_tail s' in let p := t_peaks t in
  is_finite (p_max p) = true -> 2 / 10 ^ 8 * IZR (peaks_size p) <= B2R (p_max p : b64) <= 10 ^ 30 ->
  is_finite (p_min p) = true -> / 10 ^ 80 <= B2R (p_min p : b64) ->
  is_finite (peaks_mean p) = true -> B2R (p_min p : b64) <= B2R (peaks_mean p : b64) <= 10 ^ 31 ->
  (is_finite (t_gamma t) = true /\ is_finite (t_sigma t) = true /\ 0 < B2R (t_sigma t : b64) /\
   (B2R (t_gamma t : b64) <> 0 -> forall v : b64, In (Some (v : num B64)) (oldest_first (window s')) ->
      b64_leb (b64_ofZ 0) (b64_plus (b64_ofZ 1) (b64_mult (b64_div (t_gamma t) (t_sigma t)) v)) = true)) /\
  (is_finite (s_et s') = true -> (0 < s_Nt s' <= s_n s')%Z -> (s_n s' <= 2 ^ 53)%Z ->
   is_finite q = true -> 0 < B2R (q : b64) <= IZR (s_Nt s') / IZR (s_n s') ->
   B2R (t_gamma t : b64) = 0 \/
     (Rabs (B2R (t_gamma t : b64)) <= 10 ^ 6 /\ / 10 ^ 300 <= B2R (t_sigma t : b64) / Rabs (B2R (t_gamma t : b64)) <= 10 ^ 300) ->
   BinarySingleNaN.is_nan (s_at s' : b64) = false /\ beyond low (s_at s') (s_et s') = false).
Proof.
  intros D C R t p H1 H2 H3 H4 H5 H6. pose proof (refit_of _ _ R) as R'. split.
  - exact (usable q low discard level cap s s' D R' C H1 H2 H3 H4 H5 H6).
  - exact (usable_threshold q low discard level cap s s' D R' C H1 H2 H3 H4 H5 H6).
Qed.

Lemma C62_threshold q low discard level cap (s s' : spot B64) :
  detector (c_math musl_utils) q low discard level cap s -> (cap <= 2 ^ 50)%Z ->
  (exists x, spot_step (c_math musl_utils) s x = Ret (s', EXCESS)) \/ (exists data r, spot_fit (c_math musl_utils) s data = Ret (s', r) /\ r <> (-1003)%Z) ->
  let t := s_tail s' in let p := t_peaks t in
  is_finite (p_max p) = true -> 2 / 10 ^ 8 * IZR (peaks_size p) <= B2R (p_max p : b64) <= 10 ^ 30 ->
  is_finite (p_min p) = true -> / 10 ^ 80 <= B2R (p_min p : b64) ->
  is_finite (peaks_mean p) = true -> B2R (p_min p : b64) <= B2R (peaks_mean p : b64) <= 10 ^ 31 ->
  is_finite (peaks_var p) = true -> B2R (peaks_mean p : b64) * B2R (peaks_mean p : b64) <= 10 ^ 6 * B2R (peaks_var p : b64) ->
  is_finite (s_et s') = true -> (0 < s_Nt s' <= s_n s')%Z -> (s_n s' <= 2 ^ 53)%Z ->
  is_finite q = true -> 0 < B2R (q : b64) <= IZR (s_Nt s') / IZR (s_n s') ->
  BinarySingleNaN.is_nan (s_at s' : b64) = false /\ beyond low (s_at s') (s_et s') = false.
Proof.
  intros D C R t p H1 H2 H3 H4 H5 H6 H7 H8 H9 H10 H11 H12 H13.
  exact (usable_threshold q low discard level cap s s' D R C H1 H2 H3 H4 H5 H6 H9 H10 H11 H12 H13 (usable_size q low discard level cap s s' D R C H1 H2 H3 H4 H5 H6 H7 H8)).
Qed.

Lemma C62_calibration q low discard level cap (s s' : spot B64) data r :
  detector (c_math musl_utils) q low discard level cap s -> (cap <= 2 ^ 50)%Z -> spot_fit (c_math musl_utils) s data = Ret (s', r) -> r <> (-1003)%Z ->
  let t := s_tail s' in let p := t_peaks t in
  is_finite (p_max p) = true -> 2 / 10 ^ 8 * IZR (peaks_size p) <= B2R (p_max p : b64) <= 10 ^ 30 ->
  is_finite (p_min p) = true -> / 10 ^ 80 <= B2R (p_min p : b64) ->
  is_finite (peaks_mean p) = true -> B2R (p_min p : b64) <= B2R (peaks_mean p : b64) <= 10 ^ 31 ->
  is_finite (peaks_var p) = true -> B2R (peaks_mean p : b64) * B2R (peaks_mean p : b64) <= 10 ^ 6 * B2R (peaks_var p : b64) ->
  is_finite (s_et s') = true -> (0 < s_Nt s' <= s_n s')%Z -> (s_n s' <= 2 ^ 53)%Z ->
  is_finite q = true -> 0 < B2R (q : b64) <= IZR (s_Nt s') / IZR (s_n s') ->
  r = 0%Z.
Proof.
  intros D C F NR t p H1 H2 H3 H4 H5 H6 H7 H8 H9 H10 H11 H12 H13.
  destruct (C62_threshold q low discard level cap s s' D C (or_intror (ex_intro _ data (ex_intro _ r (conj F NR)))) H1 H2 H3 H4 H5 H6 H7 H8 H9 H10 H11 H12 H13) as (NA & _).
  clear - F NR NA. unfold spot_fit in F. destruct (p2_quantile _ _) as [et|]; cbn [bind] in F; [|discriminate].
  destruct (XMath.is_nan et); [injection F as _ X; congruence|]. destruct (fit_fill _ _ _) as [s1|]; cbn [bind] in F; [|discriminate].
  destruct (tail_fit _ _) as [[t ll]|]; cbn [bind] in F; [|discriminate]. destruct (spot_quantile _ _ _) as [a|]; cbn [bind] in F; [|discriminate].
  destruct (XMath.is_nan a) eqn:NN; injection F as F <-; [|reflexivity].
  exfalso. rewrite <- F in NA. cbn [s_at with_at] in NA. rewrite is_nan_b64 in NN. change (nan64 a = false) in NA. congruence.
Qed.
