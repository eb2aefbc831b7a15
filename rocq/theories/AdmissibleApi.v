(** * AdmissibleApi: the parameters of a detector just after its tail was refitted (C62) *)
From Coq Require Import ZArith List Bool Reals Lra Lia.
From Flocq Require Import Core.Core IEEE754.BinarySingleNaN.
From Verif Require Import Num NumFacts XMath Ubend UbendFacts Session Peaks PeaksFacts Brent BrentB64 Estimator Tail P2 Spot SpotFacts B64 B64Facts LogAcc Spec
  FitLemmas SpotB64 DetectorLemmas AccSpec PowAcc PowAcc4 RefitLemmas TinyFit TinyApi AdmissibleFit AdmissibleFit2.
Import ListNotations.
Open Scope R_scope.

Notation cm := (c_math musl_utils : MathFns B64).

Lemma oldest_in mf q low discard level cap (s : spot B64) (l w : list b64) v :
  detector mf q low discard level cap s -> prep (N := B64) cap (t_peaks (s_tail s)) l w -> oldest_first (window s) = map Some l ->
  In (Some (v : num B64)) (oldest_first (window s)) -> In v w.
Proof.
  intros _ (_ & _ & PP & _) -> H. apply in_map_iff in H as (y & E & Hy). injection E as ->. eapply Permutation.Permutation_in; [apply Permutation.Permutation_sym; exact PP|exact Hy].
Qed.

Definition in_support (s : spot B64) : Prop :=
  forall v : b64, In (Some (v : num B64)) (oldest_first (window s)) ->
    b64_leb (b64_ofZ 0) (b64_plus (b64_ofZ 1) (b64_mult (b64_div (t_gamma (s_tail s)) (t_sigma (s_tail s))) v)) = true.

Lemma usable_or_collapsed q low discard level cap (s s' : spot B64) :
  detector cm q low discard level cap s -> refit cm s s' -> (cap <= 2 ^ 53)%Z ->
  let t := s_tail s' in
  finite64 (peaks_mean (t_peaks t)) = true -> 0 < B2R64 (peaks_mean (t_peaks t)) ->
  (finite64 (t_gamma t) = true /\ finite64 (t_sigma t) = true /\ 0 < B2R64 (t_sigma t) /\ (B2R64 (t_gamma t) <> 0 -> in_support s')) \/
  ((exists z, t_gamma t = (B754_zero z : b64)) /\ t_sigma t = (B754_zero true : b64)).
Proof.
  intros D R HC t Fm Hm. pose proof (refit_detector _ _ _ _ _ _ _ _ D R) as D'.
  destruct (refit_tail _ _ _ R) as (g0 & s0 & ll & TF & SQ). fold t in TF.
  destruct (window_content _ _ _ _ _ _ _ D') as (l & w & PW & OF & W0 & WM & IM & WL). fold t in PW, WM, IM.
  set (p := t_peaks t) in *.
  assert (SZ : ubend_size (p_cont p) = Z.of_nat (length w)) by (destruct PW as (_ & _ & _ & X); exact X).
  assert (ME : (0 < Z.of_nat (length w))%Z /\ finite64 (p_e p) = true /\ 0 < B2R64 (p_e p)).
  { unfold peaks_mean, peaks_size in Fm, Hm. rewrite SZ in Fm, Hm. apply mean_finite_inv; [lia|exact Fm|exact Hm]. }
  destruct ME as (L0 & Fe & He).
  assert (NE : w <> []) by (intros X; rewrite X in L0; cbn in L0; lia).
  destruct (C20_lemma _ _ _ _ TF) as (_ & LL & lm & le & _ & EX & _ & GE & NAN). cbn [t_peaks] in *.
  assert (Nl : nan64 ll = false).
  { rewrite <- is_NaN_eq. destruct (is_NaN ll) eqn:X; [|reflexivity]. destruct (NAN eq_refl) as (_ & C). exfalso.
    rewrite (log_likelihood_eq cm cap p l w _ _ PW) in EX. injection EX as <-. rewrite is_NaN_eq in C. unfold log_likelihood_of in C.
    change (neq (n := B64) (Spec.d 0) (nofZ 0)) with true in C. cbv iota in C.
    assert (Y := exponential_not_nan (Z.of_nat (length w)) (p_e p) (peaks_mean p) ltac:(lia) Fe ltac:(lra) Fm Hm).
    change (nan64 (b64_minus (b64_mult (b64_opp (b64_ofZ (Z.of_nat (length w)))) (xlog (N := B64) musl_utils (peaks_mean p))) (b64_div (p_e p) (peaks_mean p))) = true) in C. congruence. }
  rewrite (log_likelihood_eq cm cap p l w _ _ PW) in LL.
  assert (NL : nan64 (log_likelihood_of cm (p_e p) w (t_gamma t) (t_sigma t)) = false) by (injection LL as ->; exact Nl).
  destruct (likelihood_admissible (p_e p) w (t_gamma t) (t_sigma t) NE ltac:(lia) W0 ltac:(apply finite_not_nan; exact Fe) ltac:(rewrite (xval_finite _ Fe); lra) NL) as [A|G]; [left|right; exact G].
  destruct A as (A1 & A2 & A3 & A4). split; [exact A1|]. split; [exact A2|]. split; [exact A3|]. intros NZ v Hv. apply A4; [exact NZ|].
  exact (oldest_in _ _ _ _ _ _ _ l w v D' PW OF Hv).
Qed.

Lemma usable q low discard level cap (s s' : spot B64) :
  detector cm q low discard level cap s -> refit cm s s' -> (cap <= 2 ^ 50)%Z ->
  let t := s_tail s' in let p := t_peaks t in
  finite64 (p_max p) = true -> 2 / 10 ^ 8 * IZR (peaks_size p) <= B2R64 (p_max p) <= 10 ^ 30 ->
  finite64 (p_min p) = true -> / 10 ^ 80 <= B2R64 (p_min p) ->
  finite64 (peaks_mean p) = true -> B2R64 (p_min p) <= B2R64 (peaks_mean p) <= 10 ^ 31 ->
  finite64 (t_gamma t) = true /\ finite64 (t_sigma t) = true /\ 0 < B2R64 (t_sigma t) /\ (B2R64 (t_gamma t) <> 0 -> in_support s').
Proof.
  intros D R HC t p FM HM Fn Hn Fm Hm. pose proof (refit_detector _ _ _ _ _ _ _ _ D R) as D'.
  destruct (refit_tail _ _ _ R) as (g0 & s0 & ll & TF & SQ). fold t in TF. fold p in TF.
  destruct (window_content _ _ _ _ _ _ _ D') as (l & w & PW & OF & W0 & WM & IM & WL). fold t in PW, WM, IM. fold p in PW, WM, IM.
  assert (SZ : ubend_size (p_cont p) = Z.of_nat (length w)) by (destruct PW as (_ & _ & _ & X); exact X).
  assert (P80 : 0 < / 10 ^ 80) by (apply Rinv_0_lt_compat, pow_lt; lra).
  assert (ME : (0 < Z.of_nat (length w))%Z /\ finite64 (p_e p) = true /\ 0 < B2R64 (p_e p)).
  { pose proof (Rlt_le_trans _ _ _ (Rlt_le_trans _ _ _ P80 Hn) (proj1 Hm)) as Hq. unfold peaks_mean, peaks_size in Fm, Hq. rewrite SZ in Fm, Hq.
    apply mean_finite_inv; [lia|exact Fm|exact Hq]. }
  destruct ME as (L0 & Fe & He).
  assert (NE : w <> []) by (intros X; rewrite X in L0; cbn in L0; lia).
  unfold peaks_size in HM. rewrite SZ in HM.
  destruct (fit_admissible cap p l w PW W0 (WM NE) (IM NE) ltac:(lia) FM HM Fn Hn Fe He Fm Hm g0 s0 t ll TF) as (A1 & A2 & A3 & A4).
  split; [exact A1|]. split; [exact A2|]. split; [exact A3|]. intros NZ v Hv. apply A4; [exact NZ|].
  exact (oldest_in _ _ _ _ _ _ _ l w v D' PW OF Hv).
Qed.

Lemma usable_threshold q low discard level cap (s s' : spot B64) :
  detector cm q low discard level cap s -> refit cm s s' -> (cap <= 2 ^ 50)%Z ->
  let t := s_tail s' in let p := t_peaks t in
  finite64 (p_max p) = true -> 2 / 10 ^ 8 * IZR (peaks_size p) <= B2R64 (p_max p) <= 10 ^ 30 ->
  finite64 (p_min p) = true -> / 10 ^ 80 <= B2R64 (p_min p) ->
  finite64 (peaks_mean p) = true -> B2R64 (p_min p) <= B2R64 (peaks_mean p) <= 10 ^ 31 ->
  finite64 (s_et s') = true -> (0 < s_Nt s' <= s_n s')%Z -> (s_n s' <= 2 ^ 53)%Z ->
  finite64 q = true -> 0 < B2R64 q <= IZR (s_Nt s') / IZR (s_n s') ->
  B2R64 (t_gamma t) = 0 \/ (Rabs (B2R64 (t_gamma t)) <= 10 ^ 6 /\ / 10 ^ 300 <= B2R64 (t_sigma t) / Rabs (B2R64 (t_gamma t)) <= 10 ^ 300) ->
  nan64 (s_at s') = false /\ beyond low (s_at s') (s_et s') = false.
Proof.
  intros D R HC t p FM HM Fn Hn Fm Hm Fet HN HN2 Fq Hq HG.
  destruct (usable _ _ _ _ _ _ _ D R HC FM HM Fn Hn Fm Hm) as (A1 & A2 & A3 & _). fold t in A1, A2, A3.
  pose proof (refit_detector _ _ _ _ _ _ _ _ D R) as D'. destruct (refit_tail _ _ _ R) as (g0 & s0 & ll & TF & SQ).
  pose proof (detector_facts _ _ _ _ _ _ _ D') as (QQ & _). rewrite QQ in SQ.
  destruct (detector_sided _ _ _ _ _ _ _ D') as [(L & U)|(L & U)].
  - destruct (quantile_outer s' (B2R64 (s_et s')) 1 (B2R64 (t_sigma t)) (B2R64 (t_gamma t)) q) as (v & E & N & O & _); try assumption.
    { unfold finite_detector. repeat split; auto; lia. }
    rewrite SQ in E. injection E as ->. split; [exact N|]. unfold beyond. rewrite (proj2 (Z.eqb_eq _ _) L). specialize (O eq_refl).
    apply leb_true_iff in O as (O1 & O2 & O3). rewrite ltb_xval by assumption. apply Rlt_bool_false. exact O3.
  - destruct (quantile_outer s' (B2R64 (s_et s')) (-1) (B2R64 (t_sigma t)) (B2R64 (t_gamma t)) q) as (v & E & N & _ & O); try assumption.
    { unfold finite_detector. repeat split; auto; lia. }
    rewrite SQ in E. injection E as ->. split; [exact N|]. unfold beyond. destruct (low =? 0)%Z eqn:LZ; [apply Z.eqb_eq in LZ; contradiction|]. specialize (O eq_refl).
    apply leb_true_iff in O as (O1 & O2 & O3). rewrite ltb_xval by assumption. apply Rlt_bool_false. exact O3.
Qed.

Lemma usable_size q low discard level cap (s s' : spot B64) :
  detector cm q low discard level cap s -> refit cm s s' -> (cap <= 2 ^ 50)%Z ->
  let t := s_tail s' in let p := t_peaks t in
  finite64 (p_max p) = true -> 2 / 10 ^ 8 * IZR (peaks_size p) <= B2R64 (p_max p) <= 10 ^ 30 ->
  finite64 (p_min p) = true -> / 10 ^ 80 <= B2R64 (p_min p) ->
  finite64 (peaks_mean p) = true -> B2R64 (p_min p) <= B2R64 (peaks_mean p) <= 10 ^ 31 ->
  finite64 (peaks_var p) = true -> B2R64 (peaks_mean p) * B2R64 (peaks_mean p) <= 10 ^ 6 * B2R64 (peaks_var p) ->
  B2R64 (t_gamma t) = 0 \/ (Rabs (B2R64 (t_gamma t)) <= 10 ^ 6 /\ / 10 ^ 300 <= B2R64 (t_sigma t) / Rabs (B2R64 (t_gamma t)) <= 10 ^ 300).
Proof.
  intros D R HC t p FM HM Fn Hn Fm Hm FV HV. pose proof (refit_detector _ _ _ _ _ _ _ _ D R) as D'.
  destruct (refit_tail _ _ _ R) as (g0 & s0 & ll & TF & SQ). fold t in TF. fold p in TF.
  destruct (window_content _ _ _ _ _ _ _ D') as (l & w & PW & OF & W0 & WM & IM & WL). fold t in PW, WM, IM. fold p in PW, WM, IM.
  assert (SZ : ubend_size (p_cont p) = Z.of_nat (length w)) by (destruct PW as (_ & _ & _ & X); exact X).
  assert (P80 : 0 < / 10 ^ 80) by (apply Rinv_0_lt_compat, pow_lt; lra).
  assert (ME : (0 < Z.of_nat (length w))%Z /\ finite64 (p_e p) = true /\ 0 < B2R64 (p_e p)).
  { pose proof (Rlt_le_trans _ _ _ (Rlt_le_trans _ _ _ P80 Hn) (proj1 Hm)) as Hq. unfold peaks_mean, peaks_size in Fm, Hq. rewrite SZ in Fm, Hq.
    apply mean_finite_inv; [lia|exact Fm|exact Hq]. }
  destruct ME as (L0 & Fe & He).
  assert (NE : w <> []) by (intros X; rewrite X in L0; cbn in L0; lia).
  unfold peaks_size in HM. rewrite SZ in HM.
  exact (fit_size cap p l w PW W0 (WM NE) (IM NE) ltac:(lia) FM HM Fn Hn Fe He Fm Hm g0 s0 t ll FV HV TF).
Qed.
