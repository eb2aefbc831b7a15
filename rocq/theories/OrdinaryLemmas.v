(** * OrdinaryLemmas: calls that refit on an ordinary window are defined (C90) *)
From Coq Require Import ZArith List Bool Reals Lra Lia Permutation.
From Flocq Require Import IEEE754.BinarySingleNaN.
From Verif Require Import Num XMath Ubend Session Peaks Brent Estimator Tail P2 Spot B64 B64Facts Spec SpotFacts SpotB64 DetectorLemmas WindowLemmas FitEffect HistoryLemmas
  NumFacts UbendFacts PeaksFacts P2Facts LogAcc FitLemmas AccSpec PowAcc PowAcc4 CastLemmas CastApi TinyFit TinyApi AdmissibleFit AdmissibleFit2 AdmissibleApi RefitLemmas OrdinarySpec.
Import ListNotations.
Open Scope R_scope.
Local Notation cm := (c_math musl_utils).

Lemma history_content cap blk (hist : list b64) (p : peaks B64) : (1 <= cap < 2 ^ 61)%Z -> Z.of_nat (length blk) = cap ->
  peaks_pushes (N := B64) (fst (peaks_init (Some blk) cap)) hist = Ret p ->
  (forall v, In v hist -> is_NaN v = false /\ b64_leb (d 0) v = true) ->
  exists l w : list b64, prep (N := B64) cap p l w /\
    (forall v, In v w -> b64_leb (d 0) v = true) /\ (w <> [] -> forall v, In v w -> b64_leb v (p_max p) = true) /\
    (w <> [] -> In (p_max p : b64) w) /\ (Z.of_nat (length w) <= cap)%Z.
Proof.
  intros C HB HP HN. pose proof (rep_init (N := B64) cap blk C HB) as R.
  destruct (peaks_pushes_minmax cap (fst (peaks_init (Some blk) cap)) [] hist) as (p' & E & R' & M).
  - exact R.
  - intros y Hy. rewrite <- is_NaN_eq. apply HN. exact Hy.
  - intros X. exfalso. apply X. reflexivity.
  - rewrite HP in E. injection E as <-. cbn [app] in *. change (last_k cap hist) with (lastn (Z.to_nat cap) hist) in *. set (l := lastn (Z.to_nat cap) hist : list b64) in *.
    destruct (prep_exists (N := B64) cap _ _ R') as (w & PW). exists l, w. pose proof PW as (_ & _ & PP & _).
    assert (IN : forall v, In v w -> In v l) by (intros v Hv; eapply Permutation_in; [exact PP|exact Hv]).
    split; [exact PW|].
    split; [intros v Hv; apply HN; apply IN in Hv; eapply lastn_incl; exact Hv|].
    assert (NL : w <> [] -> l <> []).
    { intros X Y. apply X. apply Permutation_length in PP. change (num B64) with b64 in *. rewrite Y in PP. destruct w; [reflexivity|discriminate]. }
    split; [|split].
    + intros NE v Hv. destruct M as (_ & M1 & M2); [apply NL; exact NE|]. apply M2. apply IN. exact Hv.
    + intros NE. destruct M as (_ & M1 & M2); [apply NL; exact NE|]. eapply Permutation_in; [apply Permutation_sym; exact PP|exact M1].
    + apply Permutation_length in PP. change (num B64) with b64 in *. rewrite PP. unfold l. rewrite lastn_length. lia.
Qed.

Lemma ordinary_shape cap blk (hist : list b64) (p : peaks B64) g0 s0 t ll : (1 <= cap <= 2 ^ 50)%Z -> Z.of_nat (length blk) = cap ->
  peaks_pushes (N := B64) (fst (peaks_init (Some blk) cap)) hist = Ret p ->
  (forall v, In v hist -> is_NaN v = false /\ b64_leb (d 0) v = true) -> ordinary p ->
  tail_fit cm (MkTail (N := B64) g0 s0 p) = Ret (t, ll) -> ~ huge (t_gamma t).
Proof.
  intros C HB HP HN (FM & HM & Fn & Hn & Fm & Hm & FV & HV) TF.
  destruct (history_content cap blk hist p ltac:(lia) HB HP HN) as (l & w & PW & W0 & WM & IM & WL).
  assert (SZ : ubend_size (p_cont p) = Z.of_nat (length w)) by (destruct PW as (_ & _ & _ & X); exact X).
  assert (P80 : 0 < / 10 ^ 80) by (apply Rinv_0_lt_compat, pow_lt; lra).
  assert (ME : (0 < Z.of_nat (length w))%Z /\ finite64 (p_e p) = true /\ 0 < B2R64 (p_e p)).
  { pose proof (Rlt_le_trans _ _ _ (Rlt_le_trans _ _ _ P80 Hn) (proj1 Hm)) as Hq. unfold peaks_mean, peaks_size in Fm, Hq. rewrite SZ in Fm, Hq.
    apply mean_finite_inv; [lia|exact Fm|exact Hq]. }
  destruct ME as (L0 & Fe & He).
  assert (NE : w <> []) by (intros X; rewrite X in L0; cbn in L0; lia).
  unfold peaks_size in HM. rewrite SZ in HM.
  pose proof (fit_size cap p l w PW W0 (WM NE) (IM NE) ltac:(lia) FM HM Fn Hn Fe He Fm Hm g0 s0 t ll FV HV TF) as G.
  pose proof (fit_admissible cap p l w PW W0 (WM NE) (IM NE) ltac:(lia) FM HM Fn Hn Fe He Fm Hm g0 s0 t ll TF) as (A1 & _).
  intros [(z & H)|(_ & H)]; [rewrite H in A1; discriminate A1|].
  destruct G as [G|(G & _)]; [rewrite G, Rabs_R0 in H; lra|lra].
Qed.

Lemma step_defined q low discard level cap (s : spot B64) (x : b64) :
  detector cm q low discard level cap s -> (cap <= 2 ^ 50)%Z -> (0 <= s_Nt s <= s_n s)%Z -> (s_n s + 1 < 2 ^ 64)%Z ->
  (forall p, b64_leb (d 0) (b64_mult (s_updown s) (b64_minus x (s_et s))) = true ->
     peaks_push (t_peaks (s_tail s)) (b64_mult (s_updown s) (b64_minus x (s_et s))) = Ret p -> ordinary p) ->
  exists s' r, spot_step cm s x = Ret (s', r).
Proof.
  intros D HC Hc Hn O. destruct (spot_step cm s x) as [[s' r]|why] eqn:R; [exists s', r; reflexivity|]. exfalso.
  destruct (step_undefined_lemma q low discard level cap s x why D Hc Hn R) as (t1 & t2 & ll & E1 & E2 & H).
  assert (L : b64_leb (d 0) (b64_mult (s_updown s) (b64_minus x (s_et s))) = true).
  { unfold spot_step in R. destruct (XMath.is_nan (N := B64) x); [discriminate|]. destruct (_ && _)%bool in R; [discriminate|].
    destruct (nle _ _) eqn:L in R; [exact L|discriminate]. }
  destruct (history_lemma _ _ _ _ _ _ _ D) as (blk & hist & HB & HP & HN).
  assert (C : (1 <= cap < 2 ^ 61)%Z) by (destruct D as (? & ? & ? & ? & ? & C & _); exact C).
  unfold tail_push in E1. destruct (peaks_push (t_peaks (s_tail s)) _) as [p|] eqn:EP; cbn [bind] in E1; [|discriminate]. injection E1 as <-.
  refine (ordinary_shape cap blk (hist ++ [b64_mult (s_updown s) (b64_minus x (s_et s))]) p _ _ t2 ll ltac:(lia) HB _ _ (O p L eq_refl) E2 H).
  - rewrite (peaks_pushes_app (N := B64) hist _ _ _ HP). cbn [peaks_pushes]. change (num B64) with b64 in *. rewrite EP. reflexivity.
  - intros v Hv. apply in_app_or in Hv as [Hv|[<-|[]]]; [auto|]. split; [apply leb0_nan|]; exact L.
Qed.

Lemma fit_defined q low discard level cap (s : spot B64) (data : list b64) :
  detector cm q low discard level cap s -> (cap <= 2 ^ 50)%Z -> (Z.of_nat (length data) < 2 ^ 64)%Z ->
  (forall (et : b64) p, p2_quantile (N := B64) (if (low =? 0)%Z then level else b64_minus (d 1) level) data = Ret (et : num B64) ->
     peaks_pushes (t_peaks (s_tail s)) (excesses low et data) = Ret p -> ordinary p) ->
  exists s' r, spot_fit cm s data = Ret (s', r).
Proof.
  intros D HC HL O. destruct (spot_fit cm s data) as [[s' r]|why] eqn:R; [exists s', r; reflexivity|]. exfalso.
  destruct (fit_undefined_lemma q low discard level cap s data why D HL R) as (et & p & t2 & ll & EQ & EP & TF & H).
  destruct (history_lemma _ _ _ _ _ _ _ D) as (blk & hist & HB & HP & HN).
  assert (C : (1 <= cap < 2 ^ 61)%Z) by (destruct D as (? & ? & ? & ? & ? & C & _); exact C).
  refine (ordinary_shape cap blk (hist ++ excesses low et data) p _ _ t2 ll ltac:(lia) HB _ _ (O et p EQ EP) TF H).
  - rewrite (peaks_pushes_app (N := B64) hist (excesses low et data) _ _ HP). exact EP.
  - intros v Hv. apply in_app_or in Hv as [Hv|Hv]; [auto|]. apply excesses_pos in Hv. apply ltb_leb in Hv. split; [apply leb0_nan|]; exact Hv.
Qed.
