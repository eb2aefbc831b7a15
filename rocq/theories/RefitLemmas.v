(** * RefitLemmas: the state of a detector just after its tail was refitted *)
From Coq Require Import ZArith List Bool Lia Permutation.
From Flocq Require Import IEEE754.BinarySingleNaN.
From Verif Require Import Num NumFacts XMath Ubend UbendFacts Session Peaks PeaksFacts Brent Estimator Tail P2 P2Facts Spot SpotFacts B64 B64Facts Spec
  SpotB64 DetectorLemmas WindowLemmas HistoryLemmas.
Import ListNotations.
Open Scope Z_scope.

Lemma session_snoc {N} (mf : MathFns N) (c : call N) s' a : forall calls s s1 l, session mf s calls = Ret (s1, l) -> do_call mf s1 c = Ret (s', a) ->
  session mf s (calls ++ [c]) = Ret (s', l ++ [a]).
Proof.
  induction calls as [|c0 cs IH]; intros s s1 l; cbn [session app].
  - intros H; injection H as <- <-. intros ->. reflexivity.
  - destruct (do_call mf s c0) as [[s2 a2]|]; cbn [bind]; [|discriminate].
    destruct (session mf s2 cs) as [[s3 l3]|] eqn:E; cbn [bind]; [|discriminate].
    intros H; injection H as <- <-. intros H. rewrite (IH _ _ _ E H). reflexivity.
Qed.
Lemma detector_call {N} (mf : MathFns N) q low discard level cap s c s' a : detector mf q low discard level cap s -> do_call mf s c = Ret (s', a) ->
  detector mf q low discard level cap s'.
Proof.
  intros (old & blk & s0 & calls & answers & H1 & H2 & H3 & H4) H. exists old, blk, s0, (calls ++ [c]), (answers ++ [a]).
  repeat split; try assumption; try tauto. eapply session_snoc; eassumption.
Qed.

(** an excess, or a calibration (successful or with a NaN anomaly threshold) *)
Definition refit {N} (mf : MathFns N) (s s' : spot N) : Prop :=
  (exists x, spot_step mf s x = Ret (s', EXCESS)) \/ (exists data r, spot_fit mf s data = Ret (s', r) /\ r <> -1003).

Lemma refit_detector {N} (mf : MathFns N) q low discard level cap s s' : detector mf q low discard level cap s -> refit mf s s' ->
  detector mf q low discard level cap s'.
Proof.
  intros D [(x & H)|(data & r & H & _)].
  - eapply (detector_call _ _ _ _ _ _ _ (CStep x)); [exact D|]. cbn [do_call]. rewrite H. reflexivity.
  - eapply (detector_call _ _ _ _ _ _ _ (CFit data)); [exact D|]. cbn [do_call]. rewrite H. reflexivity.
Qed.

Lemma refit_tail {N} (mf : MathFns N) s s' : refit mf s s' ->
  exists g0 s0 ll, tail_fit mf (MkTail g0 s0 (t_peaks (s_tail s'))) = Ret (s_tail s', ll) /\ spot_quantile mf s' (s_q s') = Ret (s_at s').
Proof.
  intros [(x & H)|(data & r & H & R)].
  - apply step_inv in H. destruct H as [? ? E|? ? ? ? E|? ? ? ? E|t1 t2 ll a ? ? ? E1 E2 E3 -> ?]; try discriminate.
    pose proof (tail_fit_peaks _ _ _ _ E2) as P. destruct t1 as [g0 s0 p0]. cbn [t_peaks] in P. exists g0, s0, ll.
    cbn [s_tail with_at with_tail]. rewrite P. split; [exact E2|]. exact E3.
  - apply fit_inv in H. destruct H as [et E Ne -> ->|et s1 t2 ll a E Ne E2 E3 E4 -> ->]; [exfalso; apply R; reflexivity|].
    pose proof (tail_fit_peaks _ _ _ _ E3) as P. destruct (s_tail s1) as [g0 s0 p0] eqn:T. cbn [t_peaks] in P. exists g0, s0, ll.
    cbn [s_tail with_at with_tail]. rewrite P. split; [exact E3|]. exact E4.
Qed.

Lemma window_content mf q low discard level cap (s : spot B64) : detector mf q low discard level cap s ->
  exists l w : list b64, prep (N := B64) cap (t_peaks (s_tail s)) l w /\ oldest_first (window s) = map Some l /\
    (forall v, In v w -> b64_leb (d 0) v = true) /\ (w <> [] -> forall v, In v w -> b64_leb v (p_max (t_peaks (s_tail s))) = true) /\
    (w <> [] -> In (p_max (t_peaks (s_tail s)) : b64) w) /\ Z.of_nat (length w) <= cap.
Proof.
  intros D. destruct (history_lemma _ _ _ _ _ _ _ D) as (blk & hist & HB & HP & HN).
  assert (C : 1 <= cap < 2 ^ 61) by (destruct D as (? & ? & ? & ? & ? & C & _); exact C).
  pose proof (rep_init (N := B64) cap blk C HB) as R.
  destruct (peaks_pushes_minmax cap (fst (peaks_init (Some blk) cap)) [] hist) as (p & E & R' & M).
  - exact R.
  - intros y Hy. rewrite <- is_NaN_eq. apply HN. exact Hy.
  - intros X. exfalso. apply X. reflexivity.
  - rewrite HP in E. injection E as <-. cbn [app] in *. change (last_k cap hist) with (lastn (Z.to_nat cap) hist) in *. set (l := lastn (Z.to_nat cap) hist : list b64) in *.
    destruct (prep_exists (N := B64) cap _ _ R') as (w & PW). exists l, w. pose proof PW as (_ & _ & PP & _).
    assert (IN : forall v, In v w -> In v l) by (intros v Hv; eapply Permutation_in; [exact PP|exact Hv]).
    split; [exact PW|]. split; [exact (rep_oldest_first cap _ _ R')|].
    split; [intros v Hv; apply HN; apply IN in Hv; eapply lastn_incl; exact Hv|].
    assert (NL : w <> [] -> l <> []).
    { intros X Y. apply X. apply Permutation_length in PP. change (num B64) with b64 in *. rewrite Y in PP. destruct w; [reflexivity|discriminate]. }
    split; [|split].
    + intros NE v Hv. destruct M as (_ & M1 & M2); [apply NL; exact NE|]. apply M2. apply IN. exact Hv.
    + intros NE. destruct M as (_ & M1 & M2); [apply NL; exact NE|]. eapply Permutation_in; [apply Permutation_sym; exact PP|exact M1].
    + apply Permutation_length in PP. change (num B64) with b64 in *. rewrite PP. unfold l. rewrite lastn_length. lia.
Qed.
