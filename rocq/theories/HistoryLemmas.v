(** * HistoryLemmas: the window statistics of a detector are those of the list of its excesses (C59) *)
From Coq Require Import ZArith List Bool Lia.
From Flocq Require Import IEEE754.BinarySingleNaN.
From Verif Require Import Num XMath Ubend Session Peaks Brent Estimator Tail P2 Spot B64 Spec
  NumFacts UbendFacts PeaksFacts B64Facts SpotFacts SpotB64 DetectorLemmas WindowLemmas FitEffect.
Import ListNotations.
Open Scope Z_scope.

Lemma peaks_pushes_app {N} (xs ys : list (num N)) : forall (p p1 : peaks N), peaks_pushes p xs = Ret p1 ->
  peaks_pushes p (xs ++ ys) = peaks_pushes p1 ys.
Proof.
  induction xs as [|x xs IH]; intros p p1; cbn [peaks_pushes app].
  - intros H; injection H as <-. reflexivity.
  - destruct (peaks_push p x) as [p'|] eqn:E; cbn [bind]; [|discriminate]. apply IH.
Qed.

Definition history (low cap : Z) (s : spot B64) : Prop :=
  sided low s /\ exists blk hist, Z.of_nat (length blk) = cap /\
    peaks_pushes (N := B64) (fst (peaks_init (Some blk) cap)) hist = Ret (t_peaks (s_tail s)) /\
    (forall v, In v hist -> is_NaN v = false /\ b64_leb (d 0) v = true) .

Lemma leb0_nan v : b64_leb (d 0) v = true -> is_NaN v = false.
Proof. intros H. rewrite is_NaN_eq. apply leb_true_iff in H. tauto. Qed.

Lemma history_call mf low cap (s : spot B64) c s' a :
  history low cap s -> do_call mf s c = Ret (s', a) -> history low cap s'.
Proof.
  intros (S & blk & hist & HB & HP & HN) H.
  destruct c as [data|x|q|z]; cbn [do_call] in H.
  - destruct (spot_fit mf s data) as [[s1 r]|] eqn:E; cbn [bind] in H; [|discriminate]. injection H as <- <-.
    apply fit_inv in E. destruct E as [et E Ne -> ->|et s1' t2 ll a' E Ne E2 E3 E4 -> ->].
    + split; [exact S|]. exists blk, hist. auto.
    + pose proof (fit_fill_pushes _ _ _ _ E2) as P. apply tail_fit_peaks in E3. pose proof E2 as G. apply fit_fill_frame in G as (GE & _ & _).
      cbn [s_tail with_et with_counts] in P.
      assert (S1 : sided low s1') by (rewrite GE; exact S). split; [exact S1|].
      exists blk, (hist ++ excesses low et data). split; [exact HB|]. split.
      * rewrite (peaks_pushes_app (N := B64) hist (excesses low et data) _ _ HP). cbn [s_tail with_at with_tail t_peaks]. rewrite E3.
        rewrite <- (fit_excesses_eq low s et data S). exact P.
      * intros v Hv. apply in_app_or in Hv as [Hv|Hv]; [auto|]. apply excesses_pos in Hv. apply ltb_leb in Hv. split; [apply leb0_nan|]; exact Hv.
  - destruct (spot_step mf s x) as [[s1 r]|] eqn:E; cbn [bind] in H; [|discriminate]. injection H as <- <-.
    apply step_inv in E. destruct E as [? -> ?|? ? ? -> ?|? ? ? -> ?|t1 t2 ll a' ? ? C E1 E2 E3 -> ?];
      try (split; [exact S|]; exists blk, hist; solve [auto]).
    split; [exact S|]. exists blk, (hist ++ [nmul (s_updown s) (nsub x (s_et s))]). split; [exact HB|]. split.
    + rewrite (peaks_pushes_app (N := B64) hist _ _ _ HP). cbn [peaks_pushes s_tail with_at with_tail]. apply tail_fit_peaks in E2. rewrite E2.
      unfold tail_push in E1. destruct (peaks_push (t_peaks (s_tail s)) _) as [p|]; cbn [bind] in E1 |- *; [|discriminate]. injection E1 as <-. reflexivity.
    + intros v Hv. apply in_app_or in Hv as [Hv|[<-|[]]]; [auto|]. split; [apply leb0_nan|]; exact C.
  - destruct (spot_quantile mf s q); cbn [bind] in H; [|discriminate]. injection H as <- _. split; [exact S|]. exists blk, hist; auto.
  - destruct (spot_probability mf s z); cbn [bind] in H; [|discriminate]. injection H as <- _. split; [exact S|]. exists blk, hist; auto.
Qed.

Lemma history_lemma mf q low discard level cap (s : spot B64) : detector mf q low discard level cap s ->
  exists blk hist, Z.of_nat (length blk) = cap /\
    peaks_pushes (N := B64) (fst (peaks_init (Some blk) cap)) hist = Ret (t_peaks (s_tail s)) /\
    (forall v, In v hist -> is_NaN v = false /\ b64_leb (d 0) v = true).
Proof.
  intros D. assert (H : history low cap s).
  { pose proof D as (old & blk & s0 & calls & answers & H1 & H2 & H3 & H4).
    eapply (session_invariant mf (history low cap)); [|clear H4|exact H4].
    - intros; eapply history_call; eauto.
    - split.
      + eapply (detector_sided mf q low discard level cap). exists old, blk, s0, [], []. auto.
      + apply init_fields in H3 as (_ & _ & _ & _ & _ & _ & _ & _ & _ & blk' & A & T). injection A as <-.
        exists blk, []. split; [exact H2|]. split; [|intros v []]. rewrite T. reflexivity. }
  exact (proj2 H).
Qed.

Require Import Reals Lra.
From Verif Require Import RNum ExactWindow DriftB64.
Open Scope Z_scope.
Lemma detector_mean_lemma mf q low discard level cap (s : spot B64) : detector mf q low discard level cap s ->
  exists hist : list b64,
    oldest_first (window s) = map Some (last_k cap hist) /\ (forall v, In v hist -> is_NaN v = false /\ b64_leb (d 0) v = true) /\
    (hist <> [] -> (Z.of_nat (length hist) <= 2 ^ 50)%Z -> (forall v, In v hist -> is_finite v = true /\ (B2R64 v <= 10 ^ 280)%R) ->
     let p := t_peaks (s_tail s) in let w := last_k cap hist in
     In (p_max p) w /\ is_finite (peaks_mean p) = true /\
     (Rabs (B2R64 (peaks_mean p) - rsum (map B2R64 w) / INR (length w)) <= 10 * INR (length hist) * / 2 ^ 53 * B2R64 (p_max p) + / 2 ^ 1074)%R).
Proof.
  intros D. destruct (history_lemma _ _ _ _ _ _ _ D) as (blk & hist & HB & HP & HN). exists hist.
  assert (C : 1 <= cap < 2 ^ 61) by (destruct D as (? & ? & ? & ? & ? & C & _); exact C).
  destruct (C16_lemma cap blk hist C HB) as (p1 & E1 & OF & _). { intros x Hx. apply HN. exact Hx. }
  rewrite HP in E1. injection E1 as <-. split; [exact OF|]. split; [exact HN|].
  intros NE L F. destruct (C59_lemma cap blk hist C HB) as (p & E & H); auto.
  { intros x Hx. destruct (F x Hx) as (F1 & F2). split; [exact F1|]. split; [|exact F2].
    destruct (HN x Hx) as (_ & P). apply leb_true_iff in P as (_ & _ & P).
    change (d 0) with (b64_ofZ 0) in P. rewrite xval_zero in P. rewrite xval_finite in P by (destruct x; try discriminate; reflexivity). exact P. }
  rewrite HP in E. injection E as <-. cbv zeta in H |- *. tauto.
Qed.
