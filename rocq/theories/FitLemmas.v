(** * FitLemmas: the tail fit keeps the most likely candidate (C20); xmin (C46) *)
From Coq Require Import ZArith List Bool Lia Reals Lra.
From Flocq Require Import Core.Core IEEE754.BinarySingleNaN.
From Verif Require Import Num NumFacts XMath Ubend Session UbendFacts Peaks PeaksFacts Brent Estimator Tail P2 P2Facts
  Spot SpotFacts B64 B64Facts Spec SpotB64 DetectorLemmas WindowLemmas.
Import ListNotations.
Open Scope Z_scope.

(** Candidates, as doubles *)
Definition half : b64 := b64_div (d 1) (d 2).
Definition mom_ratio (p : peaks B64) : b64 := b64_div (b64_mult (peaks_mean p) (peaks_mean p)) (peaks_var p).
Definition mom_gamma (p : peaks B64) : b64 := b64_mult half (b64_minus (d 1) (mom_ratio p)).
Definition mom_sigma (p : peaks B64) : b64 := b64_mult (b64_mult half (peaks_mean p)) (b64_plus (d 1) (mom_ratio p)).

(** a best value so far (m, with its parameters) against a candidate *)
Lemma ltb_false_or_nan x y : b64_ltb x y = false -> is_NaN x = true \/ is_NaN y = true \/ b64_leb y x = true.
Proof.
  intros H. rewrite !is_NaN_eq. destruct (nan64 x) eqn:Nx; [auto|]. destruct (nan64 y) eqn:Ny; [auto|].
  right; right. apply leb_total; auto.
Qed.
Lemma ltb_not_nan x y : b64_ltb x y = true -> is_NaN x = false /\ is_NaN y = false.
Proof. rewrite !is_NaN_eq. intros H. apply ltb_true_iff in H. tauto. Qed.
Lemma leb_not_nan x y : b64_leb x y = true -> is_NaN x = false /\ is_NaN y = false.
Proof. rewrite !is_NaN_eq. intros H. apply leb_true_iff in H. tauto. Qed.
Lemma leb_refl' x : is_NaN x = false -> b64_leb x x = true.
Proof. rewrite is_NaN_eq. apply leb_refl. Qed.

Lemma gsll_spec mf (p : peaks B64) x ll g s :
  grimshaw_simplified_log_likelihood mf x p = Ret (ll, g, s) -> log_likelihood mf p g s = Ret ll.
Proof.
  unfold grimshaw_simplified_log_likelihood. destruct (neq x _); cbn [bind].
  - destruct (log_likelihood mf p _ _) as [l|] eqn:E; cbn [bind]; [|discriminate]. intros H; injection H as <- <- <-. exact E.
  - destruct (grimshaw_v mf p x) as [v|]; cbn [bind]; [|discriminate].
    destruct (log_likelihood mf p _ _) as [l|] eqn:E; cbn [bind]; [|discriminate]. intros H; injection H as <- <- <-. exact E.
Qed.

(** invariant of the comparison loop of grimshaw_estimator: [ll0] is the value at root 0 *)
Definition gbest mf (p : peaks B64) (ll0 : b64) (b : @estimate B64) : Prop :=
  let '(ll, g, s) := b in
  log_likelihood mf p g s = Ret ll /\ (is_NaN ll0 = true -> is_NaN ll = true) /\ (is_NaN ll0 = false -> b64_leb ll0 ll = true).

Lemma gbetter mf p ll0 b c b' : gbest mf p ll0 b -> grimshaw_better mf p b c = Ret b' -> gbest mf p ll0 b'.
Proof.
  intros G. unfold grimshaw_better. destruct c as [[|] root].
  2:{ intros H; injection H as <-. exact G. }
  destruct (grimshaw_simplified_log_likelihood mf root p) as [[[ll g] s]|] eqn:E; cbn [bind]; [|discriminate].
  destruct b as [[bll bg] bs]. intros H; injection H as <-.
  change (@nlt B64 bll ll) with (b64_ltb bll ll).
  destruct (b64_ltb bll ll) eqn:C; [|exact G].
  destruct G as (G1 & G2 & G3). split; [eapply gsll_spec; exact E|].
  pose proof (ltb_not_nan _ _ C) as (N1 & N2). split.
  - intros H. apply G2 in H. congruence.
  - intros H. eapply leb_trans; [apply G3, H|]. apply ltb_leb. exact C.
Qed.

Lemma grimshaw_spec mf (p : peaks B64) ll g s : grimshaw_estimator mf p = Ret (ll, g, s) ->
  exists ll0, log_likelihood mf p (d 0) (peaks_mean p) = Ret ll0 /\ gbest mf p ll0 (ll, g, s).
Proof.
  unfold grimshaw_estimator.
  destruct (brent _ _ (nopp _) _) as [r1|]; cbn [bind]; [|discriminate].
  destruct (brent _ _ _ _) as [r2|]; cbn [bind]; [|discriminate].
  unfold grimshaw_simplified_log_likelihood at 1.
  change (@neq B64 (nofZ 0) (nofZ 0)) with true. cbv iota. cbn [bind].
  change (@nofZ B64 0) with (d 0).
  destruct (log_likelihood mf p (d 0) (peaks_mean p)) as [ll0|] eqn:E0; cbn [bind]; [|discriminate].
  destruct (grimshaw_better mf p _ r1) as [b1|] eqn:E1; cbn [bind]; [|discriminate].
  intros E2. exists ll0. split; [reflexivity|].
  eapply gbetter; [|exact E2]. eapply gbetter; [|exact E1].
  split; [exact E0|]. split; [auto|apply leb_refl'].
Qed.

Lemma C20_lemma mf (t t' : tail B64) ll : tail_fit mf t = Ret (t', ll) ->
  let p := t_peaks t in
  t_peaks t' = p /\
  log_likelihood mf p (t_gamma t') (t_sigma t') = Ret ll /\
  exists ll_mom ll_exp,
    log_likelihood mf p (mom_gamma p) (mom_sigma p) = Ret ll_mom /\
    log_likelihood mf p (d 0) (peaks_mean p) = Ret ll_exp /\
    (is_NaN ll_mom = false -> b64_leb ll_mom ll = true) /\
    (is_NaN ll_exp = false -> b64_leb ll_exp ll = true) /\
    (is_NaN ll = true -> is_NaN ll_mom = true /\ is_NaN ll_exp = true).
Proof.
  intros F p. split; [eapply tail_fit_peaks; exact F|]. revert F.
  unfold tail_fit, tail_fit_loop, ESTIMATORS. fold p.
  unfold mom_estimator. cbv zeta. fold p.
  change (@nmul B64 c_half (nsub (nofZ 1) (ndiv (nmul (peaks_mean p) (peaks_mean p)) (peaks_var p)))) with (mom_gamma p).
  change (@nmul B64 (nmul c_half (peaks_mean p)) (nadd (nofZ 1) (ndiv (nmul (peaks_mean p) (peaks_mean p)) (peaks_var p)))) with (mom_sigma p).
  destruct (log_likelihood mf p (mom_gamma p) (mom_sigma p)) as [ll1|] eqn:E1; cbn [bind]; [|discriminate].
  change (XMath.is_nan (@c_nan B64)) with true. cbn [orb t_peaks]. fold p.
  destruct (grimshaw_estimator mf p) as [[[llg gg] sg]|] eqn:EG; cbn [bind]; [|discriminate].
  apply grimshaw_spec in EG as (ll0 & E0 & G1 & G2 & G3).
  rewrite is_NaN_model. change (@nlt B64 ll1 llg) with (b64_ltb ll1 llg).
  destruct (is_NaN ll1) eqn:N1; cbn [orb].
  - intros H; injection H as <- <-. cbn [t_gamma t_sigma]. split; [exact G1|].
    exists ll1, ll0. repeat split; auto; try congruence.
    destruct (is_NaN ll0) eqn:N0; [reflexivity|]. pose proof (leb_not_nan _ _ (G3 eq_refl)) as (_ & Nb). congruence.
  - destruct (b64_ltb ll1 llg) eqn:C; intros H; injection H as <- <-; cbn [t_gamma t_sigma].
    + split; [exact G1|]. exists ll1, ll0. pose proof (ltb_not_nan _ _ C) as (_ & NG).
      split; [reflexivity|]. split; [exact E0|]. split; [intros _; apply ltb_leb; exact C|].
      split; [exact G3|]. congruence.
    + split; [exact E1|]. exists ll1, ll0.
      split; [reflexivity|]. split; [exact E0|]. split; [intros _; apply leb_refl'; exact N1|].
      split; [|congruence]. intros N0. specialize (G3 N0). pose proof (leb_not_nan _ _ G3) as (_ & NG).
      destruct (ltb_false_or_nan _ _ C) as [H|[H|H]]; try congruence.
      eapply leb_trans; eassumption.
Qed.

Lemma C46_lemma (a b : b64) :
  (is_NaN (xmin (N := B64) a b) = true <-> is_NaN a = true \/ is_NaN b = true) /\
  (is_NaN a = false -> is_NaN b = false ->
   (xmin (N := B64) a b = a \/ xmin (N := B64) a b = b) /\
   b64_leb (xmin (N := B64) a b) a = true /\ b64_leb (xmin (N := B64) a b) b = true).
Proof.
  unfold xmin. rewrite (is_NaN_model a), (is_NaN_model b).
  change (@nlt B64 a b) with (b64_ltb a b).
  destruct (is_NaN a) eqn:Na; cbn [orb].
  { split; [split; [auto|intros _; reflexivity]|]. discriminate. }
  destruct (is_NaN b) eqn:Nb; cbn [orb].
  { split; [split; [auto|intros _; reflexivity]|]. discriminate. }
  destruct (b64_ltb a b) eqn:C.
  - split; [rewrite Na; intuition discriminate|]. intros _ _. split; [auto|]. split; [apply leb_refl'; auto|apply ltb_leb; auto].
  - split; [rewrite Nb; intuition discriminate|]. intros _ _. split; [auto|]. split; [|apply leb_refl'; auto].
    destruct (ltb_false_or_nan _ _ C) as [H|[H|H]]; congruence.
Qed.
