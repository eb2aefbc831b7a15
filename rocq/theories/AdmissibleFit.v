(** * AdmissibleFit: the parameters kept by the fit on doubles (C62) *)
From Coq Require Import ZArith List Bool Reals Lra Lia Psatz.
From Flocq Require Import Core.Core IEEE754.BinarySingleNaN.
From Verif Require Import Num NumFacts XMath Ubend UbendFacts Peaks PeaksFacts Brent BrentB64 Estimator Tail P2 Spot B64 B64Facts LogAcc Spec FitLemmas
  FloatErr CastLemmas PowAcc PowAcc4 TinyFit.
Import ListNotations.
Open Scope R_scope.

Notation cm := (c_math musl_utils : MathFns B64).

(** ** NaN spreads *)
Lemma plus_nan_inv (a b : b64) : nan64 (b64_plus a b) = false -> nan64 a = false /\ nan64 b = false.
Proof. intros H. split; [destruct a; try reflexivity; discriminate H|destruct b; try reflexivity; destruct a; discriminate H]. Qed.
Lemma minus_nan_inv (a b : b64) : nan64 (b64_minus a b) = false -> nan64 a = false /\ nan64 b = false.
Proof. intros H. split; [destruct a; try reflexivity; discriminate H|destruct b; try reflexivity; destruct a; discriminate H]. Qed.
Lemma mult_nan_inv (a b : b64) : nan64 (b64_mult a b) = false -> nan64 a = false /\ nan64 b = false.
Proof. intros H. split; [destruct a; try reflexivity; discriminate H|destruct b; try reflexivity; destruct a; discriminate H]. Qed.

(** the arguments with a logarithm *)
Lemma log_domain (s : b64) : nan64 (xlog (N := B64) musl_utils s) = false -> (finite64 s = true /\ 0 < B2R64 s) \/ (exists z, s = B754_zero z).
Proof.
  intros H. destruct (xlog_special musl_utils s) as (A & B & _ & D).
  assert (A' : nan64 s = false). { destruct (nan64 s) eqn:E; [|reflexivity]. rewrite (A eq_refl) in H. exact H. }
  assert (B' : b64_ltb s (b64_ofZ 0) = false). { destruct (b64_ltb s (b64_ofZ 0)) eqn:E; [|reflexivity]. rewrite (B eq_refl) in H. exact H. }
  assert (D' : s <> B754_infinity false). { intros E. rewrite (D E) in H. discriminate H. }
  clear H A B D. destruct s as [z|z| |z m e W].
  - right. exists z. reflexivity.
  - exfalso. destruct z; [discriminate B'|]. apply D'. reflexivity.
  - discriminate A'.
  - destruct z; [discriminate B'|]. left. split; [reflexivity|]. cbn. apply F2R_gt_0. reflexivity.
Qed.

(** the parameters kept have a meaning: positive finite scale, finite shape, and every excess is inside the support as the code computes it *)
Definition admissible (g s : b64) (w : list b64) : Prop :=
  finite64 g = true /\ finite64 s = true /\ 0 < B2R64 s /\
  (B2R64 g <> 0 -> forall v, In v w -> b64_leb (b64_ofZ 0) (b64_plus (b64_ofZ 1) (b64_mult (b64_div g s) v)) = true).

Lemma fold_nan (f : b64 -> b64) (w : list b64) (r : b64) :
  nan64 (fold_left (fun r v => b64_plus r (f v)) w r) = false -> nan64 r = false /\ (forall v, In v w -> nan64 (f v) = false).
Proof.
  revert r. induction w as [|y w IH]; intros r; cbn [fold_left].
  - intros H. split; [exact H|]. intros v [].
  - intros H. destruct (IH _ H) as (H1 & H2). apply plus_nan_inv in H1 as (H1 & H3). split; [exact H1|].
    intros v [->|Hv]; auto.
Qed.

Lemma likelihood_admissible (e : b64) (w : list b64) (g s : b64) : w <> [] -> (Z.of_nat (length w) <= 2 ^ 53)%Z ->
  (forall v, In v w -> b64_leb (b64_ofZ 0) v = true) -> nan64 e = false -> 0 <= xval e ->
  nan64 (log_likelihood_of cm e w (g : num B64) (s : num B64)) = false ->
  admissible g s w \/ ((exists z, g = B754_zero z) /\ s = B754_zero true).
Proof.
  intros NE LW W0 Ne He H. unfold log_likelihood_of in H.
  assert (P : (0 < Z.of_nat (length w) <= 2 ^ 53)%Z). { split; [destruct w; [congruence|cbn [length]; lia]|lia]. }
  destruct (pos_int_shape _ P) as (mn & en & Hn & En).
  change (nofZ (n := B64) (Z.of_nat (length w))) with (b64_ofZ (Z.of_nat (length w))) in H. rewrite En in H.
  change (neq (n := B64) g (nofZ 0)) with (b64_eqb g (b64_ofZ 0)) in H.
  destruct (b64_eqb g (b64_ofZ 0)) eqn:G0.
  - assert (G : exists z, g = B754_zero z). { destruct g as [z|z| |z m x W]; [eauto| | |]; try destruct z; discriminate. }
    destruct G as (z & ->).
    change (nan64 (b64_minus (b64_mult (b64_opp (B754_finite false mn en Hn)) (xlog (N := B64) musl_utils s)) (b64_div e s)) = false) in H.
    pose proof H as H'. apply minus_nan_inv in H' as (H1 & H2). apply mult_nan_inv in H1 as (_ & H1). apply log_domain in H1 as [(Fs & Ps)|(zs & ->)].
    + left. split; [reflexivity|]. split; [exact Fs|]. split; [exact Ps|]. intros C. exfalso. apply C. reflexivity.
    + right. split; [eauto|]. destruct zs; [reflexivity|]. exfalso.
      replace (xlog (N := B64) musl_utils (B754_zero false)) with (B754_infinity true : b64) in H by (vm_compute; reflexivity).
      destruct e as [z0|z0| |z0 m x W]; try discriminate.
      * destruct z0; [cbn [xval] in He; pose proof TOP_pos; lra|]. discriminate.
      * destruct z0; [|discriminate]. exfalso. cbn [xval] in He. assert (B2R64 (B754_finite true m x W) < 0) by (cbn; apply F2R_lt_0; reflexivity). lra.
  - change (nan64 (fold_left (fun r v => b64_plus r ((fun v => b64_mult (b64_opp (b64_plus (b64_ofZ 1) (b64_div (b64_ofZ 1) g))) (xlog (N := B64) musl_utils (b64_plus (b64_ofZ 1) (b64_mult (b64_div g s) v)))) v)) w
      (b64_mult (b64_opp (B754_finite false mn en Hn)) (xlog (N := B64) musl_utils s))) = false) in H.
    apply fold_nan in H as (H1 & H2). apply mult_nan_inv in H1 as (_ & H1). apply log_domain in H1.
    assert (LD : forall v, In v w -> (finite64 (b64_plus (b64_ofZ 1) (b64_mult (b64_div g s) v)) = true /\ 0 < B2R64 (b64_plus (b64_ofZ 1) (b64_mult (b64_div g s) v))) \/
               (exists z, b64_plus (b64_ofZ 1) (b64_mult (b64_div g s) v) = B754_zero z)).
    { intros v Hv. specialize (H2 v Hv). cbv beta in H2. apply mult_nan_inv in H2 as (_ & H2). apply log_domain in H2. exact H2. }
    assert (GI : forall v, In v w -> ~ (exists z, b64_div g s = B754_infinity z)).
    { intros v Hv (z & E). specialize (LD v Hv). specialize (W0 v Hv). rewrite E in LD. clear - LD W0.
      destruct v as [r|r| |r m x W]; try discriminate; destruct r, z; try discriminate;
      destruct LD as [(A & _)|(z & A)]; discriminate A. }
    assert (v0 : exists v, In v w) by (destruct w as [|v w']; [congruence|exists v; left; reflexivity]). destruct v0 as (v0 & Hv0).
    assert (Ng : nan64 g = false).
    { destruct g; try reflexivity. exfalso. specialize (H2 v0 Hv0). cbn in H2. discriminate. }
    assert (Gs : finite64 g = true /\ finite64 s = true /\ 0 < B2R64 s).
    { destruct H1 as [(Fs & Ps)|(z & ->)].
      - split; [|auto]. destruct g as [z|z| |z m x W]; try reflexivity; try discriminate Ng. exfalso. apply (GI v0 Hv0).
        destruct (pos_shape s Fs Ps) as (m & x & W & ->). cbn. eauto.
      - exfalso. apply (GI v0 Hv0). destruct g as [r|r| |r m x W]; try discriminate Ng; [discriminate G0| |]; cbn; eauto. }
    left. destruct Gs as (Fg & Fs & Ps). split; [exact Fg|]. split; [exact Fs|]. split; [exact Ps|].
    intros _ v Hv. destruct (LD v Hv) as [(F & Q)|(z & ->)]; [|destruct z; reflexivity].
    apply leb_true_iff. split; [reflexivity|]. split; [apply finite_not_nan; exact F|]. rewrite xval_zero, (xval_finite _ F). lra.
Qed.

(** the exponential candidate has a likelihood which is not NaN *)
Lemma exponential_not_nan (n : Z) (e m : b64) : (0 < n <= 2 ^ 53)%Z -> finite64 e = true -> 0 <= B2R64 e -> finite64 m = true -> 0 < B2R64 m ->
  nan64 (b64_minus (b64_mult (b64_opp (b64_ofZ n)) (xlog (N := B64) musl_utils m)) (b64_div e m)) = false.
Proof.
  intros Hn Fe He Fm Hm. destruct (xlog_accuracy m Fm Hm) as (FL & _).
  assert (HL : Rabs (B2R64 (xlog (N := B64) musl_utils m)) <= 746).
  { destruct (xlog_range m) as [Nl|[(s & E)|(_ & Hl)]].
    + rewrite (finite_not_nan _ FL) in Nl. discriminate.
    + exfalso. subst m. cbn in Hm. lra.
    + exact Hl. }
  set (L := xlog (N := B64) musl_utils m : b64) in *.
  destruct (ofZ_exact n ltac:(lia)) as (Fn & En). assert (Fo : finite64 (b64_opp (b64_ofZ n)) = true) by (rewrite finite_opp; exact Fn).
  assert (Eo : B2R64 (b64_opp (b64_ofZ n)) = - IZR n). { rewrite <- (xval_finite _ Fo), xval_opp, (xval_finite _ Fn), En. reflexivity. }
  destruct (mult_xval _ L Fo FL) as (N1 & V1). rewrite Eo in V1.
  assert (B : Rabs (- IZR n * B2R64 L) <= 10 ^ 300).
  { rewrite Rabs_mult, Rabs_Ropp, Rabs_pos_eq by (apply IZR_le; lia). assert (IZR n <= 9007199254740992) by (apply IZR_le; lia).
    pose proof (Rabs_pos (B2R64 L)). assert (0 < IZR n) by (apply IZR_lt; lia).
    apply Rle_trans with (9007199254740992 * 746); [apply Rmult_le_compat; lra|]. apply Rle_trans with (10 ^ 20); [lra|apply Rle_pow; [lra|lia]]. }
  destruct (op_abs _ _ N1 V1 B) as (F1 & _ & _). set (a := b64_mult (b64_opp (b64_ofZ n)) L) in *.
  destruct (div_xval e m Fe Fm ltac:(lra)) as (N2 & V2).
  set (X := b64_div e m) in *. destruct (finite64 X) eqn:FX.
  - apply (minus_xval a X F1 FX).
  - destruct X as [s|s| |s m' e' H']; try discriminate. destruct a as [z|z| |z m' e' H']; try discriminate; destruct s; reflexivity.
Qed.

(** ** The four candidates *)
Lemma better_cases mf (p : peaks B64) b c b' : grimshaw_better mf p b c = Ret b' ->
  b' = b \/ (fst c = true /\ grimshaw_simplified_log_likelihood mf (snd c) p = Ret b').
Proof.
  unfold grimshaw_better. destruct c as [[|] root]; cbn [fst snd].
  2:{ intros H; injection H as <-. left; reflexivity. }
  destruct (grimshaw_simplified_log_likelihood mf root p) as [[[ll g] s]|]; cbn [bind]; [|discriminate].
  destruct b as [[bll bg] bs]. intros H; injection H as <-. match goal with |- context [if ?t then _ else _] => destruct t end; auto.
Qed.

Definition g_epsilon (p : peaks B64) : b64 := xmin (N := B64) (BRENT_DEFAULT_EPSILON (N := B64)) (b64_div half64 (p_max p)).
Definition left_lo (p : peaks B64) : b64 := b64_plus (b64_div (b64_ofZ (-1)) (p_max p)) (g_epsilon p).
Definition right_hi (p : peaks B64) : b64 := b64_div (b64_mult (b64_ofZ 2) (b64_minus (peaks_mean p) (p_min p))) (b64_mult (p_min p) (p_min p)).

Lemma fit_cases mf (t t' : tail B64) ll : tail_fit mf t = Ret (t', ll) -> let p := t_peaks t in
  (t_gamma t' = mom_gamma p /\ t_sigma t' = mom_sigma p) \/
  (t_gamma t' = b64_ofZ 0 /\ t_sigma t' = peaks_mean p) \/
  (exists x : b64, brent (grimshaw_w mf p) (left_lo p : num B64) (b64_opp (g_epsilon p) : num B64) (eps0 : num B64) = Ret (true, x : num B64) /\
     grimshaw_simplified_log_likelihood mf (x : num B64) p = Ret (ll, t_gamma t', t_sigma t')) \/
  (exists x : b64, brent (grimshaw_w mf p) (g_epsilon p : num B64) (right_hi p : num B64) (eps0 : num B64) = Ret (true, x : num B64) /\
     grimshaw_simplified_log_likelihood mf (x : num B64) p = Ret (ll, t_gamma t', t_sigma t')).
Proof.
  intros F p. revert F. unfold tail_fit, tail_fit_loop, ESTIMATORS. fold p. unfold mom_estimator. cbv zeta. fold p.
  change (@nmul B64 c_half (nsub (nofZ 1) (ndiv (nmul (peaks_mean p) (peaks_mean p)) (peaks_var p)))) with (mom_gamma p).
  change (@nmul B64 (nmul c_half (peaks_mean p)) (nadd (nofZ 1) (ndiv (nmul (peaks_mean p) (peaks_mean p)) (peaks_var p)))) with (mom_sigma p).
  destruct (log_likelihood mf p (mom_gamma p) (mom_sigma p)) as [ll1|]; cbn [bind]; [|discriminate].
  change (XMath.is_nan (@c_nan B64)) with true. cbn [orb t_peaks]. fold p.
  destruct (grimshaw_estimator mf p) as [[[llg gg] sg]|] eqn:EG; cbn [bind]; [|discriminate].
  destruct (_ || _)%bool; intros H; injection H as <- <-; cbn [t_gamma t_sigma]; [right|left; split; reflexivity].
  unfold grimshaw_estimator in EG. cbv zeta in EG.
  change (brent (grimshaw_w mf p) _ (nopp _) _) with (brent (grimshaw_w mf p) (left_lo p : num B64) (b64_opp (g_epsilon p) : num B64) (eps0 : num B64)) in EG.
  destruct (brent (grimshaw_w mf p) (left_lo p : num B64) (b64_opp (g_epsilon p) : num B64) (eps0 : num B64)) as [[f1 r1]|] eqn:E1; cbn [bind] in EG; [|discriminate].
  change (brent (grimshaw_w mf p) _ _ _) with (brent (grimshaw_w mf p) (g_epsilon p : num B64) (right_hi p : num B64) (eps0 : num B64)) in EG.
  destruct (brent (grimshaw_w mf p) (g_epsilon p : num B64) (right_hi p : num B64) (eps0 : num B64)) as [[f2 r2]|] eqn:E2; cbn [bind] in EG; [|discriminate].
  destruct (grimshaw_simplified_log_likelihood mf (nofZ 0) p) as [b0|] eqn:E0; cbn [bind] in EG; [|discriminate].
  destruct (grimshaw_better mf p b0 (f1, r1)) as [b1|] eqn:EB; cbn [bind] in EG; [|discriminate].
  apply better_cases in EG. destruct EG as [<-|(T & G)]; cbn [fst snd] in *.
  - apply better_cases in EB. destruct EB as [EB|(T & G)]; cbn [fst snd] in *.
    + left. rewrite <- EB in E0. unfold grimshaw_simplified_log_likelihood in E0. change (neq (n := B64) (nofZ 0) (nofZ 0)) with true in E0. cbv iota in E0. cbn [bind] in E0.
      destruct (log_likelihood mf p _ _); cbn [bind] in E0; [|discriminate]. injection E0 as _ <- <-. split; reflexivity.
    + right; left. exists r1. subst f1. split; [reflexivity|exact G].
  - right; right. exists r2. subst f2. split; [reflexivity|exact G].
Qed.
