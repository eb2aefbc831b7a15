(** * What the method of moments does with a bookkeeping second moment (C93) *)
From Coq Require Import ZArith List Bool Reals Lra Lia.
From Flocq Require Import IEEE754.BinarySingleNaN.
From Verif Require Import Num XMath Ubend Session Peaks Brent Estimator Tail P2 Spot B64 RNum Spec MomentsLemmas Demo.
Import ListNotations.
Open Scope R_scope.

(** C93. The variance is computed from p->e2, which a push that evicts an extreme resets (C18). As long as the two sums are not
    negative, a computed variance that is not positive (negative, zero or not a number) takes the moments candidate out of the fit:
    what is stored is Grimshaw's. *)
Theorem C93_silent (t t' : tail B64) ll : (1 <= peaks_size (t_peaks t) <= 2 ^ 53)%Z ->
  b64_ltb (p_e (t_peaks t)) (b64_ofZ 0) = false -> b64_ltb (p_e2 (t_peaks t)) (b64_ofZ 0) = false ->
  b64_ltb (b64_ofZ 0) (peaks_var (t_peaks t)) = false ->
  tail_fit (c_math musl_utils) t = Ret (t', ll) ->
  grimshaw_estimator (c_math musl_utils) (t_peaks t) = Ret (ll, t_gamma t', t_sigma t').
Proof. exact (moments_silent t t' ll). Qed.
Print Assumptions C93_silent.

Definition pushed (cap : Z) (xs : list Z) : option (peaks B64) :=
  match peaks_pushes (N := B64) (fst (peaks_init (N := B64) (Some (block cap)) cap)) (map d xs) with Ret p => Some p | _ => None end.
(** 30, 29, 28, 27 in a window of three: the second moment has fallen to 784, the sum is 84, the computed variance is below -522; the
    fit is defined *)
Example C93_silent_example :
  match pushed 3 [30; 29; 28; 27]%Z with
  | Some p => (negb (b64_ltb (p_e p) (d 0)) && b64_eqb (p_e2 p) (d 784) && b64_ltb (peaks_var p) (d (-522)))%bool = true /\
      match tail_fit cm (MkTail (N := B64) (d 0) (d 0) p) with Ret _ => True | _ => False end
  | None => False end.
Proof. vm_compute. repeat split. Qed.

(** over the reals, with E the mean and V the computed variance: V above zero gives a shape below one half and a scale above E/2,
    V between -E^2 and zero gives no likelihood, V below -E^2 (a negative second moment) gives a shape between one half and
    one and a scale below E/2 *)
Theorem C93_over_the_reals (p : peaks RNum) e e2 (ll g s : num RNum) : (0 < peaks_size p)%Z -> p_e p = Some e -> p_e2 p = Some e2 -> 0 < e ->
  mom_estimator exact_math p = Ret (ll, g, s) ->
  let E := e / IZR (peaks_size p) in let V := e2 / IZR (peaks_size p) - E * E in
  (0 < V -> exists gamma sigma, g = Some gamma /\ s = Some sigma /\ gamma < 1 / 2 /\ E / 2 < sigma) /\
  (- (E * E) <= V <= 0 -> ll = None) /\
  (V < - (E * E) -> exists gamma sigma, g = Some gamma /\ s = Some sigma /\ 1 / 2 < gamma < 1 /\ 0 < sigma < E / 2).
Proof. exact (moments_over_the_reals p e e2 ll g s). Qed.
Print Assumptions C93_over_the_reals.

(** one excess of 2 and a second moment of 6, 2 and -1: the three cases *)
Example C93_over_the_reals_example : forall e2, exists ll g s,
  mom_estimator exact_math (MkPeaks (N := RNum) (Some 2) (Some e2) (Some 2) (Some 2) (MkUbend (N := RNum) 0 1 (Some 2) 1 [Some (Some 2)])) = Ret (ll, g, s) /\
  (0 < 6 / 1 - 2 / 1 * (2 / 1) /\ - (2 / 1 * (2 / 1)) <= 2 / 1 - 2 / 1 * (2 / 1) <= 0 /\ -1 / 1 - 2 / 1 * (2 / 1) < - (2 / 1 * (2 / 1))).
Proof.
  intros e2. unfold mom_estimator. cbv zeta. match goal with |- context [log_likelihood _ ?p ?g ?s] => assert (exists l, log_likelihood exact_math p g s = Ret l) as (l & ->) end.
  { unfold log_likelihood. destruct (neq _ _); eexists; reflexivity. }
  cbn [bind]. eexists _, _, _. split; [reflexivity|lra].
Qed.

(** "A variance that is not positive always takes the method of moments out" is false: with a negative second moment its candidate
    can win. *)
Theorem C93_never_from_a_negative_variance_refuted :
  ~ (forall cap (xs : list b64) (p : peaks B64) (t' : tail B64) ll, (forall x, In x xs -> b64_leb (b64_ofZ 0) x = true) ->
      peaks_pushes (N := B64) (fst (peaks_init (N := B64) (Some (block cap)) cap)) xs = Ret p ->
      b64_ltb (peaks_var p) (b64_ofZ 0) = true ->
      tail_fit (c_math musl_utils) (MkTail (N := B64) (b64_ofZ 0) (b64_ofZ 0) p) = Ret (t', ll) ->
      grimshaw_estimator (c_math musl_utils) p = Ret (ll, t_gamma t', t_sigma t')).
Proof. exact negative_moment_wins. Qed.
Print Assumptions C93_never_from_a_negative_variance_refuted.

(** 100, 20, 4, 100, 0 in a window of three (4, 100, 0 remain): the second moment is -384; the shape stored is between 0.95 and
    0.96 and the scale below 1.7, where Grimshaw's candidate has shape zero and the mean as scale *)
Example C93_refuted_example :
  match pushed 3 [100; 20; 4; 100; 0]%Z with
  | Some p => b64_eqb (p_e2 p) (d (-384)) = true /\
      match tail_fit cm (MkTail (N := B64) (d 0) (d 0) p), grimshaw_estimator cm p with
      | Ret (t', _), Ret (_, g, s) =>
          (b64_ltb (b64_div (d 95) (d 100)) (t_gamma t') && b64_ltb (t_gamma t') (b64_div (d 96) (d 100)) &&
           b64_ltb (d 1) (t_sigma t') && b64_ltb (t_sigma t') (b64_div (d 17) (d 10)) && b64_eqb g (d 0) && b64_ltb (d 34) s)%bool = true
      | _, _ => False end
  | None => False end.
Proof. vm_compute. repeat split. Qed.
