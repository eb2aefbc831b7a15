(** * ScaleDemo: the demonstration batch in another unit (C60) *)
From Coq Require Import ZArith List Bool Reals Lra Lia.
From Flocq Require Import IEEE754.BinarySingleNaN.
From Verif Require Import Num XMath Ubend Session Peaks Brent Estimator Tail P2 Spot SpotFacts B64 Spec FitLemmas RefitLemmas TinyFit TinyApi Demo DemoCheck.
Import ListNotations.
Open Scope R_scope.

Lemma tiny_lemma q low discard level cap (s s' : spot B64) :
  detector (c_math musl_utils) q low discard level cap s -> (cap <= 2 ^ 53)%Z ->
  (exists x, spot_step (c_math musl_utils) s x = Ret (s', EXCESS)) \/ (exists data, spot_fit (c_math musl_utils) s data = Ret (s', 0%Z)) ->
  let p := t_peaks (s_tail s') in
  is_finite (p_max p) = true -> 0 < B2R (p_max p : b64) <= 27 / 10 ^ 10 ->
  is_finite (peaks_mean p) = true -> 0 < B2R (peaks_mean p : b64) <= 1 ->
  log_likelihood (c_math musl_utils) p (mom_gamma p) (mom_sigma p) <> Ret (B754_infinity false : b64) ->
  t_gamma (s_tail s') = (B754_zero false : b64) /\ t_sigma (s_tail s') = (B754_zero true : b64) /\
  (is_finite (s_et s') = true -> is_finite q = true -> 0 < B2R (q : b64) <= 1 -> (0 < s_Nt s' <= s_n s')%Z -> (s_n s' <= 2 ^ 53)%Z ->
   is_finite (s_at s') = true /\ B2R (s_at s' : b64) = B2R (s_et s' : b64) /\
   (forall x, discard <> 0%Z -> beyond low (s_et s') x = true -> spot_step (c_math musl_utils) s' x = Ret (s', ANOMALY))).
Proof.
  intros D C R. apply (tiny_api q low discard level cap s s' D); [|exact C].
  destruct R as [R|(data & R)]; [left; exact R|right; exists data, 0%Z; split; [exact R|discriminate]].
Qed.

Definition shrink (y : b64) : b64 := b64_div y (b64_ofZ (2 ^ 33)).
Lemma run_fit s data : (match spot_fit cm s data with Ret (_, 0%Z) => true | _ => false end) = true ->
  spot_fit cm s data = Ret (run s [CFit (N := B64) data], 0%Z).
Proof.
  intros H. unfold run. cbn [session do_call]. destruct (spot_fit cm s data) as [[s1 r]|]; [|discriminate].
  cbn [bind]. destruct r; try discriminate. reflexivity.
Qed.
Definition code_of (r : res (spot B64 * Z)) : Z := match r with Ret (_, c) => c | Undef _ => -1 end.
Lemma step_code s x : code_of (spot_step (c_math musl_utils) s x) = 1%Z -> exists s', spot_step (c_math musl_utils) s x = Ret (s', EXCESS).
Proof. destruct (spot_step (c_math musl_utils) s x) as [[s1 r]|]; [|discriminate]. cbn [code_of]. intros ->. exists s1. reflexivity. Qed.
Lemma step_anomaly s x : code_of (spot_step (c_math musl_utils) s x) = 2%Z -> spot_step (c_math musl_utils) s x = Ret (s, ANOMALY).
Proof.
  destruct (spot_step (c_math musl_utils) s x) as [[s1 r]|] eqn:E; [|discriminate]. cbn [code_of]. intros ->.
  apply step_inv in E. destruct E as [? ? X|? ? ? X ?|? ? ? ? X|? ? ? ? ? ? ? ? ? ? ? X]; try discriminate. rewrite X. reflexivity.
Qed.
Definition scale_check (r1 r2 : res (spot B64 * Z)) (x : b64) : bool :=
  match r1, r2 with
  | Ret (s1, c1), Ret (s2, c2) =>
      (c1 =? 0)%Z && (c2 =? 0)%Z && same (s_et s2) (shrink (s_et s1)) && b64_ltb (s_et s1) (s_at s1) && same (s_at s2) (s_et s2) &&
      (code_of (spot_step cm s1 x) =? 1)%Z && (code_of (spot_step cm s2 (shrink x)) =? 2)%Z
  | _, _ => false
  end.
Lemma scale_check_ok r1 r2 x : scale_check r1 r2 x = true -> exists s1 s2, r1 = Ret (s1, 0%Z) /\ r2 = Ret (s2, 0%Z) /\
  s_et s2 = shrink (s_et s1) /\ b64_ltb (s_et s1) (s_at s1) = true /\ s_at s2 = s_et s2 /\
  (exists s1', spot_step cm s1 x = Ret (s1', EXCESS)) /\ spot_step cm s2 (shrink x) = Ret (s2, ANOMALY).
Proof.
  unfold scale_check. destruct r1 as [[s1 c1]|]; [|discriminate]. destruct r2 as [[s2 c2]|]; [|discriminate]. intros H.
  repeat match type of H with _ && _ = true => apply andb_prop in H; destruct H as (H & ?) end.
  repeat match goal with X : (_ =? _)%Z = true |- _ => apply Z.eqb_eq in X | X : same _ _ = true |- _ => apply same_ok in X end.
  subst c1 c2. exists s1, s2. repeat (split; [first [reflexivity|assumption|apply step_code; assumption]|]). apply step_anomaly. assumption.
Qed.
Lemma change_of_unit_witness :
  exists (s s1 s2 : spot B64) (data : list b64) (x : b64),
    detector (c_math musl_utils) (dy 1 7) 0 1 (dy 3 2) 4 s /\
    spot_fit (c_math musl_utils) s data = Ret (s1, 0%Z) /\
    spot_fit (c_math musl_utils) s (map (fun y => b64_div y (b64_ofZ (2 ^ 33))) data) = Ret (s2, 0%Z) /\
    s_et s2 = b64_div (s_et s1) (b64_ofZ (2 ^ 33)) /\
    b64_ltb (s_et s1) (s_at s1) = true /\ s_at s2 = s_et s2 /\
    (exists s1', spot_step (c_math musl_utils) s1 x = Ret (s1', EXCESS)) /\
    spot_step (c_math musl_utils) s2 (b64_div x (b64_ofZ (2 ^ 33))) = Ret (s2, ANOMALY).
Proof.
  destruct (scale_check_ok (spot_fit cm (demo_init 0 1 4) demo_batch) (spot_fit cm (demo_init 0 1 4) (map shrink demo_batch)) (d 9)) as (s1 & s2 & H); [vm_cast_no_check (eq_refl true)|].
  exists (demo_init 0 1 4), s1, s2, demo_batch, (d 9). split; [apply (demo_detector 0 1 4 []); vm_compute; reflexivity|exact H].
Qed.
