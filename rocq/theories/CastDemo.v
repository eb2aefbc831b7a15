(** * Witnesses: ordinary data on which spot_fit and spot_step reach the undefined conversion (C45) *)
From Coq Require Import ZArith List Bool Reals.
From Flocq Require Import IEEE754.BinarySingleNaN.
From Verif Require Import Num XMath Ubend Session Peaks Brent Estimator Tail P2 Spot B64 Spec SpotFacts B64Facts DetectorLemmas CastLemmas Demo.
Import ListNotations.
Open Scope Z_scope.

(** a detector whose tail parameters and excess threshold are replaced *)
Definition with_shape (s : spot B64) (g sg et : b64) : spot B64 :=
  with_et (with_tail s (MkTail (N := B64) g sg (t_peaks (s_tail s)))) et.

Definition c3 : b64 := b64_div (d 3) (d 10).
Definition zeros k : list b64 := repeat (d 0) k.
Definition batch20 : list b64 := zeros 9 ++ [c3] ++ zeros 4 ++ [c3] ++ zeros 4 ++ [c3].
Definition batch18 : list b64 := zeros 9 ++ [c3] ++ zeros 7 ++ [c3].

Lemma undef_of_bool {A} (r : res A) : (match r with Undef CastRange => true | _ => false end) = true -> r = Undef CastRange.
Proof. destruct r as [|[]]; congruence. Qed.

Lemma fit_undefined_witness :
  exists (s : spot B64) (data : list b64),
    detector (c_math musl_utils) (dy 1 7) 0 1 (dy 3 2) 4 s /\
    (forall x, In x data -> x = d 0 \/ x = b64_div (d 3) (d 10)) /\ length data = 20%nat /\
    spot_fit (c_math musl_utils) s data = Undef CastRange.
Proof.
  exists (demo_init 0 1 4), batch20. split.
  { apply (demo_detector 0 1 4 []); vm_compute; reflexivity. }
  split.
  { unfold batch20, zeros. cbn [repeat app In]. intros x H. repeat (destruct H as [H|H]; [symmetry in H; tauto|]). destruct H. }
  split; [reflexivity|]. apply undef_of_bool. vm_compute. reflexivity.
Qed.

Lemma step_undefined_witness :
  exists (s : spot B64) (data : list b64) s1,
    detector (c_math musl_utils) (dy 1 7) 0 1 (dy 3 2) 4 s /\
    (forall x, In x data -> x = d 0 \/ x = b64_div (d 3) (d 10)) /\ length data = 18%nat /\
    spot_fit (c_math musl_utils) s data = Ret (s1, 0) /\
    spot_step (c_math musl_utils) s1 (b64_div (d 3) (d 10)) = Undef CastRange.
Proof.
  exists (demo_init 0 1 4), batch18.
  assert (H : match spot_fit (c_math musl_utils) (demo_init 0 1 4) batch18 with
              | Ret (s1, r) => ((r =? 0) && match spot_step (c_math musl_utils) s1 c3 with Undef CastRange => true | _ => false end)%bool
              | Undef _ => false end = true) by (vm_compute; reflexivity).
  destruct (spot_fit _ _ _) as [[s1 r]|]; [|discriminate]. apply andb_prop in H as (H1 & H2). apply Z.eqb_eq in H1. subst r.
  exists s1. split.
  { apply (demo_detector 0 1 4 []); vm_compute; reflexivity. }
  split.
  { unfold batch18, zeros. cbn [repeat app In]. intros x H. repeat (destruct H as [H|H]; [symmetry in H; tauto|]). destruct H. }
  split; [reflexivity|]. split; [reflexivity|]. apply undef_of_bool. exact H2.
Qed.
