(** * Demo: concrete detectors used in the Examples *)
From Coq Require Import ZArith List Bool.
From Flocq Require Import IEEE754.BinarySingleNaN.
From Verif Require Import Num XMath Ubend Session Peaks Brent Estimator Tail P2 Spot B64 Spec.
Import ListNotations.
Open Scope Z_scope.

(** the C functions *)
Definition cm : MathFns B64 := c_math musl_utils.
(** num / 2^k *)
Definition dy (m k : Z) : b64 := b64_div (d m) (d (2 ^ k)).
Definition pinf : b64 := B754_infinity false.
Definition ninf : b64 := B754_infinity true.
Definition qnan : b64 := B754_nan.

(** a struct with arbitrary content *)
Definition junk : spot B64 :=
  MkSpot (N := B64) (d 7) (d 8) 9 10 (d 11) (d 12) (d 13) 14 15
    (MkTail (N := B64) (d 16) (d 17)
       (MkPeaks (N := B64) (d 18) (d 19) (d 20) (d 21) (MkUbend (N := B64) 22 23 (d 24) 25 []))).

Definition demo_batch : list b64 := map d [3; 1; 4; 1; 5; 9; 2; 6; 5; 3; 5; 8; 9; 7; 9; 3; 2; 3; 8; 4].
Definition block (cap : Z) : list (option b64) := repeat None (Z.to_nat cap).
Definition demo_init (low discard cap : Z) : spot B64 :=
  fst (spot_init (N := B64) junk (dy 1 7) low discard (dy 3 2) cap (fun _ => Some (block cap))).
Definition run (s : spot B64) (cs : list (call B64)) : spot B64 :=
  match session cm s cs with Ret (s', _) => s' | Undef _ => s end.
(** the codes answered (numbers are shown as 7) *)
Definition codes (s : spot B64) (cs : list (call B64)) : option (list Z) :=
  match session cm s cs with
  | Ret (_, l) => Some (map (fun a => match a with ACode c => c | ANum _ => 7 end) l)
  | Undef _ => None
  end.

(** an upper-tail and a lower-tail detector, window of four, fitted *)
Definition demo_up : spot B64 := run (demo_init 0 1 4) [CFit (N := B64) demo_batch].
Definition demo_low : spot B64 := run (demo_init 1 1 4) [CFit (N := B64) demo_batch].

(** is the session free of undefined behaviour? *)
Definition defined (s : spot B64) (cs : list (call B64)) : bool :=
  match session cm s cs with Ret _ => true | Undef _ => false end.

Lemma demo_detector low discard cap calls :
  (1 <=? cap) && (cap <? 2 ^ 61) = true -> defined (demo_init low discard cap) calls = true ->
  detector cm (dy 1 7) low discard (dy 3 2) cap (run (demo_init low discard cap) calls).
Proof.
  intros H E. apply andb_prop in H as (H1 & H2). apply Z.leb_le in H1. apply Z.ltb_lt in H2.
  unfold defined, run in *. destruct (session cm (demo_init low discard cap) calls) as [[s l]|] eqn:S; [|discriminate].
  exists junk, (block cap), (demo_init low discard cap), calls, l.
  repeat split; try assumption.
  unfold block. rewrite repeat_length, Z2Nat.id; [reflexivity|]. apply Z.le_trans with 1; [discriminate|assumption].
Qed.

Lemma detector_up : detector cm (dy 1 7) 0 1 (dy 3 2) 4 demo_up.
Proof. apply (demo_detector 0 1 4 [CFit (N := B64) demo_batch]); vm_compute; reflexivity. Qed.
Lemma detector_low : detector cm (dy 1 7) 1 1 (dy 3 2) 4 demo_low.
Proof. apply (demo_detector 1 1 4 [CFit (N := B64) demo_batch]); vm_compute; reflexivity. Qed.

(** Doubles without their proofs: used to display and compare computed values. *)
Definition sf (x : b64) : SpecFloat.spec_float := B2SF x.
Lemma sf_inj x y : sf x = sf y -> x = y.
Proof. apply B2SF_inj. Qed.
