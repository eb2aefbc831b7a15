(** * MirrorSpec: mirror images (vocabulary of C39) *)
From Coq Require Import ZArith List Bool.
From Verif Require Import Num Tail Spot B64 Spec.
Open Scope Z_scope.

(** [a] is minus [b]: both NaN, or equal as numbers to the opposite (the sign of a zero is not looked at) *)
Definition opposite (a b : b64) : Prop :=
  (is_NaN a = true /\ is_NaN b = true) \/ b64_eqb a (b64_opp b) = true.

(** [s] watches the upper tail and [t] the lower one, their thresholds are opposite; everything that does
    not depend on the side is identical: risk, policy, counters and the whole tail (parameters,
    statistics and window, bit for bit). *)
Definition mirror (s t : spot B64) : Prop :=
  s_updown s = d 1 /\ s_updown t = d (-1) /\
  opposite (s_et t) (s_et s) /\ opposite (s_at t) (s_at s) /\
  s_q t = s_q s /\ s_discard t = s_discard s /\ s_Nt t = s_Nt s /\ s_n t = s_n s /\ s_tail t = s_tail s.
