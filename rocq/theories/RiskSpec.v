(** * RiskSpec: two detectors that differ by their risk only (vocabulary of C79) *)
From Coq Require Import ZArith.
From Verif Require Import Num Tail Spot.

(** the same configuration, counters and tail; the risk q and the anomaly threshold may differ *)
Definition same_but_q {N} (s t : spot N) : Prop :=
  s_level s = s_level t /\ s_discard s = s_discard t /\ s_low s = s_low t /\ s_updown s = s_updown t /\
  s_et s = s_et t /\ s_Nt s = s_Nt t /\ s_n s = s_n t /\ s_tail s = s_tail t.
