(** * The option discard_anomalies (C100) *)
From Coq Require Import ZArith List Bool.
From Flocq Require Import IEEE754.BinarySingleNaN.
From Verif Require Import Num XMath Ubend Session Peaks Brent Estimator Tail P2 Spot B64 Spec DiscardLemmas Demo.
Import ListNotations.
Open Scope Z_scope.

(** As long as no call has answered ANOMALY, a detector initialised with discard_anomalies = 0 gives the same answers and has the
    same content, but for that field. *)
Theorem C100_until_first_anomaly {N} (mf : MathFns N) old q low discard level cap alloc s cs s' l :
  spot_init old q low discard level cap alloc = (s, 0) -> session mf s cs = Ret (s', l) -> ~ In (ACode ANOMALY) l ->
  exists s0 s1, spot_init old q low 0 level cap alloc = (s0, 0) /\ session mf s0 cs = Ret (s1, l) /\
    s_discard s1 = 0 /\ s_q s1 = s_q s' /\ s_level s1 = s_level s' /\ s_low s1 = s_low s' /\ s_updown s1 = s_updown s' /\
    s_at s1 = s_at s' /\ s_et s1 = s_et s' /\ s_Nt s1 = s_Nt s' /\ s_n s1 = s_n s' /\ s_tail s1 = s_tail s'.
Proof. exact (until_first_anomaly mf old q low discard level cap alloc s cs s' l). Qed.
Print Assumptions C100_until_first_anomaly.

(** Without the option no call answers ANOMALY. *)
Theorem C100_never_without {N} (mf : MathFns N) s x s' r : s_discard s = 0 -> spot_step mf s x = Ret (s', r) -> r <> ANOMALY.
Proof. exact (never_without_discard mf s x s' r). Qed.
Print Assumptions C100_never_without.

(** The answers agree up to the third observation, which is an anomaly for the first detector and an excess for the second. *)
Definition stream : list (call B64) := [CFit (N := B64) (map d [1; 2; 3; 4; 2; 3; 1; 4]); CStep (N := B64) (d 1); CStep (N := B64) (d 4); CStep (N := B64) (d 100)].
Example C100_example : codes (demo_init 0 1 4) stream = Some [0; 0; 1; 2] /\ codes (demo_init 0 0 4) stream = Some [0; 0; 1; 1].
Proof. split; vm_compute; reflexivity. Qed.
