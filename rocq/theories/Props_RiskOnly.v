(** * The parameter q without discarding (C102) *)
From Coq Require Import ZArith List Bool.
From Flocq Require Import IEEE754.BinarySingleNaN.
From Verif Require Import Num XMath Ubend Session Peaks Brent Estimator Tail P2 Spot B64 Spec Demo.
From Verif Require Import RiskOnlyLemmas.
Import ListNotations.
Open Scope Z_scope.

(** Two detectors with discard_anomalies = 0 that differ by q only: after the same calls they have the same excess threshold, counters
    and tail (parameters, window and statistics). Their answers are the same, but that a calibration may report a NaN anomaly
    threshold for one and not for the other. *)
Theorem C102_same_tail {N} (mf : MathFns N) old q q2 low level cap alloc s s2 cs s' l s2' l2 :
  spot_init old q low 0 level cap alloc = (s, 0) -> spot_init old q2 low 0 level cap alloc = (s2, 0) ->
  session mf s cs = Ret (s', l) -> session mf s2 cs = Ret (s2', l2) ->
  Forall2 (fun a b => a = b \/ ((a = ACode 0 \/ a = ACode (-1004)) /\ (b = ACode 0 \/ b = ACode (-1004)))) l l2 /\
  s_et s2' = s_et s' /\ s_Nt s2' = s_Nt s' /\ s_n s2' = s_n s' /\ s_tail s2' = s_tail s' /\
  s_level s2' = s_level s' /\ s_low s2' = s_low s' /\ s_updown s2' = s_updown s' /\ s_discard s2' = s_discard s'.
Proof. exact (risk_only mf old q q2 low level cap alloc s s2 cs s' l s2' l2). Qed.
Print Assumptions C102_same_tail.

(** The observations that follow are answered alike. *)
Theorem C102_same_codes {N} (mf : MathFns N) old q q2 low level cap alloc s s2 cs s' l s2' l2 xs s3 rs s4 rs2 :
  spot_init old q low 0 level cap alloc = (s, 0) -> spot_init old q2 low 0 level cap alloc = (s2, 0) ->
  session mf s cs = Ret (s', l) -> session mf s2 cs = Ret (s2', l2) ->
  spot_steps mf s' xs = Ret (s3, rs) -> spot_steps mf s2' xs = Ret (s4, rs2) -> rs2 = rs.
Proof. exact (risk_only_codes mf old q q2 low level cap alloc s s2 cs s' l s2' l2 xs s3 rs s4 rs2). Qed.
Print Assumptions C102_same_codes.

(** q = 1/128 and q = 1/8: the same answers and distinct thresholds without discarding, distinct answers with it. *)
Definition init_q (q : b64) (discard : Z) : spot B64 := fst (spot_init (N := B64) junk q 0 discard (dy 3 2) 4 (fun _ => Some (block 4))).
Definition stream : list (call B64) := [CFit (N := B64) (map d [1; 2; 3; 4; 2; 3; 1; 4]); CStep (N := B64) (d 1); CStep (N := B64) (d 4); CStep (N := B64) (d 5)].
Example C102_example : codes (init_q (dy 1 7) 0) stream = Some [0; 0; 1; 1] /\ codes (init_q (dy 1 3) 0) stream = Some [0; 0; 1; 1] /\
  b64_ltb (s_at (run (init_q (dy 1 3) 0) stream)) (s_at (run (init_q (dy 1 7) 0) stream)) = true /\
  codes (init_q (dy 1 7) 1) stream = Some [0; 0; 1; 1] /\ codes (init_q (dy 1 3) 1) stream = Some [0; 0; 2; 2].
Proof. split; [|split; [|split; [|split]]]; vm_compute; reflexivity. Qed.
