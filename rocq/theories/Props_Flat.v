(** * Calibrations without excess (C103) *)
From Coq Require Import ZArith List Bool.
From Flocq Require Import IEEE754.BinarySingleNaN.
From Verif Require Import Num XMath Ubend Session Peaks Brent Estimator Tail P2 Spot B64 Spec P2Spec Demo.
From Verif Require Import FlatLemmas.
Import ListNotations.
Open Scope Z_scope.

(** When no value of the batch is beyond the excess threshold the calibration fails with a NaN anomaly threshold, whatever was in the
    window before, and the window is left as it was. *)
Theorem C103_without_excess q low discard level cap (s : spot B64) (data : list b64) s' r :
  detector (c_math musl_utils) q low discard level cap s -> Z.of_nat (length data) < 2 ^ 64 -> spot_fit (c_math musl_utils) s data = Ret (s', r) -> r <> -1003 ->
  (forall x, In x data -> beyond low (s_et s') x = false) ->
  r = -1004 /\ s_at s' = (B754_nan : b64) /\ s_Nt s' = 0 /\ t_peaks (s_tail s') = t_peaks (s_tail s).
Proof. exact (fit_without_excess q low discard level cap s data s' r). Qed.
Print Assumptions C103_without_excess.

(** It is so for every batch of five or more equal numbers. *)
Theorem C103_constant_batch q low discard level cap (s : spot B64) (data : list b64) s' r :
  detector (c_math musl_utils) q low discard level cap s -> bounded_batch data -> (forall x y, In x data -> In y data -> b64_eqb x y = true) ->
  spot_fit (c_math musl_utils) s data = Ret (s', r) ->
  r = -1004 /\ s_at s' = (B754_nan : b64) /\ s_Nt s' = 0 /\ t_peaks (s_tail s') = t_peaks (s_tail s).
Proof. exact (flat_batch q low discard level cap s data s' r). Qed.
Print Assumptions C103_constant_batch.

(** From then until the next excess every probability reported is 0 or NaN. *)
Theorem C103_probability mf (s : spot B64) (z v : b64) : s_Nt s = 0 -> spot_probability mf s z = Ret (v : num B64) ->
  b64_eqb v (b64_ofZ 0) = true \/ is_NaN v = true.
Proof. exact (probability_without_excess mf s z v). Qed.
Print Assumptions C103_probability.

(** a fitted detector flags 1000; calibrated again on eight times the value 2 it does not *)
Example C103_example : codes demo_up [CStep (N := B64) (d 1000)] = Some [2] /\
  codes demo_up [CFit (N := B64) (map d [2; 2; 2; 2; 2; 2; 2; 2]); CStep (N := B64) (d 1000)] = Some [-1004; 1].
Proof. split; vm_compute; reflexivity. Qed.
Example C103_example_probability :
  let s := run demo_up [CFit (N := B64) (map d [2; 2; 2; 2; 2; 2; 2; 2])] in
  s_Nt s = 0 /\ (match spot_probability cm s (d 3) with Ret v => b64_eqb v (b64_ofZ 0) | Undef _ => false end) = true.
Proof. split; vm_compute; reflexivity. Qed.
Example C103_example_hypotheses : detector (c_math musl_utils) (dy 1 7) 0 1 (dy 3 2) 4 demo_up /\ bounded_batch (map d [2; 2; 2; 2; 2; 2; 2; 2]) /\
  (forall x y, In x (map d [2; 2; 2; 2; 2; 2; 2; 2]) -> In y (map d [2; 2; 2; 2; 2; 2; 2; 2]) -> b64_eqb x y = true).
Proof.
  assert (K : forall x : b64, In x (map d [2; 2; 2; 2; 2; 2; 2; 2]) -> x = d 2) by (cbn [map In]; intros x H; repeat (destruct H as [H|H]; [symmetry; exact H|]); destruct H).
  split; [exact detector_up|]. split; [split; [vm_compute; split; discriminate|split]|]; intros x.
  - intros H. rewrite (K x H). reflexivity.
  - intros y H G. rewrite (K x H), (K y G). reflexivity.
  - intros y H G. rewrite (K x H), (K y G). reflexivity.
Qed.
