(** * The work of a call is bounded by the capacity (C95) *)
From Coq Require Import ZArith List Bool.
From Verif Require Import Num XMath Ubend Peaks Brent Estimator Tail P2 Spot Session B64 Spec CostSpec CostLemmas Demo.
Import ListNotations.
Open Scope Z_scope.

(** A fit of the tail on a window of n excesses computes 411 n + 4 logarithms at most. *)
Theorem C95_tail_fit {N} (mf : MathFns N) (t : tail N) : 0 <= peaks_size (t_peaks t) ->
  log_calls (fun m => tail_fit m t) mf (411 * peaks_size (t_peaks t) + 4).
Proof. exact (lc_fit t mf). Qed.
Print Assumptions C95_tail_fit.

(** spot_step computes a logarithm only when it answers EXCESS, and then 411 times the capacity plus 5 at most, however many
    observations came before. *)
Theorem C95_step {N} (mf : MathFns N) q low discard level cap s s' x r : detector mf q low discard level cap s ->
  spot_step mf s x = Ret (s', r) -> log_calls (fun m => spot_step m s x) mf (if r =? EXCESS then 411 * cap + 5 else 0).
Proof. exact (detector_step_cost mf q low discard level cap s s' x r). Qed.
Print Assumptions C95_step.

(** The same bound for spot_fit, whatever the length of the batch. *)
Theorem C95_fit {N} (mf : MathFns N) q low discard level cap s s' data r : detector mf q low discard level cap s ->
  spot_fit mf s data = Ret (s', r) -> log_calls (fun m => spot_fit m s data) mf (411 * cap + 5).
Proof. exact (detector_fit_cost mf q low discard level cap s s' data r). Qed.
Print Assumptions C95_fit.

(** A detector of capacity 4: an anomaly and an ordinary value cost nothing, an excess 1649 logarithms at most, and not nothing:
    with another logarithm the threshold that follows is another. *)
Definition another_log (x : b64) : b64 := b64_plus (m_log cm x) (d 1).
Definition threshold (r : res (spot B64 * Z)) : option b64 := match r with Ret (s, _) => Some (s_at s) | _ => None end.
Definition threshold_after (m : MathFns B64) : option b64 := threshold (spot_step m demo_up (d 7)).
Definition same_threshold (a b : option b64) : bool := match a, b with Some a, Some b => b64_eqb a b | _, _ => true end.
Example C95_step_example :
  (forall s', spot_step cm demo_up (d 12) = Ret (s', ANOMALY) -> log_calls (fun m => spot_step m demo_up (d 12)) cm 0) /\
  (forall s', spot_step cm demo_up (d 7) = Ret (s', EXCESS) -> log_calls (fun m => spot_step m demo_up (d 7)) cm 1649) /\
  (codes demo_up [CStep (N := B64) (d 12)], codes demo_up [CStep (N := B64) (d 7)]) = (Some [ANOMALY], Some [EXCESS]) /\
  same_threshold (threshold_after (with_log cm another_log)) (threshold_after cm) = false.
Proof.
  split; [intros s'; exact (C95_step cm _ _ _ _ _ demo_up s' (d 12) ANOMALY detector_up)|].
  split; [intros s'; exact (C95_step cm _ _ _ _ _ demo_up s' (d 7) EXCESS detector_up)|].
  split; vm_compute; reflexivity.
Qed.
