(** * Eviction of an extreme (C98) *)
From Coq Require Import ZArith List Bool.
From Flocq Require Import IEEE754.BinarySingleNaN.
From Verif Require Import Num XMath Ubend Session Peaks Brent Estimator Tail P2 Spot B64 Spec ResetLemmas Demo.
Import ListNotations.
Open Scope Z_scope.

(** A full window loses its oldest excess [v]. If no excess that remains is below [v], or none above, then the running sum is the sum
    of the cells from the first to the last, and the running sum of squares is the square of the last cell alone: no rounding error,
    overflow or infinity of the past remains in them. *)
Theorem C98_evicting_an_extreme mf q low discard level cap (s s' : spot B64) x v rest :
  detector mf q low discard level cap s -> spot_step mf s x = Ret (s', EXCESS) ->
  oldest_first (window s) = Some v :: rest -> Z.of_nat (length (oldest_first (window s))) = cap ->
  (forall y, In (Some y) (oldest_first (window s')) -> b64_leb v y = true) \/
  (forall y, In (Some y) (oldest_first (window s')) -> b64_leb y v = true) ->
  exists w : list b64, cells (window s') = map Some w /\
    p_e (t_peaks (s_tail s')) = fold_left b64_plus w (d 0) /\
    p_e2 (t_peaks (s_tail s')) = b64_mult (last w (d 0)) (last w (d 0)).
Proof. exact (reset_step mf q low discard level cap s s' x v rest). Qed.
Print Assumptions C98_evicting_an_extreme.

(** In particular an infinite excess leaves no trace in the sums once it is out of the window (while it is there: C97). *)
Theorem C98_evicting_an_infinity mf q low discard level cap (s s' : spot B64) x rest :
  detector mf q low discard level cap s -> spot_step mf s x = Ret (s', EXCESS) ->
  oldest_first (window s) = Some (B754_infinity false : b64) :: rest -> Z.of_nat (length (oldest_first (window s))) = cap ->
  exists w : list b64, cells (window s') = map Some w /\
    p_e (t_peaks (s_tail s')) = fold_left b64_plus w (d 0) /\
    p_e2 (t_peaks (s_tail s')) = b64_mult (last w (d 0)) (last w (d 0)).
Proof. exact (reset_infinite mf q low discard level cap s s' x rest). Qed.
Print Assumptions C98_evicting_an_infinity.

(** Two excesses are kept, anomalies are not discarded. A short batch leaves the excess threshold at 0 (C25): the excesses are the values. *)
Definition facts (s : spot B64) : list (option SpecFloat.spec_float) * list (option SpecFloat.spec_float) * list SpecFloat.spec_float * bool :=
  (map (option_map sf) (oldest_first (window s)), map (option_map sf) (cells (window s)),
   [sf (p_e (t_peaks (s_tail s))); sf (p_e2 (t_peaks (s_tail s)))], is_finite (s_at s)).
Definition inf_calls : list (call B64) := [CFit (N := B64) [d 1]; CStep (N := B64) pinf; CStep (N := B64) (d 5)].
Definition finite_number (z : Z) : option SpecFloat.spec_float := Some (sf (d z)).
Example C98_example :
  facts (run (demo_init 0 0 2) inf_calls) = ([Some (sf pinf); finite_number 5], [finite_number 5; Some (sf pinf)], [sf pinf; sf pinf], false) /\
  facts (run (demo_init 0 0 2) (inf_calls ++ [CStep (N := B64) (d 6)])) =
    ([finite_number 5; finite_number 6], [finite_number 5; finite_number 6], [sf (d 11); sf (d 36)], true).
Proof. split; vm_compute; reflexivity. Qed.
Example C98_hypotheses : detector cm (dy 1 7) 0 0 (dy 3 2) 2 (run (demo_init 0 0 2) inf_calls).
Proof. apply demo_detector; vm_compute; reflexivity. Qed.
