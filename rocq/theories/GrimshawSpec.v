(** * GrimshawSpec: vocabulary of C52 *)
From Coq Require Import ZArith List Bool Reals.
From Verif Require Import Num Peaks Brent Estimator RNum TailSpec.
Open Scope R_scope.

(** Grimshaw's function of a sample w; its roots other than 0 are the stationary points of the profile likelihood (C49) *)
Definition grim (w : list R) (x : R) : R :=
  mean (map (fun y => / (1 + x * y)) w) * (1 + mean (map (fun y => ln (1 + x * y)) w)) - 1.
(** shape and scale that belong to a point x: gamma = mean of ln (1 + x y), sigma = gamma / x; the exponential distribution for x = 0 *)
Definition cand_shape (w : list R) (x : R) : R := if Req_EM_T x 0 then 0 else mean (map (fun y => ln (1 + x * y)) w).
Definition cand_scale (w : list R) (x : R) : R := if Req_EM_T x 0 then mean w else cand_shape w x / x.
Definition cand_ll (w : list R) (x : R) : R := gpd_log_likelihood (cand_shape w x) (cand_scale w x) w.
(** distance kept from 0 and from -1/max *)
Definition margin (M : R) : R := Rmin (2 / 100000000) (1 / 2 / M).
(** the outcome of Brent's search between lo and hi; a point found is close to a root between lo and hi *)
Definition search_result (p : peaks RNum) (w : list R) (lo hi : R) (found : bool) (x : R) : Prop :=
  brent (grimshaw_w exact_math p) (Some lo : num RNum) (Some hi : num RNum) (Some (2 / 100000000) : num RNum) = Ret (found, Some x : num RNum) /\
  (found = true -> Rmin lo hi <= x <= Rmax lo hi /\
     exists z, Rmin lo hi <= z <= Rmax lo hi /\ grim w z = 0 /\ Rabs (z - x) <= 8 / 100000000 * Rabs x + 2 / 100000000).
