(** * MonoSpec: ranges of C86 and C87 *)
From Coq Require Import ZArith Reals.
From Verif Require Import Num Spot B64 AccSpec.
Open Scope R_scope.

(** quantile: the logarithm is taken between 1e-14 and 31, the exponential between -32 and 32 *)
Definition quantile_order_range (s : spot B64) (et sigma gamma q : R) : Prop :=
  usual_range s et sigma gamma q /\ / 10 ^ 14 <= relative_risk s q <= 31 /\ Rabs (gamma * ln (relative_risk s q)) <= 32.

(** probability of a value at distance D beyond the excess threshold: idem *)
Definition probability_order_range (et z sigma gamma D : R) : Prop :=
  Rabs et <= 10 ^ 200 /\ Rabs z <= 10 ^ 200 /\ / 10 ^ 30 <= sigma <= 10 ^ 30 /\
  (gamma = 0 /\ Rabs (D / sigma) <= 31 \/
   / 10 ^ 5 <= Rabs gamma <= 10 ^ 6 /\ 1 / 1000 <= 1 + gamma * D / sigma <= 31 /\ Rabs (ln (1 + gamma * D / sigma) / gamma) <= 32).
