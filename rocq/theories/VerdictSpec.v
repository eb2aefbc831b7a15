(** * VerdictSpec: the survival function of the generalised Pareto law on the whole line (specification vocabulary of C63) *)
From Coq Require Import Reals.
From Verif Require Import AccSpec.
Open Scope R_scope.

(** P(Y > D): 1 below the origin, 0 beyond the end point of a law with negative shape *)
Definition gpd_tail (gamma sigma D : R) : R :=
  if Rle_dec D 0 then 1 else if Rle_dec (1 + gamma * D / sigma) 0 then 0 else gpd_survival gamma sigma D.
