(** * LikSpec: error bound of the computed log-likelihood (C65, C66) *)
From Coq Require Import Reals.
Open Scope R_scope.

(** [n] terms, each with the error of a logarithm amplified by [1 + 1/gamma], and the roundings of the running sum *)
Definition likelihood_error (n gamma : R) : R := n * (1 + / Rabs gamma) * (/ 10 ^ 9 + n * (2 / 10 ^ 13)).
