(** * P2Spec: vocabulary for the properties of the P2 quantile estimator *)
From Coq Require Import ZArith List Bool.
From Verif Require Import Num P2 B64 Spec.
Import ListNotations.
Open Scope Z_scope.

(** 5 to 2^53 finite values whose pairwise differences do not overflow *)
Definition bounded_batch (xs : list b64) : Prop :=
  5 <= Z.of_nat (length xs) <= 2 ^ 53 /\ (forall x, In x xs -> is_finite x = true) /\
  (forall x y, In x xs -> In y xs -> is_finite (b64_minus x y) = true).

(** x is strictly above (below) every element of the list *)
Definition above (l : list b64) (x : b64) : Prop := forall y, In y l -> b64_ltb y x = true.
Definition below (l : list b64) (x : b64) : Prop := forall y, In y l -> b64_ltb x y = true.

(** the state with its five marker heights replaced (p2.c:121-126: the first five values, sorted) *)
Definition with_markers {N} (s : p2st N) (q : list (num N)) : p2st N := MkP2 q (m_n s) (m_np s) (m_dn s).
