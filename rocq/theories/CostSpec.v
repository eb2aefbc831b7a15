(** * CostSpec: how many times a computation consults the logarithm (specification vocabulary of C95) *)
From Coq Require Import ZArith List Bool.
From Verif Require Import Num XMath.

(** the same functions with another logarithm *)
Definition with_log {N} (mf : MathFns N) (log : num N -> num N) : MathFns N := Build_MathFns N log (m_exp mf) (m_pow mf).

(** [F] consults the logarithm at no more than [k] points: there are k points or fewer such that whatever the logarithm is
    elsewhere, the result of [F] is the same. *)
Definition log_calls {N A} (F : MathFns N -> res A) (mf : MathFns N) (k : Z) : Prop :=
  exists points : list (num N), (Z.of_nat (length points) <= k)%Z /\
    forall log, (forall x, In x points -> log x = m_log mf x) -> F (with_log mf log) = F mf.
