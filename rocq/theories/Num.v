(** * Num: the C arithmetic and memory conventions used by the model

    Everything in this file is an interface of the C language as used by
    /repo/src; the library code itself starts in [XMath.v]. *)
From Coq Require Import ZArith List Bool.
Import ListNotations.
Open Scope Z_scope.

(** ** Undefined behaviour as an outcome *)

(** Reasons for undefined behaviour that the library can run into. *)
Inductive why : Type :=
  | OutOfBounds      (* array access outside the object *)
  | Uninit           (* read of an indeterminate value *)
  | CastRange        (* float -> unsigned conversion out of range (C99 6.3.1.4) *)
  | BadFree          (* free of a pointer that is not a live block *)
  | Diverge.         (* recursion deeper than unrolled in the model: proved unreachable *)

Inductive res (A : Type) : Type :=
  | Ret (a : A)
  | Undef (w : why).
Arguments Ret {A} a.
Arguments Undef {A} w.

Definition bind {A B} (m : res A) (k : A -> res B) : res B :=
  match m with Ret a => k a | Undef w => Undef w end.

Declare Scope res_scope.
Delimit Scope res_scope with res.
Notation "x <- m ;; k" := (bind m (fun x => k))
  (at level 62, m at next level, right associativity) : res_scope.
Notation "' p <- m ;; k" := (bind m (fun x => match x with p => k end))
  (at level 62, p pattern, m at next level, right associativity) : res_scope.
Open Scope res_scope.

(** ** Unsigned wrap-around: unsigned long is 64 bits, unsigned int 32 bits (LP64) *)
Definition u64 (z : Z) : Z := z mod 2 ^ 64.
Definition u32 (z : Z) : Z := z mod 2 ^ 32.
(** unsigned int -> int conversion (implementation defined in C99, wraps on gcc/clang). *)
Definition to_int32 (z : Z) : Z := if z <? 2 ^ 31 then z else z - 2 ^ 32.

(** ** Checked array access *)
Definition rd {A} (l : list A) (i : Z) : res A :=
  if (0 <=? i) && (i <? Z.of_nat (length l)) then
    match nth_error l (Z.to_nat i) with
    | Some a => Ret a
    | None => Undef OutOfBounds
    end
  else Undef OutOfBounds.

Fixpoint upd {A} (l : list A) (n : nat) (a : A) : list A :=
  match l, n with
  | [], _ => []
  | _ :: t, O => a :: t
  | h :: t, S n' => h :: upd t n' a
  end.

Definition wr {A} (l : list A) (i : Z) (a : A) : res (list A) :=
  if (0 <=? i) && (i <? Z.of_nat (length l)) then Ret (upd l (Z.to_nat i) a)
  else Undef OutOfBounds.

(** A cell of malloc'ed memory: [None] while indeterminate. *)
Definition rdcell {A} (l : list (option A)) (i : Z) : res A :=
  c <- rd l i ;;
  match c with Some a => Ret a | None => Undef Uninit end.

(** [for (i = 0; i < n; ++i) body] *)
Fixpoint for_from {S} (n : nat) (i : Z) (body : Z -> S -> res S) (s : S) : res S :=
  match n with
  | O => Ret s
  | Datatypes.S n' => s' <- body i s ;; for_from n' (i + 1) body s'
  end.
Definition for_lt {S} (n : Z) (body : Z -> S -> res S) (s : S) : res S :=
  for_from (Z.to_nat n) 0 body s.

(** ** The operations of type [double] *)
Record NumOps : Type := {
  num  : Type;
  nadd : num -> num -> num;
  nsub : num -> num -> num;
  nmul : num -> num -> num;
  ndiv : num -> num -> num;
  nopp : num -> num;
  nlt  : num -> num -> bool;     (* a < b *)
  nle  : num -> num -> bool;     (* a <= b *)
  neq  : num -> num -> bool;     (* a == b *)
  nofZ : Z -> num;               (* integer -> double conversion, and integer literals *)
  ntrunc : num -> option Z       (* truncation toward zero; None when not finite *)
}.
Arguments nadd {_} _ _.
Arguments nsub {_} _ _.
Arguments nmul {_} _ _.
Arguments ndiv {_} _ _.
Arguments nopp {_} _.
Arguments nlt {_} _ _.
Arguments nle {_} _ _.
Arguments neq {_} _ _.
Arguments nofZ {_} _.
Arguments ntrunc {_} _.

Declare Scope num_scope.
Delimit Scope num_scope with num.
Infix "+" := nadd : num_scope.
Infix "-" := nsub : num_scope.
Infix "*" := nmul : num_scope.
Infix "/" := ndiv : num_scope.
Notation "- x" := (nopp x) : num_scope.
Infix "<?" := nlt : num_scope.
Infix "<=?" := nle : num_scope.
Infix "==?" := neq (at level 70) : num_scope.
Notation "x >? y" := (nlt y x) (only parsing) : num_scope.
Notation "x >=? y" := (nle y x) (only parsing) : num_scope.
Notation "# z" := (nofZ z%Z) (at level 1, z at level 0, format "# z") : num_scope.

(** The pluggable [ldexp]/[frexp] pair (structs.h:41,52; xmath.c:237-251). [frexp x e0]
    receives the previous content [e0] of the int pointed to by its second argument and
    returns the mantissa and the new content. *)
Record FloatUtils (N : NumOps) : Type := {
  fu_ldexp : num N -> Z -> num N;
  fu_frexp : num N -> Z -> num N * Z
}.
Arguments fu_ldexp {N} _ _ _.
Arguments fu_frexp {N} _ _ _.
