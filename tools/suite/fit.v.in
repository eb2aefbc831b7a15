(** test/src/tail_test.c:30-58, test_tail_fit, data set @name@ *)
From Coq Require Import ZArith List Bool.
From Verif Require Import Num XMath Ubend Peaks Brent Estimator Tail B64 Demo Suite.
From Long Require Import LongData.
Import ListNotations.
Open Scope Z_scope.
Definition dec8 (m : Z) : b64 := b64_div (d m) (d 100000000).
Definition dec (m k : Z) : b64 := b64_div (d m) (d k).
Fixpoint pushes (t : tail B64) (xs : list b64) : res (tail B64) :=
  match xs with [] => Ret t | x :: r => t <- tail_push t (x : num B64) ;; pushes t r end.
Definition check (data : list Z) (ref : (Z * Z) * (Z * Z) * (Z * Z)) : bool :=
  let '(g, s, l) := ref in
  let n := Z.of_nat (length data) in
  match (t <- pushes (fst (tail_init (N := B64) (Some (block n)) n)) (map dec8 data) ;; tail_fit cm t) with
  | Ret (t, llhood) =>
      within (b64_mult (b64_mult (d 2) (dec 15 100)) (lit g)) (lit g) (t_gamma t) &&
      within (b64_mult (b64_mult (d 2) (dec 5 100)) (lit s)) (lit s) (t_sigma t) &&
      b64_ltb (b64_div (b64_minus (lit l) llhood) (lit l)) (dec 5 100)
  | Undef _ => false
  end.
Example test_tail_fit : check @name@_data @name@_ref = true.
Proof. vm_compute. reflexivity. Qed.
