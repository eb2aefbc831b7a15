(** test/src/peaks_test.c:100-245, test_peaks_log_likelihood *)
From Coq Require Import ZArith List Bool.
From Verif Require Import Num XMath Ubend Peaks Brent Estimator Tail B64 Demo Suite.
From Long Require Import LongData.
Import ListNotations.
Open Scope Z_scope.
Fixpoint pushes (p : peaks B64) (xs : list b64) : res (peaks B64) :=
  match xs with [] => Ret p | x :: r => p <- peaks_push p (x : num B64) ;; pushes p r end.
Definition check : bool :=
  match pushes (pk (Z.of_nat (length peaks_data))) (map lit peaks_data) with
  | Ret p => forallb (fun r => let '(g, s, target) := r in
      ret (log_likelihood cm p (lit g : num B64) (lit s : num B64)) (within (b64_div (d 1) (d 1000000)) (lit target))) peaks_params
  | Undef _ => false
  end.
Example test_peaks_log_likelihood : check = true.
Proof. vm_compute. reflexivity. Qed.
