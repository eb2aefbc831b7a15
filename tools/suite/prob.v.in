(** test/src/tail_test.c:83-189, test_tail_probability and test_tail_quantile *)
From Coq Require Import ZArith List Bool.
From Verif Require Import Num XMath Ubend Peaks Brent Estimator Tail B64 Demo Suite.
From Long Require Import LongData.
Import ListNotations.
Open Scope Z_scope.
Definition dec8 (m : Z) : b64 := b64_div (d m) (d 100000000).
Definition dec (m k : Z) : b64 := b64_div (d m) (d k).
Fixpoint insert (x : Z) (l : list Z) : list Z := match l with [] => [x] | y :: r => if x <=? y then x :: l else y :: insert x r end.
Definition sorted (l : list Z) : list Z := fold_right insert [] l.
Definition fabs (x : b64) : b64 := if b64_ltb x (d 0) then b64_opp x else x.
Definition s := dec 1000 200000.
(** the positions m = step, 2 step, ... below 1000 *)
Definition positions (step : Z) : list Z := map (fun i => step * Z.of_nat i) (seq 1 (Z.to_nat (999 / step))).
Definition tl (ref : (Z * Z) * (Z * Z) * (Z * Z)) : tail B64 := let '(g, sg, _) := ref in MkTail (N := B64) (lit g) (lit sg) (pk 1).
Definition probs (data : list Z) ref : bool :=
  let l := sorted data in let t := tl ref in
  forallb (fun m => let z := dec8 (nth (Z.to_nat m) l 0) in let p := dec (1000 - m) 200000 in
    ret (tail_probability cm t (s : num B64) (z : num B64)) (fun q => within (dec 6 10) (d 0) (b64_div (fabs (b64_minus p q)) p))) (positions 5).
Definition quants (data : list Z) ref : bool :=
  let l := sorted data in let t := tl ref in
  forallb (fun m => let z := dec8 (nth (Z.to_nat m) l 0) in let q := dec (1000 - m) 200000 in
    ret (tail_quantile cm t (s : num B64) (q : num B64)) (fun zq => within (dec 3 10) (d 0) (b64_div (fabs (b64_minus z zq)) z))) (positions 20).
Example test_tail_probability : probs exponential_data exponential_ref && probs uniform_data uniform_ref && probs pareto_data pareto_ref && probs lognormal_data lognormal_ref = true.
Proof. vm_compute. reflexivity. Qed.
Example test_tail_quantile : quants exponential_data exponential_ref && quants uniform_data uniform_ref && quants pareto_data pareto_ref && quants lognormal_data lognormal_ref = true.
Proof. vm_compute. reflexivity. Qed.
