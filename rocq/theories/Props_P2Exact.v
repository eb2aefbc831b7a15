(** * The quantile estimator in exact arithmetic (C53) *)
From Coq Require Import ZArith List Bool Lia Reals Lra.
From Verif Require Import Num P2 RNum P2ExactSpec P2Exact.
Import ListNotations.
Open Scope R_scope.

(** p2.c computes the middle marker of the algorithm written in P2ExactSpec *)
Theorem C53_p2_is_jain_chlamtac (p : R) (xs : list R) : (5 <= length xs)%nat ->
  exists t, p2_final p xs = Some t /\ p2_quantile (N := RNum) (Some p) (map Some xs) = Ret (Some (height (k2 t))).
Proof. exact (C53_lemma p xs). Qed.
Print Assumptions C53_p2_is_jain_chlamtac.
(** the interpolation used is the only parabola through the three markers *)
Theorem C53_interpolation_is_the_parabola (a b c x0 x1 x2 t : R) : x0 <> x1 -> x0 <> x2 -> x1 <> x2 ->
  let f x := a * (x * x) + b * x + c in lagrange x0 (f x0) x1 (f x1) x2 (f x2) t = f t.
Proof. exact (lagrange_unique a b c x0 x1 x2 t). Qed.
Print Assumptions C53_interpolation_is_the_parabola.
(** the estimate follows a change of unit of the data *)
Theorem C53_change_of_unit (p al be : R) (xs : list R) v : 0 < al ->
  p2_quantile (N := RNum) (Some p) (map Some xs) = Ret (Some v) -> (5 <= length xs)%nat ->
  p2_quantile (N := RNum) (Some p) (map Some (map (fun x => al * x + be) xs)) = Ret (Some (al * v + be)).
Proof. exact (C53_unit_lemma p al be xs v). Qed.
Print Assumptions C53_change_of_unit.

(** the quarter of 5, 1, 4, 2, 3, 3/2: both inner markers move down along parabolas *)
Example C53_example : p2_quantile (N := RNum) (Some (1 / 4)) (map Some [5; 1; 4; 2; 3; 3 / 2]) = Ret (Some (19 / 9)).
Proof.
  destruct (C53_p2_is_jain_chlamtac (1 / 4) [5; 1; 4; 2; 3; 3 / 2]) as (t & F & Q); [cbn; lia|].
  rewrite p2_example in F. injection F as <-. exact Q.
Qed.
Example C53_example_unit : p2_quantile (N := RNum) (Some (1 / 4)) (map Some (map (fun x => 9 * x + 2) [5; 1; 4; 2; 3; 3 / 2])) = Ret (Some 21).
Proof.
  rewrite (C53_change_of_unit (1 / 4) 9 2 _ (19 / 9)); [do 2 f_equal; field|lra|exact C53_example|cbn; lia].
Qed.
