(** * Properties of the root finder (C33) *)
From Coq Require Import ZArith List Bool Lia Reals Lra.
From Flocq Require Import Core.Core IEEE754.BinarySingleNaN.
From Verif Require Import Num XMath Brent B64 RNum BrentLemmas BrentB64 Demo.
Import ListNotations.
Open Scope Z_scope.

(** |c - b| / 2 is within the tolerance of the code at b, as the double comparison computes it *)
Definition within_tolerance (tol b c : b64) : Prop :=
  let abs (x : b64) := if b64_ltb x (b64_ofZ 0) then b64_opp x else x in
  let half := b64_div (b64_ofZ 1) (b64_ofZ 2) in
  let eps := b64_div (b64_ofZ 2) (b64_ofZ 100000000) in
  b64_leb (abs (b64_mult half (b64_minus c b)))
          (b64_plus (b64_mult (b64_mult (b64_ofZ 2) eps) (abs b)) (b64_mult half tol)) = true.
(** x and y are both positive, or both negative *)
Definition same_strict_sign {N : NumOps} (x y : num N) : Prop :=
  ((#0 <? x)%num = true /\ (#0 <? y)%num = true) \/ ((x <? #0)%num = true /\ (y <? #0)%num = true).

(** C33 *)
Theorem C33_success_contract (func : num B64 -> res (num B64)) (x1 x2 tol b : b64) :
  brent func x1 x2 tol = Ret (true, b : num B64) ->
  exists fb, func b = Ret fb /\
    (b64_eqb fb (b64_ofZ 0) = true \/
     exists c fc, func c = Ret fc /\ ~ same_strict_sign fb fc /\ within_tolerance tol b c).
Proof. exact (C33_contract_lemma func x1 x2 tol b). Qed.
Print Assumptions C33_success_contract.
Theorem C33_no_sign_change_fails {N : NumOps} (func : num N -> res (num N)) x1 x2 tol fa fb :
  func x1 = Ret fa -> func x2 = Ret fb -> same_strict_sign fa fb -> brent func x1 x2 tol = Ret (false, #0%num).
Proof. exact (C33_fails_lemma func x1 x2 tol fa fb). Qed.
Print Assumptions C33_no_sign_change_fails.
(** the result is determined by the values of the function at no more than 202 points *)
Theorem C33_at_most_202_evaluations {N : NumOps} (func : num N -> res (num N)) x1 x2 tol :
  exists points, (length points <= 202)%nat /\
  forall func', (forall x, In x points -> func' x = func x) -> brent func' x1 x2 tol = brent func x1 x2 tol.
Proof. exact (depends func x1 x2 tol). Qed.
Print Assumptions C33_at_most_202_evaluations.
(** exact arithmetic: the function is used between the two ends only, and a root is near the answer *)
Theorem C33_exact_arithmetic (f : R -> R) (func : num RNum -> res (num RNum)) x1 x2 tol :
  (0 <= tol -> (forall r, Rmin x1 x2 <= r <= Rmax x1 x2 -> func (Some r) = Ret (Some (f r))) ->
  exists found b, brent func (Some x1 : num RNum) (Some x2 : num RNum) (Some tol : num RNum) = Ret (found, Some b) /\
    (forall func' : num RNum -> res (num RNum), (forall r, Rmin x1 x2 <= r <= Rmax x1 x2 -> func' (Some r) = func (Some r)) ->
       brent func' (Some x1 : num RNum) (Some x2 : num RNum) (Some tol : num RNum) = Ret (found, Some b)) /\
    (found = true -> Rmin x1 x2 <= b <= Rmax x1 x2 /\
       ((forall y, Rmin x1 x2 <= y <= Rmax x1 x2 -> continuity_pt f y) ->
        exists z, Rmin x1 x2 <= z <= Rmax x1 x2 /\ f z = 0 /\ Rabs (z - b) <= 8 / 100000000 * Rabs b + tol)))%R.
Proof. exact (C33_exact_lemma f func x1 x2 tol). Qed.
Print Assumptions C33_exact_arithmetic.
(** a root at one of the ends is returned *)
Theorem C33_root_at_right_end (func : num B64 -> res (num B64)) (x1 x2 tol : b64) fa (fb : b64) :
  func x1 = Ret fa -> func x2 = Ret (fb : num B64) -> b64_eqb fb (b64_ofZ 0) = true ->
  brent func x1 x2 tol = Ret (true, x2 : num B64).
Proof. exact (C33_right_root func x1 x2 tol fa fb). Qed.
Print Assumptions C33_root_at_right_end.
Theorem C33_root_at_left_end (func : num B64 -> res (num B64)) (x1 x2 tol : b64) (fa fb : b64) :
  func x1 = Ret (fa : num B64) -> func x2 = Ret (fb : num B64) -> b64_eqb fa (b64_ofZ 0) = true ->
  BinarySingleNaN.is_nan fb = false -> b64_eqb fb (b64_ofZ 0) = false ->
  brent func x1 x2 tol = Ret (true, x1 : num B64).
Proof. exact (C33_left_root func x1 x2 tol fa fb). Qed.
Print Assumptions C33_root_at_left_end.
(** success does not mean that a root exists: a NaN at the right end is reported as a root *)
Theorem C33_nan_reported_as_root (func : num B64 -> res (num B64)) (x1 x2 tol : b64) fa :
  func x1 = Ret fa -> func x2 = Ret (B754_nan : num B64) -> is_finite x2 = true -> is_finite tol = true -> (0 <= B2R tol)%R ->
  brent func x1 x2 tol = Ret (true, x2 : num B64).
Proof. exact (nan_right_end func x1 x2 tol fa). Qed.
Print Assumptions C33_nan_reported_as_root.

Definition found_at (r : res (bool * num B64)) : option (bool * SpecFloat.spec_float) :=
  match r with Ret (f, v) => Some (f, sf v) | Undef _ => None end.
Definition tol0 : b64 := BRENT_DEFAULT_EPSILON (N := B64).
(** x^2 - 4 on [0, 3] *)
Example C33_example : exists b, brent (N := B64) (fun x => Ret (b64_minus (b64_mult x x) (b64_ofZ 4))) (b64_ofZ 0) (b64_ofZ 3) tol0 = Ret (true, b) /\
  b64_leb (b64_abs_err b (b64_ofZ 2)) tol0 = true.
Proof. apply near_spec. vm_compute. reflexivity. Qed.
(** x - 1 on [3, 0] in exact arithmetic meets the hypotheses of [C33_exact_arithmetic], and the answer is right *)
Example C33_example_exact : exists found b,
  brent (N := RNum) (fun x => Ret (nsub x (Some 1%R : num RNum))) (Some 3%R : num RNum) (Some 0%R : num RNum) (Some 0%R : num RNum) = Ret (found, Some b) /\
  (found = true -> (0 <= b <= 3)%R).
Proof.
  destruct (C33_exact_arithmetic (fun x => x - 1)%R (fun x => Ret (nsub (n := RNum) x (Some 1%R))) 3 0 0) as (found & b & E & _ & H).
  { lra. } { intros. reflexivity. }
  exists found, b. split; [exact E|]. intros T. destruct (H T) as (I & _). rewrite Rmin_right, Rmax_left in I by lra. exact I.
Qed.
(** a function which is NaN everywhere "has a root" at 3 *)
Example C33_example_nan : found_at (brent (N := B64) (fun _ => Ret (B754_nan : num B64)) (b64_ofZ 0) (b64_ofZ 3) tol0)
  = Some (true, sf (b64_ofZ 3)).
Proof. vm_compute. reflexivity. Qed.
(** a sign change on a wide interval is not found in 200 iterations: a step function, -1 below 1 and +1 from 1 on *)
Theorem C33_sign_change_found_refuted :
  exists (f : b64 -> b64) (x1 x2 : b64), is_finite x1 = true /\ is_finite x2 = true /\
    b64_ltb (f x1) (b64_ofZ 0) = true /\ b64_ltb (b64_ofZ 0) (f x2) = true /\
    exists v, brent (N := B64) (fun x => Ret (f x)) x1 x2 tol0 = Ret (false, v).
Proof. exact step_not_found. Qed.
Print Assumptions C33_sign_change_found_refuted.
