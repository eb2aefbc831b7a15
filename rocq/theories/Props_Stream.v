(** * What a detector keeps of a stream (C99) *)
From Coq Require Import ZArith List Bool.
From Flocq Require Import IEEE754.BinarySingleNaN.
From Verif Require Import Num XMath Ubend Session Peaks Brent Estimator Tail P2 Spot B64 Spec StreamLemmas Demo.
Import ListNotations.
Open Scope Z_scope.

(** Without the observations answered ANOMALY or with an error, the other answers and the final state are the same. *)
Theorem C99_rejected_leave_no_trace {N} (mf : MathFns N) s xs s' rs : spot_steps mf s xs = Ret (s', rs) ->
  let accepted r := (r =? NORMAL) || (r =? EXCESS) in
  spot_steps mf s (map fst (filter (fun p => accepted (snd p)) (combine xs rs))) = Ret (s', filter accepted rs).
Proof. exact (without_rejected mf xs s s' rs). Qed.
Print Assumptions C99_rejected_leave_no_trace.

(** An observation answered NORMAL can be replaced by any other that would be: same answers, same final state. *)
Theorem C99_normal_only_counts {N} (mf : MathFns N) s pre x y post s' rs s1 l1 sx sy :
  spot_steps mf s (pre ++ x :: post) = Ret (s', rs) -> spot_steps mf s pre = Ret (s1, l1) ->
  spot_step mf s1 x = Ret (sx, NORMAL) -> spot_step mf s1 y = Ret (sy, NORMAL) ->
  spot_steps mf s (pre ++ y :: post) = Ret (s', rs).
Proof. exact (normal_counts mf s pre x y post s' rs s1 l1 sx sy). Qed.
Print Assumptions C99_normal_only_counts.

(** Five observations: normal, anomaly, excess, not a number, normal. Dropping the second and the fourth, and changing the first
    and the last, gives the same detector. *)
Definition answers (s : spot B64) (xs : list b64) : option (list Z * list SpecFloat.spec_float * list Z) :=
  match spot_steps cm s xs with
  | Ret (s', rs) => Some (rs, [sf (s_at s'); sf (t_gamma (s_tail s')); sf (t_sigma (s_tail s'))], [s_Nt s'; s_n s'])
  | Undef _ => None end.
Definition same_detector (a b : option (list Z * list SpecFloat.spec_float * list Z)) : bool :=
  match a, b with
  | Some (_, [x; y; z], n), Some (_, [x'; y'; z'], n') =>
      SpecFloat.SFeqb x x' && SpecFloat.SFeqb y y' && SpecFloat.SFeqb z z' && forallb (fun p => fst p =? snd p) (combine n n')
  | _, _ => false end.
Definition codes_of (a : option (list Z * list SpecFloat.spec_float * list Z)) : list Z := match a with Some (l, _, _) => l | None => [] end.
Example C99_example :
  let a := answers demo_up [d 1; d 1000; d 7; qnan; d 2] in let b := answers demo_up [d 3; d 7; ninf] in
  (codes_of a, codes_of b, same_detector a b) = ([0; 2; 1; -1005; 0], [0; 1; 0], true).
Proof. vm_compute. reflexivity. Qed.
