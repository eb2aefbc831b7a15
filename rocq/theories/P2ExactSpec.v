(** * P2ExactSpec: the P2 algorithm as five marked points (specification of C53)

    R. Jain and I. Chlamtac, The P2 algorithm for dynamic calculation of quantiles and histograms without
    storing observations, CACM 28(10), 1985, with three changes made by /repo/src/p2.c: a value beyond the
    current extremes replaces the extreme and is not counted at all, a value is counted below every
    marker it does not exceed (the least marker included), and positions start at 0. *)
From Coq Require Import List Reals.
Import ListNotations.
Open Scope R_scope.

(** the value at t of the parabola through three points *)
Definition lagrange (x0 y0 x1 y1 x2 y2 t : R) : R :=
  y0 * ((t - x1) * (t - x2)) / ((x0 - x1) * (x0 - x2)) +
  y1 * ((t - x0) * (t - x2)) / ((x1 - x0) * (x1 - x2)) +
  y2 * ((t - x0) * (t - x1)) / ((x2 - x0) * (x2 - x1)).
(** the value at t of the line through two points *)
Definition chord (x0 y0 x1 y1 t : R) : R := y0 + (t - x0) * (y1 - y0) / (x1 - x0).

(** a marker: a position (number of values counted below it) and a height (the estimate) *)
Record marker := Mk { pos : R; height : R }.

(** the marker c moved by d = 1 or -1 positions between its neighbours *)
Definition moved (l c r : marker) (d : R) : marker :=
  let t := pos c + d in
  let h := lagrange (pos l) (height l) (pos c) (height c) (pos r) (height r) t in
  if Rlt_dec (height l) h then
    if Rlt_dec h (height r) then Mk t h
    else let n := if Rlt_dec 0 d then r else l in Mk t (chord (pos c) (height c) (pos n) (height n) t)
  else let n := if Rlt_dec 0 d then r else l in Mk t (chord (pos c) (height c) (pos n) (height n) t).
(** one step towards the desired position, if there is room *)
Definition settle (desired : R) (l c r : marker) : marker :=
  if Rle_dec (pos c + 1) desired then
    if Rlt_dec (pos c + 1) (pos r) then moved l c r 1 else c
  else if Rle_dec desired (pos c - 1) then
    if Rlt_dec (pos l) (pos c - 1) then moved l c r (-1) else c
  else c.
(** a value x is counted below the markers it does not exceed *)
Definition count (x : R) (m : marker) : marker := if Rle_dec x (height m) then Mk (pos m + 1) (height m) else m.

Record track := Track { k0 : marker; k1 : marker; k2 : marker; k3 : marker; k4 : marker; interior : nat }.

Definition observe (p : R) (s : track) (x : R) : track :=
  if Rlt_dec x (height (k0 s)) then Track (Mk (pos (k0 s)) x) (k1 s) (k2 s) (k3 s) (k4 s) (interior s)
  else if Rlt_dec (height (k4 s)) x then Track (k0 s) (k1 s) (k2 s) (k3 s) (Mk (pos (k4 s)) x) (interior s)
  else
    let top := 4 + INR (S (interior s)) in
    let c0 := count x (k0 s) in let c1 := count x (k1 s) in let c2 := count x (k2 s) in
    let c3 := count x (k3 s) in let c4 := count x (k4 s) in
    let d1 := settle (p / 2 * top) c0 c1 c2 in
    let d2 := settle (p * top) d1 c2 c3 in
    let d3 := settle ((1 + p) / 2 * top) d2 c3 c4 in
    Track c0 d1 d2 d3 c4 (S (interior s)).

Fixpoint insert (x : R) (l : list R) : list R :=
  match l with [] => [x] | y :: l' => if Rle_dec x y then x :: l else y :: insert x l' end.
Definition sorted (l : list R) : list R := fold_right insert [] l.

(** the estimate of the p-quantile of the data: the height of the middle marker *)
Definition p2_final (p : R) (xs : list R) : option track :=
  match sorted (firstn 5 xs) with
  | [a; b; c; d; e] => Some (fold_left (observe p) (skipn 5 xs) (Track (Mk 0 a) (Mk 1 b) (Mk 2 c) (Mk 3 d) (Mk 4 e) 0))
  | _ => None
  end.
