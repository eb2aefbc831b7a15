(** * Spec: the vocabulary in which the properties are stated

    Nothing here refers to how the library computes; only to what a caller can say about inputs,
    answers and the content of the window. *)
From Coq Require Import ZArith List Bool.
From Flocq Require Import IEEE754.BinarySingleNaN.
From Verif Require Import Num XMath Ubend Peaks Brent Estimator Tail P2 Spot B64 Session.
Import ListNotations.
Open Scope Z_scope.

(** ** Doubles *)
Definition is_NaN (x : b64) : bool := match x with B754_nan => true | _ => false end.
Definition is_finite (x : b64) : bool :=
  match x with B754_zero _ | B754_finite _ _ _ _ => true | _ => false end.
(** x and y are the same infinity *)
Definition same_infinity (x y : b64) : bool :=
  match x, y with B754_infinity s, B754_infinity t => Bool.eqb s t | _, _ => false end.
Definition d (z : Z) : b64 := b64_ofZ z.

(** ** Sides. [low] is the argument given to spot_init: zero monitors the upper tail. *)
(** x is strictly beyond t on the monitored side *)
Definition beyond (low : Z) (t x : b64) : bool :=
  if low =? 0 then b64_ltb t x else b64_ltb x t.
(** x is at or beyond t on the monitored side *)
Definition at_or_beyond (low : Z) (t x : b64) : bool :=
  if low =? 0 then b64_leb t x else b64_leb x t.

(** ** Lists *)
(** the last [k] elements of a list *)
Definition last_k {A} (k : Z) (l : list A) : list A := skipn (length l - Z.to_nat k) l.
Definition count {A} (f : A -> bool) (l : list A) : Z := Z.of_nat (length (filter f l)).

(** ** Windows *)
(** The cells in use, in array order. *)
Definition cells {N} (u : ubend N) : list (option (num N)) := firstn (Z.to_nat (ubend_size u)) (u_data u).
(** The cells in use, oldest first. *)
Definition oldest_first {N} (u : ubend N) : list (option (num N)) :=
  if u_filled u =? 0 then cells u
  else skipn (Z.to_nat (u_cursor u)) (u_data u) ++ firstn (Z.to_nat (u_cursor u)) (u_data u).
Definition window {N} (s : spot N) : ubend N := p_cont (t_peaks (s_tail s)).

(** Distance of x to t on the monitored side *)
Definition distance (low : Z) (t x : b64) : b64 :=
  if low =? 0 then b64_minus x t else b64_opp (b64_minus x t).
(** The excesses of a batch over t: distances of the values strictly beyond t, in order *)
Definition excesses (low : Z) (t : b64) (data : list b64) : list b64 :=
  map (distance low t) (filter (beyond low t) data).

(** ** Detectors. [detector mf q low discard level cap s]: [s] is a state that a caller can obtain by
    a successful spot_init with these parameters (the allocator having returned a block of [cap]
    doubles, the struct containing anything before) followed by any sequence of calls. *)
Definition detector {N} (mf : MathFns N) (q : num N) (low discard : Z) (level : num N) (cap : Z) (s : spot N) : Prop :=
  exists old blk s0 calls answers,
    1 <= cap < 2 ^ 61 /\ Z.of_nat (length blk) = cap /\
    spot_init old q low discard level cap (fun _ => Some blk) = (s0, 0) /\
    session mf s0 calls = Ret (s, answers).
