(** * Programs: model of the example programs /repo/examples/basic.c and /repo/examples/basic.py *)
From stdpp Require Import gmap.
From Coq Require Import ZArith List Bool.
From Verif Require Import Num XMath Ubend Peaks Brent Estimator Tail P2 Spot B64 Str Heap HeapSpec PyBinding.
Open Scope Z_scope.

(** ** examples/basic.c *)
Section BasicC.
(** log of the C library, RAND_MAX, and the numbers rand() returns one after the other (srand, basic.c:22) *)
Context (libm_log : b64 -> b64) (rand_max : Z) (rand : nat -> Z).

(** basic.c:15,18: the k-th call of rexp() *)
Definition runif (k : nat) : b64 := b64_div (b64_ofZ (rand k)) (b64_ofZ rand_max).
Definition rexp (k : nat) : b64 := b64_opp (libm_log (runif k)).

(** The counters of basic.c:57-59. They are of type int; C70 shows that they do not overflow. *)
Record tally : Type := MkTally { n_anomaly : Z; n_excess : Z; n_normal : Z }.
(** basic.c:64-74: the switch (other values fall through) *)
Definition tally_add (t : tally) (c : Z) : tally :=
  if c =? ANOMALY then MkTally (n_anomaly t + 1) (n_excess t) (n_normal t)
  else if c =? EXCESS then MkTally (n_anomaly t) (n_excess t + 1) (n_normal t)
  else if c =? NORMAL then MkTally (n_anomaly t) (n_excess t) (n_normal t + 1)
  else t.
(** basic.c:62-75: [n] iterations remain, [k] draws have been made *)
Fixpoint basic_loop (w : world B64) (t : tally) (k n : nat) : res (world B64 * tally) :=
  match n with
  | O => Ret (w, t)
  | S n =>
      '(w, r) <- w_step w (OStep (N := B64) 0 (rexp k)) ;;
      basic_loop w (match r with OutCode c => tally_add t c | _ => t end) (S k) n
  end.

(** What basic.c:79-80 prints: the counters, anomaly_threshold, excess_threshold. *)
Definition report : Type := (tally * b64 * b64)%type.
(** basic.c:20-81. [m]: the malloc of the C library; [N] initial data, [K] steps; the result is the value returned by main and
    what was printed. The times of basic.c:61,76,78 are not modelled. 1e-4 and 0.998 are the nearest doubles. *)
Definition basic_main (m : malloc_fn B64) (w : world B64) (N K : nat) : res (world B64 * Z * option report) :=
  '(w, _) <- w_step w (OSetAllocators (Some m) true) ;;
  '(w, r) <- w_step w (OInit (N := B64) 0 (b64_div (b64_ofZ 1) (b64_ofZ 10000)) 0 1 (b64_div (b64_ofZ 998) (b64_ofZ 1000)) 200) ;;
  let status := match r with OutCode c => c | _ => 0 end in
  if status <? 0 then Ret (w, - status, None) else
  '(w, r) <- w_step w (OFit (N := B64) 0 (map rexp (seq 0 N))) ;;
  let status := match r with OutCode c => c | _ => 0 end in
  if status <? 0 then Ret (w, - status, None) else
  '(w, t) <- basic_loop w (MkTally 0 0 0) N K ;;
  let s := detector_state w 0 in
  Ret (w, 0, Some (t, s_at s, s_et s)).
End BasicC.

(** ** examples/basic.py *)
(** basic.py:36-43: the loop. The points (Ax, Ay) and THRESHOLD; an exception would end the program. *)
Fixpoint plot_loop (w : world B64) (k : nat) (stream : list b64) : res (world B64 * (list (nat * b64) * list b64 + exc)) :=
  match stream with
  | [] => Ret (w, inl ([], []))
  | x :: stream =>
      '(w, r) <- py_step w 0 (PyFloat x) ;;
      match interpreter r with
      | Raises e => Ret (w, inr e)
      | Returns v =>
          let at_ := s_at (detector_state w 0) in      (* the member anomaly_threshold: C58 *)
          '(w, rest) <- plot_loop w (S k) stream ;;
          Ret (w, match rest with
                  | inl (points, line) =>
                      inl (match v with RInt c => if c =? ANOMALY then (k, x) :: points else points | _ => points end, at_ :: line)
                  | inr e => inr e
                  end)
      end
  end.
(** basic.py:33-43. [train] and [stream] are the arrays of basic.py:29-30 (iterables of floats). What is drawn: the points
    (Ax, Ay) and the line THRESHOLD; or the exception that ends the program. Lines 46-52 (matplotlib) are not modelled. *)
Definition plot_main (mallocs : Z -> bool) (junk : list Z) (w : world B64) (train stream : list b64) :
    res (world B64 * (list (nat * b64) * list b64 + exc)) :=
  '(w, r) <- py_construct junk w 0 (PyFloat (b64_div (b64_ofZ 5) (b64_ofZ 1000000))) None None
               (Some (PyFloat (b64_div (b64_ofZ 99) (b64_ofZ 100)))) (Some 2000) ;;
  match interpreter r with
  | Raises e => Ret (w, inr e)
  | Returns _ =>
      '(w, r) <- py_fit mallocs junk w 0 (PyIterable (map PyFloat train)) ;;
      match interpreter r with
      | Raises e => Ret (w, inr e)
      | Returns _ => plot_loop w 0 stream
      end
  end.
