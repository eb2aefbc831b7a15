(** * Tail: model of /repo/src/tail.c *)
From Coq Require Import ZArith List Bool.
From Verif Require Import Num XMath Ubend Peaks Brent Estimator.
Import ListNotations.
Open Scope Z_scope.
Open Scope num_scope.

Section Tail.
Context {N : NumOps} (mf : MathFns N).

(** structs.h:133-140 *)
Record tail : Type := MkTail {
  t_gamma : num N;
  t_sigma : num N;
  t_peaks : peaks N
}.

(** tail.c:18-22 *)
Definition tail_init (blk : option (list (option (num N)))) (size : Z) : tail * Z :=
  let '(p, r) := peaks_init blk size in
  (MkTail c_nan c_nan p, r).

(** tail.c:24-29 *)
Definition tail_free (t : tail) : tail :=
  MkTail c_nan c_nan (peaks_free (t_peaks t)).

(** tail.c:31-34 *)
Definition tail_push (t : tail) (x : num N) : res tail :=
  p <- peaks_push (t_peaks t) x ;;
  Ret (MkTail (t_gamma t) (t_sigma t) p).

(** tail.c:36-44 *)
Definition tail_probability (t : tail) (s d : num N) : res (num N) :=
  if t_gamma t ==? #0 then
    (y <- m_exp mf ((- d) / t_sigma t) ;; Ret (s * y))
  else
    let r := d * (t_gamma t / t_sigma t) in
    (y <- m_pow mf (#1 + r) (#(-1) / t_gamma t) ;; Ret (s * y)).

(** tail.c:46-52 *)
Definition tail_quantile (t : tail) (s q : num N) : res (num N) :=
  let r := q / s in
  if t_gamma t ==? #0 then Ret ((- t_sigma t) * m_log mf r)
  else
    (y <- m_pow mf r (- t_gamma t) ;;
     Ret ((t_sigma t / t_gamma t) * (y - #1))).

(** tail.c:14 *)
Definition ESTIMATORS : list (peaks N -> res (@estimate N)) :=
  [mom_estimator mf; grimshaw_estimator mf].

(** tail.c:61-70 *)
Fixpoint tail_fit_loop (ests : list (peaks N -> res (@estimate N)))
    (t : tail) (max_llhood : num N) : res (tail * num N) :=
  match ests with
  | [] => Ret (t, max_llhood)
  | est :: rest =>
      '(llhood, g, s) <- est (t_peaks t) ;;
      if (is_nan max_llhood || (llhood >? max_llhood))%bool
      then tail_fit_loop rest (MkTail g s (t_peaks t)) llhood
      else tail_fit_loop rest t max_llhood
  end.

(** tail.c:54-73 *)
Definition tail_fit (t : tail) : res (tail * num N) :=
  tail_fit_loop ESTIMATORS t c_nan.

End Tail.
Arguments tail N : clear implicits.
