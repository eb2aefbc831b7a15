(** * Session: the caller's side. A session is any finite sequence of API calls on one detector. *)
From Coq Require Import ZArith List Bool.
From Verif Require Import Num XMath Ubend Peaks Brent Estimator Tail P2 Spot.
Import ListNotations.
Open Scope Z_scope.

Section Session.
Context {N : NumOps} (mf : MathFns N).

(** The calls of spot.h that take an initialised detector (include/spot.h:51-110), spot_free excepted. *)
Inductive call : Type :=
  | CFit (data : list (num N))
  | CStep (x : num N)
  | CQuantile (q : num N)
  | CProbability (z : num N).

Inductive answer : Type := ACode (c : Z) | ANum (x : num N).

Definition do_call (s : spot N) (c : call) : res (spot N * answer) :=
  match c with
  | CFit data => '(s', r) <- spot_fit mf s data ;; Ret (s', ACode r)
  | CStep x => '(s', r) <- spot_step mf s x ;; Ret (s', ACode r)
  | CQuantile q => v <- spot_quantile mf s q ;; Ret (s, ANum v)
  | CProbability z => v <- spot_probability mf s z ;; Ret (s, ANum v)
  end.

Fixpoint session (s : spot N) (cs : list call) : res (spot N * list answer) :=
  match cs with
  | [] => Ret (s, [])
  | c :: rest =>
      '(s1, a) <- do_call s c ;;
      '(s2, l) <- session s1 rest ;;
      Ret (s2, a :: l)
  end.

(** Sequences of pushes on a window (ubend.h, peaks.h). *)
Fixpoint ubend_pushes (u : ubend N) (xs : list (num N)) : res (ubend N * list (num N)) :=
  match xs with
  | [] => Ret (u, [])
  | x :: rest =>
      '(u1, r) <- ubend_push u x ;;
      '(u2, rs) <- ubend_pushes u1 rest ;;
      Ret (u2, r :: rs)
  end.
Fixpoint peaks_pushes (p : peaks N) (xs : list (num N)) : res (peaks N) :=
  match xs with
  | [] => Ret p
  | x :: rest => p' <- peaks_push p x ;; peaks_pushes p' rest
  end.

End Session.
Arguments call N : clear implicits.
Arguments answer N : clear implicits.
