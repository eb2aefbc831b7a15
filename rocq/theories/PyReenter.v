(** * PyReenter: Python code that runs inside a call of the binding (python/libspotmodule.c)

    PyFloat_AsDouble calls the [__float__] method of an object, which may call the binding again, on the same detector or
    another, and modify the list being read. A hook called while an exception is pending is run like any other (what CPython
    does there is not documented); other threads, and hooks in [__iter__], are left out. *)
From stdpp Require Import gmap.
From Coq Require Import ZArith List Bool.
From Verif Require Import Num XMath Ubend Peaks Brent Estimator Tail P2 Spot B64 Str Heap PyBinding.
Import ListNotations.

(** An object passed to the binding: a plain one, or one whose [__float__] runs a program and returns its result.
    A program is a sequence of calls, each depending on what the preceding ones returned or raised. [Fit i l]: fit of the
    detector [i] on the list named [l]; [SetList]: l[:] = items; Spot(...) is [New], [Init] and, when it raises, [Free]. *)
Inductive item : Type := Plain (v : pyobj) | Hook (p : prog)
with prog : Type :=
  | Done (r : pyobj)
  | New (i : Z) (k : prog)
  | Init (i : Z) (q : item) (low discard : option Z) (level : option item) (max_excess : option Z) (k : seen -> prog)
  | Free (i : Z) (k : prog)
  | Fit (i : Z) (l : nat) (k : seen -> prog)
  | Step (i : Z) (x : item) (k : seen -> prog)
  | Quantile (i : Z) (x : item) (k : seen -> prog)
  | Probability (i : Z) (x : item) (k : seen -> prog)
  | SetList (l : nat) (items : list item) (k : prog).

Record env : Type := MkEnv { e_world : world B64; e_lists : nat -> list item }.
Definition with_world (e : env) (w : world B64) : env := MkEnv w (e_lists e).
Definition with_list (e : env) (l : nat) (items : list item) : env :=
  MkEnv (e_world e) (fun m => if Nat.eqb m l then items else e_lists e m).

(** A call with plain arguments, and what it does (PyBinding.v) *)
Inductive plain_call : Type :=
  | CNew (i : Z) | CInit (i : Z) (q : pyobj) (low discard : option Z) (level : option pyobj) (max_excess : option Z) | CFree (i : Z)
  | CFit (i : Z) (data : list pyobj) | CStep (i : Z) (x : pyobj) | CQuantile (i : Z) (x : pyobj) | CProbability (i : Z) (x : pyobj).

Section Reenter.
Variables (mallocs : Z -> bool) (junk : list Z).
Definition do_call (w : world B64) (c : plain_call) : res (world B64 * seen) :=
  match c with
  | CNew i => Ret (py_new w i, Returns RNone)
  | CInit i q low discard level cap => '(w, r) <- py_init junk w i q low discard level cap ;; Ret (w, interpreter r)
  | CFree i => '(w, _) <- w_step w (OFree i) ;; Ret (w, Returns RNone)
  | CFit i data => '(w, r) <- py_fit mallocs junk w i (PyList data) ;; Ret (w, interpreter r)
  | CStep i x => '(w, r) <- py_step w i x ;; Ret (w, interpreter r)
  | CQuantile i x => '(w, r) <- py_quantile w i x ;; Ret (w, interpreter r)
  | CProbability i x => '(w, r) <- py_probability w i x ;; Ret (w, interpreter r)
  end.

(** [log]: the calls in the order of their completion *)
Section Depth.
Variable convert : env -> item -> res (env * pyobj * list plain_call).
(** libspotmodule.c:137-144: the size is read once, each item when its turn comes; beyond the current end PyList_GetItem gives
    NULL, and PyFloat_AsDouble -1 with an exception, as for an object that is not a number *)
Fixpoint collect (e : env) (l : nat) (n k : nat) : res (env * list pyobj * list plain_call) :=
  match n with
  | O => Ret (e, [], [])
  | S n =>
      '(e, v, t1) <- match nth_error (e_lists e l) k with Some x => convert e x | None => Ret (e, PyOpaque, []) end ;;
      '(e, vs, t2) <- collect e l n (S k) ;;
      Ret (e, v :: vs, t1 ++ t2)
  end.
Definition optional (e : env) (x : option item) : res (env * option pyobj * list plain_call) :=
  match x with None => Ret (e, None, []) | Some x => '(e, v, t) <- convert e x ;; Ret (e, Some v, t) end.
Definition parses (q : pyobj) (low discard : option Z) : bool :=
  match snd (as_double (Some q)) with None => true | Some _ => false end
  && match low with Some z => int32_ok z | None => true end && match discard with Some z => int32_ok z | None => true end.
Fixpoint run (e : env) (p : prog) : res (env * pyobj * list plain_call) :=
  let call (e : env) (t : list plain_call) (c : plain_call) (k : env -> seen -> res (env * pyobj * list plain_call)) :=
    '(w, s) <- do_call (e_world e) c ;; '(e, v, t') <- k (with_world e w) s ;; Ret (e, v, t ++ c :: t') in
  match p with
  | Done r => Ret (e, r, [])
  | New i k => call e [] (CNew i) (fun e _ => run e k)
  | Init i q low discard level cap k =>
      (* PyArg_ParseTupleAndKeywords, lines 111-113: q, low, discard_anomalies, level; it stops at the first exception *)
      '(e, q, t1) <- convert e q ;;
      '(e, level, t2) <- (if parses q low discard then optional e level else Ret (e, None, [])) ;;
      call e (t1 ++ t2) (CInit i q low discard level cap) (fun e s => run e (k s))
  | Free i k => call e [] (CFree i) (fun e _ => run e k)
  | Fit i l k => '(e, data, t) <- collect e l (length (e_lists e l)) 0 ;; call e t (CFit i data) (fun e s => run e (k s))
  | Step i x k => '(e, x, t) <- convert e x ;; call e t (CStep i x) (fun e s => run e (k s))
  | Quantile i x k => '(e, x, t) <- convert e x ;; call e t (CQuantile i x) (fun e s => run e (k s))
  | Probability i x k => '(e, x, t) <- convert e x ;; call e t (CProbability i x) (fun e s => run e (k s))
  | SetList l items k => run (with_list e l items) k
  end.
End Depth.
(** [depth]: the recursion limit of the interpreter; beyond it the conversion raises RecursionError *)
Fixpoint convert (depth : nat) (e : env) (x : item) : res (env * pyobj * list plain_call) :=
  match x with
  | Plain v => Ret (e, v, [])
  | Hook p => match depth with O => Ret (e, PyOpaque, []) | S depth => run (convert depth) e p end
  end.
(** a program *)
Definition execute (depth : nat) (e : env) (p : prog) := run (convert depth) e p.

(** the same calls one after the other, from plain code *)
Fixpoint calls (w : world B64) (cs : list plain_call) : res (world B64) :=
  match cs with [] => Ret w | c :: cs => '(w, _) <- do_call w c ;; calls w cs end.
End Reenter.
