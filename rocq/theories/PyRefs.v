(** * PyRefs: references and memory of the Python objects (python/libspotmodule.c)

    The effect of the CPython functions on reference counts is modelled by their documentation. Objects that a method creates
    for its result (numbers, the list of [excesses], the dictionary of [as_dict], the bytearray of [raw]) are handed over to the
    caller with their only reference and are not tracked; nor are None, exceptions and the module. *)
From Coq Require Import ZArith List Bool.
From Verif Require Import Num XMath Ubend Peaks Brent Estimator Tail P2 Spot B64 Str Heap PyBinding.
Import ListNotations.

(** An object is named by the position of its block. Iterables that are neither lists nor tuples (sets, deques, ...) own
    the items they yield. The C struct of the detector [o] is the instance [o] of the world. *)
Inductive body : Type :=
  | BFloat (x : b64) | BInt (z : Z) | BOpaque
  | BList (items : list nat) | BTuple (items : list nat) | BIter (items : list nat)
  | BSpot.
Record object : Type := MkObject { ob_count : Z; ob_body : body }.

(** [None]: the block has been given back. [held]: the references of the program (its variables), with repetitions.
    [type]: reference count of the type object Spot. *)
Record py : Type := MkPy { p_objects : list (option object); p_held : list nat; p_type : Z; p_world : world B64 }.

Definition children (b : body) : list nat :=
  match b with BList l | BTuple l | BIter l => l | _ => [] end.
Definition lookup (h : list (option object)) (o : nat) : option object := nth o h None.
Fixpoint update (h : list (option object)) (o : nat) (x : option object) : list (option object) :=
  match h, o with
  | [], _ => []
  | _ :: h, O => x :: h
  | y :: h, S o => y :: update h o x
  end.
(** Py_INCREF *)
Definition incref (h : list (option object)) (o : nat) : list (option object) :=
  match lookup h o with Some x => update h o (Some (MkObject (ob_count x + 1) (ob_body x))) | None => h end.
(** a new block, with one reference *)
Definition alloc (h : list (option object)) (b : body) : nat * list (option object) := (length h, h ++ [Some (MkObject 1 b)]).

(** Py_DECREF of each object of [todo]. The last reference of a container releases its items. The last reference of a
    detector calls Spot_dealloc (libspotmodule.c:243-248): spot_free, but neither tp_free (commented out) nor a release of the
    type: the block stays. [fuel] bounds the number of references (see [release_fuel]). *)
Fixpoint release (fuel : nat) (h : list (option object)) (w : world B64) (todo : list nat) : res (list (option object) * world B64) :=
  match todo with
  | [] => Ret (h, w)
  | o :: todo =>
      match fuel with
      | O => Undef Diverge
      | S fuel =>
          match lookup h o with
          | None => release fuel h w todo
          | Some x =>
              if (ob_count x =? 1)%Z then
                match ob_body x with
                | BSpot => '(w, _) <- w_step w (OFree (Z.of_nat o)) ;; release fuel (update h o (Some (MkObject 0 BSpot))) w todo
                | b => release fuel (update h o None) w (children b ++ todo)
                end
              else release fuel (update h o (Some (MkObject (ob_count x - 1) (ob_body x)))) w todo
          end
      end
  end.
Definition size_of (x : option object) : nat := match x with Some x => length (children (ob_body x)) | None => O end.
Definition release_fuel (h : list (option object)) (todo : list nat) : nat := length todo + list_sum (map size_of h).
Definition decref (h : list (option object)) (w : world B64) (o : nat) := release (release_fuel h [o]) h w [o].

(** An item as PyFloat_AsDouble sees it, an argument as PySequence_Fast sees it *)
Definition leaf (h : list (option object)) (o : nat) : pyobj :=
  match lookup h o with Some (MkObject _ (BFloat x)) => PyFloat x | Some (MkObject _ (BInt z)) => PyInt z | _ => PyOpaque end.
Definition view (h : list (option object)) (o : nat) : pyobj :=
  match lookup h o with
  | Some (MkObject _ (BList l)) => PyList (map (leaf h) l)
  | Some (MkObject _ (BTuple l)) => PyTuple (map (leaf h) l)
  | Some (MkObject _ (BIter l)) => PyIterable (map (leaf h) l)
  | _ => leaf h o
  end.

(** PySequence_Fast (libspotmodule.c:132): a list or a tuple is returned with one more reference, another iterable gives a new
    list, which takes a reference of each item *)
Definition seq_fast (h : list (option object)) (o : nat) : option nat * list (option object) :=
  match lookup h o with
  | Some (MkObject _ (BList _)) | Some (MkObject _ (BTuple _)) => (Some o, incref h o)
  | Some (MkObject _ (BIter l)) => let '(s, h) := alloc (fold_left incref l h) (BList l) in (Some s, h)
  | _ => (None, h)
  end.

(** What a program can do. Objects are created from objects the program holds, and the program holds the result. *)
Inductive pyop : Type :=
  | OpNew (b : body)                                                                                     (* x = 1.5, x = [a, b], ... *)
  | OpSpot (q : pyobj) (low discard : option Z) (level : option pyobj) (max_excess : option Z)          (* x = libspot.Spot(...) *)
  | OpFit (s data : nat) | OpStep (s x : nat) | OpQuantile (s x : nat) | OpProbability (s x : nat)     (* s.fit(data), ... *)
  | OpDrop (o : nat).                                                                                    (* a variable goes away *)
(** what happened: [Fitted s]: fit went through, on the sequence [s] *)
Inductive event : Type := Created (o : nat) | Constructed (o : nat) | Failed (o : nat) | Fitted (s : nat) | Called | Dropped (o : nat) | Skipped.

Definition holds (p : py) (o : nat) : bool := existsb (Nat.eqb o) (p_held p).
Definition is_spot (h : list (option object)) (o : nat) : bool := match lookup h o with Some (MkObject _ BSpot) => true | _ => false end.
Fixpoint drop_one (o : nat) (l : list nat) : list nat :=
  match l with [] => [] | x :: l => if Nat.eqb o x then l else x :: drop_one o l end.

Section Step.
Variables (mallocs : Z -> bool) (junk : list Z).
Definition call (p : py) (s : nat) (r : res (world B64 * creturn)) : res (py * event) :=
  '(w, _) <- r ;; Ret (MkPy (p_objects p) (p_held p) (p_type p) w, Called).
Definition py_op (p : py) (o : pyop) : res (py * event) :=
  let h := p_objects p in let w := p_world p in
  match o with
  | OpNew BSpot => Ret (p, Skipped)
  | OpNew b =>
      if forallb (holds p) (children b) then
        let '(n, h) := alloc (fold_left incref (children b) h) b in Ret (MkPy h (n :: p_held p) (p_type p) w, Created n)
      else Ret (p, Skipped)
  | OpSpot q low discard level max_excess =>
      (* PyType_GenericAlloc: a new block and a reference of the type; then __init__ and, if it fails, the release *)
      let '(n, h) := alloc h BSpot in
      '(w, r) <- py_init junk (py_new w (Z.of_nat n)) (Z.of_nat n) q low discard level max_excess ;;
      match c_value r with
      | Some _ => Ret (MkPy h (n :: p_held p) (p_type p + 1) w, Constructed n)
      | None => '(h, w) <- decref h w n ;; Ret (MkPy h (p_held p) (p_type p + 1) w, Failed n)
      end
  | OpFit s data =>
      if holds p s && holds p data && is_spot h s then
        (* libspotmodule.c:131-157: no release of the sequence *)
        let '(seq, h') := seq_fast h data in
        '(w, _) <- py_fit mallocs junk w (Z.of_nat s) (view h data) ;;
        Ret (MkPy h' (p_held p) (p_type p) w, match seq with Some q => Fitted q | None => Called end)
      else Ret (p, Skipped)
  | OpStep s x => if holds p s && holds p x && is_spot h s then call p s (py_step w (Z.of_nat s) (leaf h x)) else Ret (p, Skipped)
  | OpQuantile s x => if holds p s && holds p x && is_spot h s then call p s (py_quantile w (Z.of_nat s) (leaf h x)) else Ret (p, Skipped)
  | OpProbability s x => if holds p s && holds p x && is_spot h s then call p s (py_probability w (Z.of_nat s) (leaf h x)) else Ret (p, Skipped)
  | OpDrop o =>
      if holds p o then '(h, w) <- decref h w o ;; Ret (MkPy h (drop_one o (p_held p)) (p_type p) w, Dropped o)
      else Ret (p, Skipped)
  end.
Fixpoint py_run (p : py) (os : list pyop) : res (py * list event) :=
  match os with
  | [] => Ret (p, [])
  | o :: os => '(p, e) <- py_op p o ;; '(p, es) <- py_run p os ;; Ret (p, e :: es)
  end.
End Step.

(** after the import of the module (libspotmodule.c:319-364): the type is referenced by its creator and by the module *)
Definition py_start (w : world B64) : py := MkPy [] [] 2 w.
