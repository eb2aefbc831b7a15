(** * PyBinding: model of /repo/python/libspotmodule.c

    The functions of the CPython C API are modelled by their documented behaviour on the object classes
    below. Reference counts and the memory of the Python objects are in PyRefs.v, re-entrancy (a [__float__] method that
    calls back) in PyReenter.v. *)
From stdpp Require Import gmap.
From Coq Require Import ZArith List Bool String.
From Flocq Require Import IEEE754.BinarySingleNaN.
From Verif Require Import Num XMath Ubend Peaks Brent Estimator Tail P2 Spot B64 Str Heap.
Open Scope Z_scope.

(** Classes of Python objects: floats (and objects with a [__float__] that returns), ints, lists, tuples,
    other iterables (with the items they yield), objects that are neither numbers nor iterable. *)
Inductive pyobj : Type :=
  | PyFloat (x : b64)
  | PyInt (z : Z)
  | PyList (l : list pyobj)
  | PyTuple (l : list pyobj)
  | PyIterable (l : list pyobj)
  | PyOpaque.

(** The error indicator of the interpreter. *)
Inductive exc : Type := TypeError | OverflowError | SystemError | RuntimeError (msg : list Z).
Definition last_error (a b : option exc) : option exc := match b with Some _ => b | None => a end.

(** PyFloat_AsDouble: -1.0 and an exception when the object cannot be converted; [None] is a NULL argument. *)
Definition minus_one : b64 := b64_opp (b64_ofZ 1).
Definition as_double (o : option pyobj) : b64 * option exc :=
  match o with
  | Some (PyFloat x) => (x, None)
  | Some (PyInt z) => if BinarySingleNaN.is_finite (b64_ofZ z) then (b64_ofZ z, None) else (minus_one, Some OverflowError)
  | _ => (minus_one, Some TypeError)
  end.

(** PySequence_Fast: lists and tuples are returned as they are, other iterables become a list. [bool]: is it a list? *)
Definition sequence_fast (o : pyobj) : option (bool * list pyobj) :=
  match o with
  | PyList l | PyIterable l => Some (true, l)
  | PyTuple l => Some (false, l)
  | _ => None
  end.
(** PyList_Size: -1 and SystemError when the argument is not a list; the caller converts to unsigned long (line 137) *)
Definition list_size (seq : bool * list pyobj) : Z * option exc :=
  if fst seq then (Z.of_nat (List.length (snd seq)), None) else (u64 (-1), Some SystemError).
(** PyList_GetItem: NULL when not a list *)
Definition list_item (seq : bool * list pyobj) (k : Z) : option pyobj :=
  if fst seq then nth_error (snd seq) (Z.to_nat k) else None.

(** libspotmodule.c:141-144: the copy loop. [cells] is the number of doubles of the block [x] (0 for NULL);
    [n] iterations remain, [k] is the index. *)
Fixpoint copy_items (seq : bool * list pyobj) (cells : Z) (n : nat) (k : Z) (err : option exc) : res (list b64 * option exc) :=
  match n with
  | O => Ret ([], err)
  | S n =>
      if k <? cells then
        let '(v, e) := as_double (list_item seq k) in
        '(rest, err) <- copy_items seq cells n (k + 1) (last_error err e) ;;
        Ret (v :: rest, err)
      else Undef OutOfBounds
  end.

(** What a C function gives back to the interpreter: a value or NULL, and the error indicator. *)
Inductive pyret : Type := RNone | RInt (z : Z) | RFloat (x : b64) | RList (l : list b64).
Record creturn : Type := MkReturn { c_value : option pyret; c_error : option exc }.
(** What the Python program sees: CPython checks that exactly one of the two is present (a value together with
    an exception, or neither, raises SystemError). *)
Inductive seen : Type := Returns (v : pyret) | Raises (e : exc).
Definition interpreter (r : creturn) : seen :=
  match c_value r, c_error r with
  | Some v, None => Returns v
  | None, Some e => Raises e
  | _, _ => Raises SystemError
  end.

(** libspotmodule.c:115-119,151-155: the message is delivered into an uninitialised buffer of 256 chars and read
    up to its first NUL *)
Fixpoint c_string (l : list Z) : list Z :=
  match l with [] => [] | c :: l => if c =? 0 then [] else c :: c_string l end.
Definition runtime_error (code : Z) (junk : list Z) : res exc :=
  b <- libspot_error (- code) (Some junk) 256 ;;
  match b with Some b => Ret (RuntimeError (c_string b)) | None => Undef OutOfBounds end.

(** libspotmodule.c:99-121. "d|$iidk": an absent keyword keeps its default (lines 12-15: 0, 1, 0.98, 500); "i"
    overflows outside 32 bits; "k" takes the value modulo 2^64. *)
Definition int32_ok (z : Z) : bool := (- 2 ^ 31 <=? z) && (z <? 2 ^ 31).
Definition py_init (junk : list Z) (w : world B64) (i : Z) (q : pyobj) (low discard : option Z) (level : option pyobj)
    (max_excess : option Z) : res (world B64 * creturn) :=
  let '(q, e1) := as_double (Some q) in
  let '(level, e2) := match level with Some l => as_double (Some l) | None => (b64_div (b64_ofZ 98) (b64_ofZ 100), None) end in
  let low := match low with Some z => z | None => 0 end in
  let discard := match discard with Some z => z | None => 1 end in
  let max_excess := match max_excess with Some z => u64 z | None => 500 end in
  match e1, e2 with
  | None, None =>
      if (int32_ok low && int32_ok discard)%bool then
        '(w, r) <- w_step w (OInit (N := B64) i q low discard level max_excess) ;;
        match r with
        | OutCode c =>
            if c <? 0 then e <- runtime_error c junk ;; Ret (w, MkReturn None (Some e))
            else Ret (w, MkReturn (Some RNone) None)
        | _ => Ret (w, MkReturn None None)
        end
      else Ret (w, MkReturn None (Some OverflowError))
  | Some e, _ | None, Some e => Ret (w, MkReturn None (Some e))
  end.

(** libspotmodule.c:131-157. [mallocs bytes]: does malloc(bytes) return a block? *)
Definition py_fit (mallocs : Z -> bool) (junk : list Z) (w : world B64) (i : Z) (data : pyobj) : res (world B64 * creturn) :=
  match sequence_fast data with
  | None => Ret (w, MkReturn None (Some TypeError))
  | Some seq =>
      let '(size, e) := list_size seq in
      let bytes := u64 (size * 8) in
      let cells := if mallocs bytes then bytes / 8 else 0 in
      '(x, e) <- copy_items seq cells (Z.to_nat size) 0 e ;;
      '(w, r) <- w_step w (OFit (N := B64) i x) ;;
      match r with
      | OutCode c =>
          if c <? 0 then e <- runtime_error c junk ;; Ret (w, MkReturn (Some RNone) (Some e))
          else Ret (w, MkReturn (Some RNone) e)
      | _ => Ret (w, MkReturn None None)
      end
  end.

(** libspotmodule.c:162-169 *)
Definition py_step (w : world B64) (i : Z) (x : pyobj) : res (world B64 * creturn) :=
  let '(z, e) := as_double (Some x) in
  '(w, r) <- w_step w (OStep (N := B64) i z) ;;
  match r with OutCode c => Ret (w, MkReturn (Some (RInt c)) e) | _ => Ret (w, MkReturn None None) end.
(** libspotmodule.c:174-181 *)
Definition py_quantile (w : world B64) (i : Z) (x : pyobj) : res (world B64 * creturn) :=
  let '(q, e) := as_double (Some x) in
  '(w, r) <- w_step w (OQuantile (N := B64) i q) ;;
  match r with OutNum z => Ret (w, MkReturn (Some (RFloat z)) e) | _ => Ret (w, MkReturn None None) end.
(** libspotmodule.c:187-194 *)
Definition py_probability (w : world B64) (i : Z) (x : pyobj) : res (world B64 * creturn) :=
  let '(z, e) := as_double (Some x) in
  '(w, r) <- w_step w (OProbability (N := B64) i z) ;;
  match r with OutNum q => Ret (w, MkReturn (Some (RFloat q)) e) | _ => Ret (w, MkReturn None None) end.

(** libspotmodule.c:26-48,223-225: the first cells of the window, in array order *)
Fixpoint to_python_list (cells : list (option b64)) (n : nat) : res (list b64) :=
  match n with
  | O => Ret []
  | S n => match cells with
           | Some x :: cells => l <- to_python_list cells n ;; Ret (x :: l)
           | None :: _ => Undef Uninit
           | [] => Undef OutOfBounds
           end
  end.
Definition py_excesses (w : world B64) (i : Z) : res creturn :=
  let u := p_cont (t_peaks (s_tail (load (w_heap w) (w_inst w i)))) in
  let size := if u_filled u =? 0 then u_cursor u else u_capacity u in
  l <- to_python_list (u_data u) (Z.to_nat size) ;;
  Ret (MkReturn (Some (RList l)) None).

(** libspotmodule.c:54-75,232-241: the dictionary, flattened ("tail.peaks.e" for as_dict()["tail"]["peaks"]["e"]) *)
Inductive pyval : Type := DFloat (x : b64) | DInt (z : Z) | DList (l : list b64).
Definition py_as_dict (w : world B64) (i : Z) : res (list (string * pyval)) :=
  let s := load (w_heap w) (w_inst w i) in
  let t := s_tail s in let p := t_peaks t in let u := p_cont p in
  l <- to_python_list (u_data u) (Z.to_nat (if u_filled u =? 0 then u_cursor u else u_capacity u)) ;;
  Ret [("q", DFloat (s_q s)); ("level", DFloat (s_level s)); ("discard_anomalies", DInt (s_discard s)); ("low", DInt (s_low s));
       ("anomaly_threshold", DFloat (s_at s)); ("excess_threshold", DFloat (s_et s)); ("Nt", DInt (s_Nt s)); ("n", DInt (s_n s));
       ("tail.gamma", DFloat (t_gamma t)); ("tail.sigma", DFloat (t_sigma t));
       ("tail.peaks.e", DFloat (p_e p)); ("tail.peaks.e2", DFloat (p_e2 p)); ("tail.peaks.min", DFloat (p_min p)); ("tail.peaks.max", DFloat (p_max p));
       ("tail.peaks.container.cursor", DInt (u_cursor u)); ("tail.peaks.container.capacity", DInt (u_capacity u));
       ("tail.peaks.container.last_erased_data", DFloat (u_last u)); ("tail.peaks.container.filled", DInt (u_filled u));
       ("tail.peaks.container.data", DList l)]%string.

(** tp_alloc zero-fills the object: the struct of an object on which __init__ has not run *)
Definition zero_spot : cspot B64 :=
  let z := B754_zero false : b64 in
  MkCspot (MkSpot (N := B64) z z 0 0 z z z 0 0 (MkTail (N := B64) z z (MkPeaks (N := B64) z z z z (MkUbend (N := B64) 0 0 z 0 [])))) None.
Definition py_new (w : world B64) (i : Z) : world B64 :=
  MkWorld (w_heap w) (w_malloc w) (w_free w) (w_utils w) (set_inst w i zero_spot) (w_log w).
(** type.__call__ (libspot.Spot(...)): allocation, __init__, and on failure the destructor (libspotmodule.c:243-248) *)
Definition py_construct (junk : list Z) (w : world B64) (i : Z) (q : pyobj) (low discard : option Z) (level : option pyobj)
    (max_excess : option Z) : res (world B64 * creturn) :=
  '(w, r) <- py_init junk (py_new w i) i q low discard level max_excess ;;
  match c_value r with
  | Some _ => Ret (w, r)
  | None => '(w, _) <- w_step w (OFree i) ;; Ret (w, r)
  end.
