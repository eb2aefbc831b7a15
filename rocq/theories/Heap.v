(** * Heap: model of /repo/src/allocator.c and of the API over a heap shared by several detectors *)
From stdpp Require Import gmap.
From Coq Require Import ZArith List Bool.
From Verif Require Import Num XMath Ubend Peaks Brent Estimator Tail P2 Spot.
Open Scope Z_scope.

Section Heap.
Context {N : NumOps}.

(** A heap block: the doubles it can hold. An address is an integer; NULL is [None]. *)
Definition block : Type := list (option (num N)).
Definition heap : Type := gmap Z block.

(** The registered functions (allocator.c:16,22): [None] = null function pointer. A malloc maps the
    requested number of bytes and the heap to an address or NULL. *)
Definition malloc_fn : Type := Z -> heap -> option Z.

(** The struct Spot as the caller holds it: the fields, and the pointer [data] of the innermost
    struct. The by-value window of [cs_spot] is unused (always overwritten by [load]). *)
Record cspot : Type := MkCspot { cs_spot : spot N; cs_data : option Z }.

Inductive event : Type := EvMalloc (bytes : Z) (r : option Z) | EvFree (p : Z).

(** Global state: heap, function pointers, the caller's structs, and the log of allocator calls. *)
Record world : Type := MkWorld {
  w_heap : heap;
  w_malloc : option malloc_fn;
  w_free : bool;                      (* is a free function registered? *)
  w_utils : FloatUtils N;              (* libspot_ldexp, libspot_frexp: xmath.c:237,242 *)
  w_inst : Z -> cspot;
  w_log : list event
}.

(** The functions of xmath.c, linked with the registered ldexp and frexp. *)
Definition w_math (w : world) : MathFns N := c_math (w_utils w).

(** ** Moving the window between the heap and the by-value model *)
Definition get_data (s : spot N) : block := u_data (p_cont (t_peaks (s_tail s))).
Definition set_data (s : spot N) (d : block) : spot N :=
  let t := s_tail s in
  let p := t_peaks t in
  let u := p_cont p in
  with_tail s (MkTail (t_gamma t) (t_sigma t)
    (MkPeaks (p_e p) (p_e2 p) (p_min p) (p_max p)
      (MkUbend (u_cursor u) (u_capacity u) (u_last u) (u_filled u) d))).

(** The content of the block a pointer designates; NULL, dangling: no cell is accessible. *)
Definition deref (h : heap) (p : option Z) : block :=
  match p with
  | Some a => match h !! a with Some b => b | None => [] end
  | None => []
  end.
Definition load (h : heap) (c : cspot) : spot N := set_data (cs_spot c) (deref h (cs_data c)).
(** Write the window back (only a live block can have been written). *)
Definition store_data (h : heap) (p : option Z) (d : block) : heap :=
  match p with
  | Some a => match h !! a with Some _ => <[a := d]> h | None => h end
  | None => h
  end.

Definition set_inst (w : world) (i : Z) (c : cspot) : Z -> cspot :=
  fun j => if Z.eqb j i then c else w_inst w j.

(** allocator.c:29-42 (size_t is 64 bits: the test of line 38 is always false). Fresh memory is
    indeterminate. *)
Definition xmalloc (w : world) (bytes : Z) : heap * option Z * list event :=
  match w_malloc w with
  | None => (w_heap w, None, [])
  | Some m =>
      let r := m bytes (w_heap w) in
      (match r with
       | Some a => <[a := repeat None (Z.to_nat (bytes / 8))]> (w_heap w)
       | None => w_heap w
       end, r, [EvMalloc bytes r])
  end.

(** allocator.c:44-49 *)
Definition xfree (w : world) (a : Z) : res (heap * list event) :=
  if w_free w then
    match w_heap w !! a with
    | Some _ => Ret (delete a (w_heap w), [EvFree a])
    | None => Undef BadFree
    end
  else Ret (w_heap w, []).

Inductive op : Type :=
  | OSetAllocators (m : option malloc_fn) (f : bool)
  | OSetFloatUtils (l : option (num N -> Z -> num N)) (f : option (num N -> Z -> num N * Z))
  | OInit (i : Z) (q : num N) (low discard : Z) (level : num N) (max_excess : Z)
  | OFit (i : Z) (data : list (num N))
  | OStep (i : Z) (x : num N)
  | OQuantile (i : Z) (q : num N)
  | OProbability (i : Z) (z : num N)
  | OFree (i : Z).

Inductive out : Type := OutUnit | OutCode (c : Z) | OutNum (x : num N).

(** spot.c:24-63 over the heap. *)
Definition w_init (w : world) (i : Z) (q : num N) (low discard : Z) (level : num N)
    (max_excess : Z) : world * Z :=
  match spot_check q level with
  | Some code => (w, code)
  | None =>
      let '(h, p, ev) := xmalloc w (ubend_bytes max_excess) in
      let old := cs_spot (w_inst w i) in
      let '(s, r) := spot_init old q low discard level max_excess
                       (fun _ => match p with Some a => Some (deref h p) | None => None end) in
      (MkWorld h (w_malloc w) (w_free w) (w_utils w)
         (set_inst w i (MkCspot s p)) (w_log w ++ ev), r)
  end.

(** spot.c:65-78, ubend.c:24-32: the pointer is released but not cleared. *)
Definition w_free_spot (w : world) (i : Z) : res world :=
  let c := w_inst w i in
  let inst := set_inst w i (MkCspot (spot_free (cs_spot c)) (cs_data c)) in
  match cs_data c with
  | Some a =>
      '(h, ev) <- xfree w a ;;
      Ret (MkWorld h (w_malloc w) (w_free w) (w_utils w) inst (w_log w ++ ev))
  | None => Ret (MkWorld (w_heap w) (w_malloc w) (w_free w) (w_utils w) inst (w_log w))
  end.

(** Put back the detector [s] computed by the by-value model. *)
Definition w_store (w : world) (i : Z) (s : spot N) : world :=
  let p := cs_data (w_inst w i) in
  MkWorld (store_data (w_heap w) p (get_data s)) (w_malloc w) (w_free w) (w_utils w)
    (set_inst w i (MkCspot s p)) (w_log w).

(** One API call (spot.h). *)
Definition w_step (w : world) (o : op) : res (world * out) :=
  match o with
  | OSetAllocators m f =>       (* allocator.c:24-27, spot.c:163 *)
      Ret (MkWorld (w_heap w) m f (w_utils w) (w_inst w) (w_log w), OutUnit)
  | OSetFloatUtils l f =>       (* xmath.c:244-251, spot.c:188-190 *)
      Ret (MkWorld (w_heap w) (w_malloc w) (w_free w)
             (Build_FloatUtils N (match l with Some l => l | None => fu_ldexp (w_utils w) end)
                                 (match f with Some f => f | None => fu_frexp (w_utils w) end))
             (w_inst w) (w_log w), OutUnit)
  | OInit i q low discard level max_excess =>
      let '(w', r) := w_init w i q low discard level max_excess in Ret (w', OutCode r)
  | OFit i data =>
      '(s, r) <- spot_fit (w_math w) (load (w_heap w) (w_inst w i)) data ;;
      Ret (w_store w i s, OutCode r)
  | OStep i x =>
      '(s, r) <- spot_step (w_math w) (load (w_heap w) (w_inst w i)) x ;;
      Ret (w_store w i s, OutCode r)
  | OQuantile i q =>
      z <- spot_quantile (w_math w) (load (w_heap w) (w_inst w i)) q ;;
      Ret (w, OutNum z)
  | OProbability i z =>
      p <- spot_probability (w_math w) (load (w_heap w) (w_inst w i)) z ;;
      Ret (w, OutNum p)
  | OFree i => w' <- w_free_spot w i ;; Ret (w', OutUnit)
  end.

Fixpoint w_run (w : world) (os : list op) : res (world * list out) :=
  match os with
  | [] => Ret (w, [])
  | o :: rest =>
      '(w1, r) <- w_step w o ;;
      '(w2, rs) <- w_run w1 rest ;;
      Ret (w2, r :: rs)
  end.

End Heap.
Arguments world N : clear implicits.
Arguments op N : clear implicits.
Arguments out N : clear implicits.
Arguments cspot N : clear implicits.
Arguments heap N : clear implicits.
Arguments malloc_fn N : clear implicits.
