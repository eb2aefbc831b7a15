(** * Ubend: model of /repo/src/ubend.c (circular buffer) *)
From Coq Require Import ZArith List Bool.
From Verif Require Import Num XMath.
Import ListNotations.
Open Scope Z_scope.

Section Ubend.
Context {N : NumOps}.

(** structs.h:99-110. The heap block pointed to by [data] is kept by value: a list of cells, [None]
    while indeterminate; NULL (or a dead pointer) is the empty list, so that any access is
    out of bounds. [filled] is an int (0, 1, or -1 after free). *)
Record ubend : Type := MkUbend {
  u_cursor : Z;
  u_capacity : Z;
  u_last : num N;
  u_filled : Z;
  u_data : list (option (num N))
}.

(** allocator.c:29-42 hands back either NULL ([None]) or a block. ubend.c:12-22. *)
Definition ubend_init (blk : option (list (option (num N)))) (capacity : Z) : ubend * Z :=
  let mk d := MkUbend 0 capacity c_nan 0 d in
  match blk with
  | Some d => (mk d, 0)
  | None => (mk [], -1000)
  end.

(** Number of bytes requested at ubend.c:17: capacity * __SIZEOF_DOUBLE__ in unsigned long. *)
Definition ubend_bytes (capacity : Z) : Z := u64 (capacity * 8).

(** ubend.c:24-32, the field updates; the release of [data] is in [Heap.v]. *)
Definition ubend_free (u : ubend) : ubend :=
  MkUbend 0 0 c_nan (-1) (u_data u).

(** ubend.c:34-39 *)
Definition ubend_size (u : ubend) : Z :=
  if Z.eqb (u_filled u) 0 then u_cursor u else u_capacity u.

(** ubend.c:41-61 *)
Definition ubend_push (u : ubend) (x : num N) : res (ubend * num N) :=
  last <- (if Z.eqb (u_filled u) 0 then Ret (u_last u)
           else rdcell (u_data u) (u_cursor u)) ;;
  d <- wr (u_data u) (u_cursor u) (Some x) ;;
  let u' :=
    if Z.eqb (u_cursor u) (u64 (u_capacity u - 1))
    then MkUbend 0 (u_capacity u) last 1 d
    else MkUbend (u64 (u_cursor u + 1)) (u_capacity u) last (u_filled u) d in
  Ret (u', last).

End Ubend.
Arguments ubend N : clear implicits.
