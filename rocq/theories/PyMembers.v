(** * PyMembers: model of the member descriptors and of raw() of /repo/python/libspotmodule.c, and of spot_size of
    /repo/wasm/main.c. The object of [Layout.v] is used: the Python object is a struct in memory. *)
From Coq Require Import ZArith List Bool String.
From Verif Require Import Num XMath Ubend Peaks Brent Estimator Tail P2 Spot B64 Layout PyBinding.
Import ListNotations.
Open Scope Z_scope.

(** libspotmodule.c:19-22. PyObject_HEAD of a release build of CPython: a reference count (Py_ssize_t, taken as the
    unsigned long of the same size) and a pointer to the type. *)
Definition c_PySpot : ctype := CStruct [("ob_refcnt", CULong); ("ob_type", CPtr); ("_spot", c_Spot)]%string.

(** libspotmodule.c:250-266: name, T_DOUBLE or T_ULONG, member designated by offsetof. All are READONLY. *)
Inductive member_kind : Type := T_DOUBLE | T_ULONG.
Definition Spot_members : list (string * (member_kind * list string)) :=
  [("q", (T_DOUBLE, ["_spot"; "q"])); ("level", (T_DOUBLE, ["_spot"; "level"]));
   ("anomaly_threshold", (T_DOUBLE, ["_spot"; "anomaly_threshold"])); ("excess_threshold", (T_DOUBLE, ["_spot"; "excess_threshold"]));
   ("Nt", (T_ULONG, ["_spot"; "Nt"])); ("n", (T_ULONG, ["_spot"; "n"]));
   ("gamma", (T_DOUBLE, ["_spot"; "tail"; "gamma"])); ("sigma", (T_DOUBLE, ["_spot"; "tail"; "sigma"]))]%string.

(** reading an unsigned integer stored with its low byte first *)
Fixpoint le_value (l : list Z) : Z := match l with [] => 0 | b :: l => b + 256 * le_value l end.
(** PyMember_GetOne (documented behaviour): a float for T_DOUBLE, an int for T_ULONG *)
Definition read_member (m : memory) (a : Z) (k : member_kind) : pyval :=
  match k with
  | T_DOUBLE => DFloat (of_bits (le_value (bytes m a 8)))
  | T_ULONG => DInt (le_value (bytes m a (Z.to_nat (abi_long lp64))))
  end.
(** [obj.name] for a Spot object at address [obj]; [None] is AttributeError *)
Definition py_getattr (m : memory) (obj : Z) (name : string) : option pyval :=
  match find (fun e => String.eqb (fst e) name) Spot_members with
  | Some (_, (k, path)) =>
      match locate lp64 0 c_PySpot path with Some (o, _) => Some (read_member m (obj + o) k) | None => None end
  | None => None
  end.

(** libspotmodule.c:199-204: PyByteArray_FromStringAndSize(&self->_spot, sizeof(struct Spot)) *)
Definition py_raw (m : memory) (obj : Z) : list Z :=
  match locate lp64 0 c_PySpot ["_spot"%string] with
  | Some (o, _) => bytes m (obj + o) (Z.to_nat (size_of lp64 c_Spot))
  | None => []
  end.

(** wasm/main.c:6: spot_new allocates that many bytes; wasm/main.c:8: spot_size *)
Definition js_spot_size : Z := size_of wasm32 c_Spot.
