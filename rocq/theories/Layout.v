(** * Layout: object representation of the structs of /repo/include/structs.h *)
From Coq Require Import ZArith List Bool String.
From Verif Require Import Num XMath Ubend Peaks Brent Estimator Tail P2 Spot B64.
Import ListNotations.
Open Scope Z_scope.

(** ** C types used by the structs, and the platform parameters that matter *)
Inductive ctype : Type :=
  | CDouble | CInt | CULong | CPtr
  | CStruct (fields : list (string * ctype)).

(** size (= alignment) of unsigned long and of a pointer; int is 4 bytes, double 8 bytes aligned on 8 *)
Record abi : Type := MkAbi { abi_long : Z; abi_ptr : Z }.
Definition wasm32 : abi := MkAbi 4 4.
Definition lp64 : abi := MkAbi 8 8.

Definition round_up (o a : Z) : Z := (o + a - 1) / a * a.

(** Each field at the first multiple of its alignment, the struct padded to its own alignment. *)
Fixpoint align_of (ab : abi) (t : ctype) : Z :=
  match t with
  | CDouble => 8 | CInt => 4 | CULong => abi_long ab | CPtr => abi_ptr ab
  | CStruct fs => (fix go fs := match fs with [] => 1 | (_, t) :: fs => Z.max (align_of ab t) (go fs) end) fs
  end.
Fixpoint size_of (ab : abi) (t : ctype) : Z :=
  match t with
  | CDouble => 8 | CInt => 4 | CULong => abi_long ab | CPtr => abi_ptr ab
  | CStruct fs =>
      let end_ := (fix go o fs := match fs with
                    | [] => o
                    | (_, t) :: fs => go (round_up o (align_of ab t) + size_of ab t) fs
                    end) 0 fs in
      round_up end_ (align_of ab t)
  end.
(** offset (from the start of the outer struct) and type of a field designated by a path of names *)
Fixpoint field_at (ab : abi) (base o : Z) (fs : list (string * ctype)) (name : string) : option (Z * ctype) :=
  match fs with
  | [] => None
  | (n, t) :: fs =>
      let o := round_up o (align_of ab t) in
      if String.eqb n name then Some (base + o, t) else field_at ab base (o + size_of ab t) fs name
  end.
Fixpoint locate (ab : abi) (base : Z) (t : ctype) (path : list string) : option (Z * ctype) :=
  match path with
  | [] => Some (base, t)
  | name :: path =>
      match t with
      | CStruct fs => match field_at ab base 0 fs name with Some (o, t) => locate ab o t path | None => None end
      | _ => None
      end
  end.

(** structs.h:99-110 *)
Definition c_Ubend : ctype := CStruct [("cursor", CULong); ("capacity", CULong); ("last_erased_data", CDouble); ("filled", CInt); ("data", CPtr)]%string.
(** structs.h:116-127 *)
Definition c_Peaks : ctype := CStruct [("e", CDouble); ("e2", CDouble); ("min", CDouble); ("max", CDouble); ("container", c_Ubend)]%string.
(** structs.h:133-140 *)
Definition c_Tail : ctype := CStruct [("gamma", CDouble); ("sigma", CDouble); ("peaks", c_Peaks)]%string.
(** structs.h:147-168 *)
Definition c_Spot : ctype :=
  CStruct [("q", CDouble); ("level", CDouble); ("discard_anomalies", CInt); ("low", CInt); ("__up_down", CDouble);
           ("anomaly_threshold", CDouble); ("excess_threshold", CDouble); ("Nt", CULong); ("n", CULong); ("tail", c_Tail)]%string.

(** ** Memory: bytes, little endian *)
Definition memory : Type := Z -> Z.
Definition bytes (m : memory) (a : Z) (n : nat) : list Z := map (fun k => m (a + Z.of_nat k)) (seq 0 n).
Fixpoint le_bytes (n : nat) (v : Z) : list Z :=
  match n with O => [] | S n => v mod 256 :: le_bytes n (v / 256) end.

(** the value of a field *)
Inductive cvalue : Type := VDouble (x : b64) | VInt (z : Z) | VULong (z : Z) | VPtr (a : Z).
Definition repr (ab : abi) (v : cvalue) : list Z :=
  match v with
  | VDouble x => le_bytes 8 (to_bits x)
  | VInt z => le_bytes 4 (z mod 2 ^ 32)
  | VULong z => le_bytes (Z.to_nat (abi_long ab)) z
  | VPtr a => le_bytes (Z.to_nat (abi_ptr ab)) a
  end.

(** the fields of the struct and where the model keeps them; [a] is the pointer to the window *)
Definition spot_fields (s : spot B64) (a : Z) : list (list string * cvalue) :=
  let t := s_tail s in let p := t_peaks t in let u := p_cont p in
  [(["q"], VDouble (s_q s)); (["level"], VDouble (s_level s)); (["discard_anomalies"], VInt (s_discard s)); (["low"], VInt (s_low s));
   (["__up_down"], VDouble (s_updown s)); (["anomaly_threshold"], VDouble (s_at s)); (["excess_threshold"], VDouble (s_et s));
   (["Nt"], VULong (s_Nt s)); (["n"], VULong (s_n s)); (["tail"; "gamma"], VDouble (t_gamma t)); (["tail"; "sigma"], VDouble (t_sigma t));
   (["tail"; "peaks"; "e"], VDouble (p_e p)); (["tail"; "peaks"; "e2"], VDouble (p_e2 p));
   (["tail"; "peaks"; "min"], VDouble (p_min p)); (["tail"; "peaks"; "max"], VDouble (p_max p));
   (["tail"; "peaks"; "container"; "cursor"], VULong (u_cursor u)); (["tail"; "peaks"; "container"; "capacity"], VULong (u_capacity u));
   (["tail"; "peaks"; "container"; "last_erased_data"], VDouble (u_last u)); (["tail"; "peaks"; "container"; "filled"], VInt (u_filled u));
   (["tail"; "peaks"; "container"; "data"], VPtr a)]%string.

(** the struct [s] is stored at address [ptr] *)
Definition stored (ab : abi) (m : memory) (ptr : Z) (s : spot B64) (a : Z) : Prop :=
  forall path v, In (path, v) (spot_fields s a) ->
    exists o t, locate ab 0 c_Spot path = Some (o, t) /\ bytes m (ptr + o) (List.length (repr ab v)) = repr ab v.
