(** * FreedSpec: uses of a detector after spot_free (specification vocabulary of C96) *)
From Coq Require Import ZArith List Bool.
From Flocq Require Import IEEE754.BinarySingleNaN.
From Verif Require Import Num XMath Spot B64 Heap Spec.
Open Scope Z_scope.

(** a call that reads or updates the detector [i], other than spot_init and spot_free *)
Definition uses (i : Z) (o : op B64) : Prop :=
  match o with OFit j _ | OStep j _ | OQuantile j _ | OProbability j _ => j = i | _ => False end.
(** spot_init or spot_free on the detector [i] *)
Definition revives (i : Z) (o : op B64) : Prop := match o with OInit j _ _ _ _ _ | OFree j => j = i | _ => False end.
(** what such a call answers once the detector has been freed *)
Definition answer_of_freed (o : op B64) (a : out B64) : Prop :=
  match o with
  | OStep _ x => a = OutCode (N := B64) (if is_NaN x then -1005 else NORMAL)
  | OFit _ _ => a = OutCode (N := B64) (-1003) \/ a = OutCode (N := B64) (-1004)
  | _ => a = OutNum (N := B64) (B754_nan : b64)
  end.
