(** * BindSpec: vocabulary for the properties of the Python and JavaScript bindings *)
From stdpp Require Import gmap.
From Coq Require Import ZArith List Bool String.
From Verif Require Import Num XMath Ubend Peaks Brent Estimator Tail P2 Spot B64 Session Spec Heap Str PyBinding.
Open Scope Z_scope.

(** Can Python convert the object to a float? An int must not round to an infinity. *)
Definition is_number (o : pyobj) : bool :=
  match o with PyFloat _ => true | PyInt z => is_finite (d z) | _ => false end.
(** The double the library is given for an object: -1 for what is not a number. *)
Definition number_value (o : pyobj) : b64 :=
  match o with
  | PyFloat x => x
  | PyInt z => if is_finite (d z) then d z else d (-1)
  | _ => d (-1)
  end.
(** What the caller of a method sees, the C function having produced the value [v]. *)
Definition seen_if (ok : bool) (v : pyret) : seen := if ok then Returns v else Raises SystemError.

(** The messages of spot_init and spot_fit *)
Definition fit_messages : list (Z * string) :=
  [ (-1003, "The excess threshold has not been initialized");
    (-1004, "The anomaly threshold has not been initialized") ]%string.
Definition init_messages : list (Z * string) :=
  [ (-1000, "Memory allocation failed");
    (-1001, "The level parameter is out of bounds (it must be between 0 and 1, but close to 1)");
    (-1002, "The q parameter must between 0 and 1-level") ]%string.

(** Spot(q, low=0, discard_anomalies=1, level=0.98, max_excess=500): the arguments are acceptable to the
    interpreter, and the call of spot_init they stand for. *)
Definition given {A} (x : option A) (default : A) : A := match x with Some x => x | None => default end.
Definition fits_int (z : Z) : bool := (- 2 ^ 31 <=? z) && (z <=? 2 ^ 31 - 1).
Definition default_level : b64 := b64_div (d 98) (d 100).
Definition args_ok (q : pyobj) (low discard : option Z) (level : option pyobj) : bool :=
  is_number q && is_number (given level (PyFloat default_level)) && fits_int (given low 0) && fits_int (given discard 1).
Definition init_call (i : Z) (q : pyobj) (low discard : option Z) (level : option pyobj) (max_excess : option Z) : op B64 :=
  OInit (N := B64) i (number_value q) (given low 0) (given discard 1) (number_value (given level (PyFloat default_level)))
    (given max_excess 500 mod 2 ^ 64).
