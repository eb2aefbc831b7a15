(** * RefSpec: who refers to an object (vocabulary of C88) *)
From Coq Require Import ZArith List Bool Arith.
From Verif Require Import Num B64 Heap PyBinding PyRefs.
Import ListNotations.

(** references of the program, of the live containers, and fits that went through on the sequence [o] *)
Definition held (p : py) (o : nat) : nat := count_occ Nat.eq_dec (p_held p) o.
Definition contained (p : py) (o : nat) : nat :=
  list_sum (map (fun x => match x with Some x => count_occ Nat.eq_dec (children (ob_body x)) o | None => O end) (p_objects p)).
Definition fits (tr : list event) (o : nat) : nat := length (filter (fun e => match e with Fitted s => Nat.eqb s o | _ => false end) tr).
(** detectors constructed, including those whose __init__ failed *)
Definition detectors (tr : list event) : nat := length (filter (fun e => match e with Constructed _ | Failed _ => true | _ => false end) tr).
(** blocks of detectors *)
Definition detector_blocks (p : py) : nat := length (filter (fun x => match x with Some (MkObject _ BSpot) => true | _ => false end) (p_objects p)).
(** the block [o] is allocated / has been given back, or never was allocated *)
Definition object_of (p : py) (o : nat) : option object := nth o (p_objects p) None.
