(** * References and memory of the Python objects (C88) *)
From Coq Require Import ZArith List Bool Arith.
From Verif Require Import Num XMath B64 Heap PyBinding PyRefs RefSpec RefLemmas RefDemo.
Import ListNotations.
Local Open Scope nat_scope.

(** At any point of any program, the reference count of a live object is the number of references of the program and of the
    live containers, plus the number of fits on it; an object given back has none of them. *)
Theorem C88_reference_counts mallocs junk w os p tr : py_run mallocs junk (py_start w) os = Ret (p, tr) -> forall o,
  match object_of p o with
  | Some x => ob_count x = Z.of_nat (held p o + contained p o + fits tr o) /\ (ob_body x <> BSpot -> 1 <= held p o + contained p o + fits tr o)
  | None => held p o = 0 /\ contained p o = 0 /\ fits tr o = 0
  end.
Proof. exact (accounting mallocs junk w os p tr). Qed.
Print Assumptions C88_reference_counts.

(** A sequence that went through fit is never given back (nor, then, are its items: they are [contained]). *)
Theorem C88_fitted_never_reclaimed mallocs junk w os p tr o : py_run mallocs junk (py_start w) os = Ret (p, tr) -> 1 <= fits tr o ->
  exists x, object_of p o = Some x /\ (Z.of_nat (fits tr o) <= ob_count x)%Z.
Proof. exact (fitted_stays mallocs junk w os p tr o). Qed.
Print Assumptions C88_fitted_never_reclaimed.

(** Every detector ever constructed keeps its block and a reference of its type. *)
Theorem C88_detectors_never_reclaimed mallocs junk w os p tr : py_run mallocs junk (py_start w) os = Ret (p, tr) ->
  detector_blocks p = detectors tr /\ p_type p = (p_type (py_start w) + Z.of_nat (detectors tr))%Z.
Proof. exact (detectors_stay mallocs junk w os p tr). Qed.
Print Assumptions C88_detectors_never_reclaimed.

(** Nothing else leaks: an object that is not a detector, and to which nothing refers any more, is there because of a fit on it. *)
Theorem C88_only_fits_leak mallocs junk w os p tr o x : py_run mallocs junk (py_start w) os = Ret (p, tr) ->
  object_of p o = Some x -> ob_body x <> BSpot -> held p o = 0 -> contained p o = 0 -> 1 <= fits tr o.
Proof. exact (only_fits_keep mallocs junk w os p tr o x). Qed.
Print Assumptions C88_only_fits_leak.

(** Releasing a reference ends. *)
Theorem C88_release_terminates h w o : decref h w o <> Undef Diverge.
Proof. exact (decref_ok h w o). Qed.
Print Assumptions C88_release_terminates.

(** The program of RefDemo.v drops everything it made. Two detectors, the fitted list, the list made from the fitted set and
    the number in them are still there; the set and the other list are not, nor is any block of excesses. *)
Example C88_example : ref_seen (ref_run ref_program) =
  Some ([Some (3%Z, 0); Some (1%Z, 3); None; Some (0%Z, 6); Some (0%Z, 6); Some (1%Z, 3); None], [], 4%Z, [],
        [(0, 0); (0, 1); (0, 2); (1, 3); (2, 4); (3, 1); (3, 5); (4, 0); (0, 6); (4, 0); (5, 6); (5, 1); (5, 2); (5, 0); (5, 3)]).
Proof. vm_compute. reflexivity. Qed.

(** A program that drops everything does not get its memory back. *)
Theorem C88_no_leak_refuted : ~ (forall w os p tr, py_run (fun _ => true) ref_noise (py_start w) os = Ret (p, tr) -> p_held p = [] ->
  forall o, object_of p o = None).
Proof. exact leak_witness. Qed.
Print Assumptions C88_no_leak_refuted.
