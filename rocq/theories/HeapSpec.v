(** * HeapSpec: vocabulary for the properties of several detectors sharing one heap *)
From stdpp Require Import gmap.
From Coq Require Import ZArith List Bool.
From Verif Require Import Num XMath Ubend Peaks Brent Estimator Tail P2 Spot Session Heap.
Open Scope Z_scope.

Section HeapSpec.
Context {N : NumOps}.

(** A malloc that never hands out a block that is in use. *)
Definition fresh_malloc (m : option (malloc_fn N)) : Prop :=
  match m with None => True | Some m => forall bytes h a, m bytes h = Some a -> h !! a = None end.

(** Which detectors currently own a window: those initialised with answer 0 and not freed since. *)
Definition live_after (live : Z -> bool) (o : op N) (r : out N) : Z -> bool :=
  match o, r with
  | OInit i _ _ _ _ _, OutCode c => fun j => if (j =? i) && (c =? 0) then true else live j
  | OFree i, _ => fun j => if j =? i then false else live j
  | _, _ => live
  end.
(** Correct use of the API: fit, step, quantile, probability and free on live detectors only, init on
    the others only; the allocators may be changed for fresh ones; ldexp/frexp are not changed. *)
Definition allowed (live : Z -> bool) (o : op N) : Prop :=
  match o with
  | OSetAllocators m _ => fresh_malloc m
  | OSetFloatUtils _ _ => False
  | OInit i _ _ _ _ _ => live i = false
  | OFit i _ | OStep i _ | OQuantile i _ | OProbability i _ | OFree i => live i = true
  end.
Fixpoint correct_use (live : Z -> bool) (ops : list (op N)) (outs : list (out N)) : Prop :=
  match ops, outs with
  | [], [] => True
  | o :: ops, r :: outs => allowed live o /\ correct_use (live_after live o r) ops outs
  | _, _ => False
  end.
Fixpoint live_at_end (live : Z -> bool) (ops : list (op N)) (outs : list (out N)) : Z -> bool :=
  match ops, outs with
  | o :: ops, r :: outs => live_at_end (live_after live o r) ops outs
  | _, _ => live
  end.
Definition none_live : Z -> bool := fun _ => false.

(** The calls made on detector [j], and the answers to them. *)
Definition call_on (j : Z) (o : op N) : option (call N) :=
  match o with
  | OFit i data => if i =? j then Some (CFit data) else None
  | OStep i x => if i =? j then Some (CStep x) else None
  | OQuantile i q => if i =? j then Some (CQuantile q) else None
  | OProbability i z => if i =? j then Some (CProbability z) else None
  | _ => None
  end.
Definition answer_of (r : out N) : answer N :=
  match r with OutCode c => ACode c | OutNum x => ANum x | OutUnit => ACode 0 end.
Fixpoint calls_on (j : Z) (ops : list (op N)) : list (call N) :=
  match ops with
  | [] => []
  | o :: ops => match call_on j o with Some c => c :: calls_on j ops | None => calls_on j ops end
  end.
Fixpoint answers_to (j : Z) (ops : list (op N)) (outs : list (out N)) : list (answer N) :=
  match ops, outs with
  | o :: ops, r :: outs =>
      match call_on j o with Some _ => answer_of r :: answers_to j ops outs | None => answers_to j ops outs end
  | _, _ => []
  end.
(** [o] neither initialises nor frees detector [j] *)
Definition leaves_alone (j : Z) (o : op N) : Prop :=
  match o with OInit i _ _ _ _ _ | OFree i => i <> j | _ => True end.

(** The struct and the window of detector [j], as the next call on [j] finds them. *)
Definition detector_state (w : world N) (j : Z) : spot N := load (w_heap w) (w_inst w j).

End HeapSpec.
