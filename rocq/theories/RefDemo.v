(** * RefDemo: a Python program (examples of C88) *)
From stdpp Require Import gmap.
From Coq Require Import ZArith List Bool Arith.
From Verif Require Import Num XMath Ubend Peaks Brent Estimator Tail P2 Spot B64 Str Heap Spec HeapSpec PyBinding PyRefs RefSpec Demo.
Import ListNotations.
Local Open Scope nat_scope.

(** one block for excesses, everything registered *)
Definition one_block : malloc_fn B64 := fun _ h => if decide (h !! 1%Z = None) then Some 1%Z else None.
Definition ref_world : world B64 := MkWorld ∅ (Some one_block) true musl_utils (fun _ => MkCspot junk (Some 77%Z)) [].
(** x = 1.0; l = [x, x]; i = {x}; s = Spot(2^-7, level = 0.75, max_excess = 4); Spot(2.0) (raises); s.fit(l); s.fit(i); s.step(x);
    k = [l]; s.fit(x) (raises); del k, l, i, x, s *)
Definition ref_program : list pyop :=
  [ OpNew (BFloat (d 1)); OpNew (BList [0; 0]); OpNew (BIter [0]);
    OpSpot (PyFloat (dy 1 7)) None None (Some (PyFloat (dy 3 2))) (Some 4%Z); OpSpot (PyFloat (d 2)) None None None None;
    OpFit 3 1; OpFit 3 2; OpStep 3 0; OpNew (BList [1]); OpFit 3 0;
    OpDrop 6; OpDrop 1; OpDrop 2; OpDrop 0; OpDrop 3 ].
Definition ref_noise : list Z := repeat 7%Z 256.
Definition kind (b : body) : nat :=
  match b with BFloat _ => 0 | BInt _ => 1 | BOpaque => 2 | BList _ => 3 | BTuple _ => 4 | BIter _ => 5 | BSpot => 6 end.
Definition event_code (e : event) : nat * nat :=
  match e with
  | Created o => (0, o) | Constructed o => (1, o) | Failed o => (2, o) | Fitted s => (3, s) | Called => (4, 0) | Dropped o => (5, o) | Skipped => (6, 0)
  end.
(** objects (reference count and kind), references of the program, references of the type, blocks of excesses, events *)
Definition ref_seen (r : res (py * list event)) :=
  match r with
  | Ret (p, tr) => Some (map (Datatypes.option_map (fun x => (ob_count x, kind (ob_body x)))) (p_objects p), p_held p, p_type p, map fst (map_to_list (w_heap (p_world p))), map event_code tr)
  | Undef _ => None
  end.
Definition ref_run (os : list pyop) := py_run (fun _ => true) ref_noise (py_start ref_world) os.

(** x = 1.0; l = [x]; s = Spot(2^-7, level = 0.75, max_excess = 4); s.fit(l); del x, l, s: the list stays *)
Lemma leak_witness : ~ (forall w os p tr, py_run (fun _ => true) ref_noise (py_start w) os = Ret (p, tr) -> p_held p = [] ->
  forall o, object_of p o = None).
Proof.
  intros H. set (os := [OpNew (BFloat (d 1)); OpNew (BList [0]); OpSpot (PyFloat (dy 1 7)) None None (Some (PyFloat (dy 3 2))) (Some 4%Z);
    OpFit 2 1; OpDrop 0; OpDrop 1; OpDrop 2]).
  assert (E : (match ref_run os with Ret (p, _) => match p_held p with [] => match object_of p 1 with Some _ => true | None => false end | _ => false end | Undef _ => false end) = true)
    by (vm_cast_no_check (eq_refl true)).
  destruct (ref_run os) as [[p tr]|] eqn:R; [|discriminate E]. destruct (p_held p) eqn:P; [|discriminate E].
  rewrite (H ref_world os p tr R P 1) in E. discriminate E.
Qed.
