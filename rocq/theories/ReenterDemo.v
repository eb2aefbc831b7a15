(** * ReenterDemo: Python programs with hooks (examples of C89) *)
From stdpp Require Import gmap.
From Coq Require Import ZArith List Bool.
From Verif Require Import Num XMath Ubend Peaks Brent Estimator Tail P2 Spot B64 Str Heap Spec HeapSpec PyBinding BindSpec PyReenter RefDemo Demo.
Import ListNotations.

Definition seen_code (s : seen) : Z :=
  match s with Returns RNone => 0 | Returns (RInt z) => 10 + z | Returns _ => 20 | Raises TypeError => -1 | Raises OverflowError => -2 | Raises SystemError => -3 | Raises (RuntimeError _) => -4 end.
Definition obj_code (v : pyobj) : Z := match v with PyInt z => z | PyOpaque => -99 | _ => 77 end.
Definition call_code (c : plain_call) : Z * list Z :=
  match c with
  | CNew i => (0, [i]) | CInit i _ _ _ _ _ => (1, [i]) | CFree i => (2, [i]) | CFit i l => (3, i :: map obj_code l)
  | CStep i x => (4, [i; obj_code x]) | CQuantile i x => (5, [i; obj_code x]) | CProbability i x => (6, [i; obj_code x])
  end%Z.
(** the log, the observations counted by the detector 1, the result of the program *)
Definition ran (r : res (env * pyobj * list plain_call)) :=
  match r with
  | Ret (e, v, t) => Some (map call_code t, s_n (detector_state (e_world e) 1), obj_code v)
  | Undef _ => None
  end.
Definition reenter_run (p : prog) := execute (fun _ => true) ref_noise 3 (MkEnv ref_world (fun _ => [])) p.
Definition int (z : Z) : item := Plain (PyInt z).
Definition spot1 (k : prog) : prog :=
  New 1 (Init 1 (Plain (PyFloat (dy 1 7))) None None (Some (Plain (PyFloat (dy 3 2)))) (Some 4%Z) (fun _ => k)).
(** s = Spot(...); l = [3, c, 5, 6, 7] where float(c) empties l, steps s on 8, and is 4; s.fit(l); s.step(9) *)
Definition clearing : prog :=
  spot1 (SetList 0 [int 3; Hook (SetList 0 [] (Step 1 (int 8) (fun _ => Done (PyInt 4)))); int 5; int 6; int 7]
    (Fit 1 0 (fun s => Step 1 (int 9) (fun _ => Done (PyInt (seen_code s)))))).
(** float(c) calls s.step(c): the recursion ends at the limit of the interpreter, then the observations are made from inside out *)
Fixpoint nested (n : nat) : item := match n with O => int 2 | S n => Hook (Step 1 (nested n) (fun s => Done (PyInt (seen_code s)))) end.
Definition recursion : prog := spot1 (Step 1 (nested 5) (fun s => Done (PyInt (seen_code s)))).

(** the object is a number / its conversion gives a number, whatever happens around it *)
Definition is_number (v : pyobj) : bool := match v with PyFloat _ | PyInt _ => true | _ => false end.
Definition numeric (mallocs : Z -> bool) (junk : list Z) (x : item) : Prop :=
  forall depth e e' v log, convert mallocs junk (S depth) e x = Ret (e', v, log) -> is_number v = true.
Definition cleared : env := MkEnv ref_world (fun _ => [Hook (SetList 0 [] (Done (PyInt 4))); int 5]).
Lemma cleared_witness : ~ (forall depth e i l k e' v log data, execute (fun _ => true) ref_noise (S depth) e (Fit i l k) = Ret (e', v, log) ->
  (forall x, In x (e_lists e l) -> numeric (fun _ => true) ref_noise x) -> In (CFit i data) log -> forallb is_number data = true).
Proof.
  intros H. set (p := Fit 1 0 (fun _ => Done PyOpaque)).
  assert (E : (match execute (fun _ => true) ref_noise 1 (with_world cleared (match reenter_run (spot1 (Done PyOpaque)) with Ret (e, _, _) => e_world e | Undef _ => ref_world end)) p with
               | Ret (_, _, log) => existsb (fun c => match c with CFit i data => (i =? 1)%Z && negb (forallb is_number data) | _ => false end) log
               | Undef _ => false end) = true) by (vm_cast_no_check (eq_refl true)).
  set (e := with_world cleared _) in E. assert (L : e_lists e = e_lists cleared) by reflexivity. clearbody e.
  destruct (execute _ _ 1 e p) as [[[e' v] log]|] eqn:R; [|discriminate E].
  apply existsb_exists in E as (c & I & E). destruct c as [| | |i data| | |]; try discriminate E. apply andb_prop in E as [Ei E]. apply Z.eqb_eq in Ei. subst i.
  rewrite (H O e 1%Z O _ e' v log data R) in E; [discriminate E| |exact I].
  rewrite L. intros x [<-|[<-|[]]] depth e0 e1 v0 log0 C; cbn in C; inversion C; reflexivity.
Qed.
