(** * Python code that runs inside a call of the binding (C89) *)
From Coq Require Import ZArith List Bool.
From Verif Require Import Num XMath B64 Heap PyBinding PyReenter ReenterLemmas ReenterDemo RefDemo.
Import ListNotations.

(** A Python program whose objects call the binding from [__float__] leaves the detectors in the state in which the same calls,
    one after the other in the order of their completion, leave them: no call sees or makes a half-updated detector. *)
Theorem C89_sequential mallocs junk depth e p e' v log : execute mallocs junk depth e p = Ret (e', v, log) ->
  calls mallocs junk (e_world e) log = Ret (e_world e').
Proof. exact (sequential mallocs junk depth e p e' v log). Qed.
Print Assumptions C89_sequential.

(** With plain arguments every call is the function of the binding (PyBinding.v) on the current detectors. *)
Theorem C89_plain_arguments mallocs junk depth (e : env) i :
  (forall l data k, e_lists e l = map Plain data -> execute mallocs junk depth e (Fit i l k) =
    ('(w, r) <- py_fit mallocs junk (e_world e) i (PyList data) ;; '(e', v, t) <- execute mallocs junk depth (with_world e w) (k (interpreter r)) ;; Ret (e', v, CFit i data :: t))) /\
  (forall x k, execute mallocs junk depth e (Step i (Plain x) k) =
    ('(w, r) <- py_step (e_world e) i x ;; '(e', v, t) <- execute mallocs junk depth (with_world e w) (k (interpreter r)) ;; Ret (e', v, CStep i x :: t))) /\
  (forall x k, execute mallocs junk depth e (Quantile i (Plain x) k) =
    ('(w, r) <- py_quantile (e_world e) i x ;; '(e', v, t) <- execute mallocs junk depth (with_world e w) (k (interpreter r)) ;; Ret (e', v, CQuantile i x :: t))) /\
  (forall x k, execute mallocs junk depth e (Probability i (Plain x) k) =
    ('(w, r) <- py_probability (e_world e) i x ;; '(e', v, t) <- execute mallocs junk depth (with_world e w) (k (interpreter r)) ;; Ret (e', v, CProbability i x :: t))) /\
  (forall q low discard level cap k, level = None \/ parses q low discard = true -> execute mallocs junk depth e (Init i (Plain q) low discard (option_map Plain level) cap k) =
    ('(w, r) <- py_init junk (e_world e) i q low discard level cap ;; '(e', v, t) <- execute mallocs junk depth (with_world e w) (k (interpreter r)) ;; Ret (e', v, CInit i q low discard level cap :: t))) /\
  (forall k, execute mallocs junk depth e (New i k) =
    ('(e', v, t) <- execute mallocs junk depth (with_world e (py_new (e_world e) i)) k ;; Ret (e', v, CNew i :: t))) /\
  (forall k, execute mallocs junk depth e (Free i k) =
    ('(w, _) <- w_step (e_world e) (OFree i) ;; '(e', v, t) <- execute mallocs junk depth (with_world e w) k ;; Ret (e', v, CFree i :: t))).
Proof. exact (plain_calls mallocs junk depth e i). Qed.
Print Assumptions C89_plain_arguments.

(** s = Spot(...); l = [1, 2, 3, 4, 5]; s.fit(l); s.step(9): the log, the number of observations, what step returns; the same
    from the functions of the binding *)
Definition plain_session : prog :=
  spot1 (SetList 0 (map int [1; 2; 3; 4; 5]%Z) (Fit 1 0 (fun _ => Step 1 (int 9) (fun _ => Done (PyInt 0))))).
Example C89_plain_arguments_example :
  ran (reenter_run plain_session) = Some ([(0, [1]); (1, [1]); (3, [1; 1; 2; 3; 4; 5]); (4, [1; 9])], 5, 0)%Z /\
  e_lists (with_list (MkEnv ref_world (fun _ => [])) 0 (map int [1; 2; 3; 4; 5]%Z)) 0%nat = map Plain (map PyInt [1; 2; 3; 4; 5]%Z).
Proof. vm_compute. split; reflexivity. Qed.

(** Undefined behaviour, if any, is that of a program without such objects. *)
Theorem C89_no_new_undefined_behaviour mallocs junk depth e p why : execute mallocs junk depth e p = Undef why ->
  exists log, calls mallocs junk (e_world e) log = Undef why.
Proof. exact (no_new_ub mallocs junk depth e p why). Qed.
Print Assumptions C89_no_new_undefined_behaviour.

(** The size of the batch is that of the list when fit is called, whatever happens to the list. *)
Theorem C89_batch_size mallocs junk depth e i l k e' v log : execute mallocs junk depth e (Fit i l k) = Ret (e', v, log) ->
  exists before data after, log = before ++ CFit i data :: after /\ length data = length (e_lists e l).
Proof. exact (batch_size mallocs junk depth e i l k e' v log). Qed.
Print Assumptions C89_batch_size.

(** A list of five is emptied by its second item: the detector is calibrated on 3, 4 and three times -1 (-99 stands for an
    object without a value, observed as -1), and fit raises SystemError. Then: a conversion that calls step on itself, five deep
    with a limit of three; the observations are made from the inside out. *)
Example C89_example :
  ran (reenter_run clearing) = Some ([(0, [1]); (1, [1]); (4, [1; 8]); (3, [1; 3; 4; -99; -99; -99]); (4, [1; 9])], 6, -3)%Z /\
  ran (reenter_run recursion) = Some ([(0, [1]); (1, [1]); (4, [1; -99]); (4, [1; -3]); (4, [1; 10]); (4, [1; 10])], 4, 10)%Z.
Proof. vm_compute. split; reflexivity. Qed.

(** A list of objects that all convert to numbers may be calibrated on as if it contained something else. *)
Theorem C89_batch_is_the_list_refuted :
  ~ (forall depth e i l k e' v log data, execute (fun _ => true) ref_noise (S depth) e (Fit i l k) = Ret (e', v, log) ->
     (forall x, In x (e_lists e l) -> numeric (fun _ => true) ref_noise x) -> In (CFit i data) log -> forallb is_number data = true).
Proof. exact cleared_witness. Qed.
Print Assumptions C89_batch_is_the_list_refuted.
