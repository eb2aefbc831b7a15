(** * ReenterLemmas: proofs for C89 *)
From stdpp Require Import gmap.
From Coq Require Import ZArith List Bool Arith Lia.
From Verif Require Import Num XMath Ubend Peaks Brent Estimator Tail P2 Spot B64 Str Heap PyBinding PyReenter.
Import ListNotations.
Local Open Scope nat_scope.

Section R.
Variables (mallocs : Z -> bool) (junk : list Z).
Notation calls := (calls mallocs junk).
Notation do_call := (do_call mallocs junk).

Definition post {A} (e : env) (r : res (env * A * list plain_call)) : Prop :=
  match r with
  | Ret (e', _, t) => calls (e_world e) t = Ret (e_world e')
  | Undef y => exists t, calls (e_world e) t = Undef y
  end.
Lemma calls_app t1 : forall w t2, calls w (t1 ++ t2) = bind (calls w t1) (fun w => calls w t2).
Proof.
  induction t1 as [|c t1 IH]; intros w t2; cbn [app PyReenter.calls bind]; [reflexivity|].
  destruct (do_call w c) as [[w1 s]|]; cbn [bind]; [apply IH|reflexivity].
Qed.
Lemma post_bind {A B} (e : env) (m : res (env * A * list plain_call)) (k : env -> A -> list plain_call -> res (env * B * list plain_call)) :
  post e m ->
  (forall e1 a t, calls (e_world e) t = Ret (e_world e1) -> post e (k e1 a t)) ->
  post e ('(e1, a, t) <- m ;; k e1 a t).
Proof. intros M K. destruct m as [[[e1 a] t]|y]; cbn [bind]; [apply K; exact M|exact M]. Qed.
Lemma post_after {A} e e1 t (m : res (env * A * list plain_call)) :
  calls (e_world e) t = Ret (e_world e1) -> post e1 m -> post e ('(e2, a, t2) <- m ;; Ret (e2, a, t ++ t2)).
Proof.
  intros C M. destruct m as [[[e2 a] t2]|y]; cbn [bind post] in *.
  - rewrite calls_app, C. exact M.
  - destruct M as (t2 & M). exists (t ++ t2). rewrite calls_app, C. exact M.
Qed.
Lemma post_call e e1 t c (k : env -> seen -> res (env * pyobj * list plain_call)) :
  calls (e_world e) t = Ret (e_world e1) -> (forall e2 s, post e2 (k e2 s)) ->
  post e ('(w, s) <- do_call (e_world e1) c ;; '(e2, v, t') <- k (with_world e1 w) s ;; Ret (e2, v, t ++ c :: t')).
Proof.
  intros C K. destruct (do_call (e_world e1) c) as [[w s]|y] eqn:D; cbn [bind].
  - assert (C1 : calls (e_world e) (t ++ [c]) = Ret (e_world (with_world e1 w))). { rewrite calls_app, C. cbn [bind PyReenter.calls]. rewrite D. reflexivity. }
    specialize (K (with_world e1 w) s). destruct (k (with_world e1 w) s) as [[[e2 v] t2]|y]; cbn [bind post] in *.
    + change (c :: t2) with ([c] ++ t2). rewrite app_assoc, calls_app, C1. exact K.
    + destruct K as (t2 & K). exists ((t ++ [c]) ++ t2). rewrite calls_app, C1. exact K.
  - cbn [post]. exists (t ++ [c]). rewrite calls_app, C. cbn [bind PyReenter.calls]. rewrite D. reflexivity.
Qed.

Section D.
Variable conv : env -> item -> res (env * pyobj * list plain_call).
Hypothesis convH : forall e x, post e (conv e x).
Lemma collect_post l n : forall e k, post e (collect conv e l n k).
Proof.
  induction n as [|n IH]; intros e k; cbn [collect]; [reflexivity|]. apply post_bind.
  - destruct (nth_error _ _); [apply convH|reflexivity].
  - intros e1 a t C. specialize (IH e1 (S k)). destruct (collect conv e1 l n (S k)) as [[[e2 vs] t2]|y]; cbn [bind post] in *.
    + rewrite calls_app, C. exact IH.
    + destruct IH as (t2 & M). exists (t ++ t2). rewrite calls_app, C. exact M.
Qed.
Lemma run_post : forall p e, post e (run mallocs junk conv e p).
Proof.
  induction p as [r|i k IH|i q low discard level cap k IH|i k IH|i l k IH|i x k IH|i x k IH|i x k IH|l its k IH]; intros e; cbn [run].
  - reflexivity.
  - apply (post_call e e [] (CNew i) (fun e _ => run mallocs junk conv e k)); [reflexivity|]. intros. apply IH.
  - apply post_bind; [apply convH|]. intros e1 a t C.
    assert (O : post e1 (if parses a low discard then optional conv e1 level else Ret (e1, None, []))).
    { destruct (parses a low discard); [|reflexivity]. destruct level as [x|]; cbn [optional]; [|reflexivity]. specialize (convH e1 x).
      destruct (conv e1 x) as [[[e2 v] t2]|y]; cbn [bind post] in *; exact convH. }
    destruct (if parses a low discard then optional conv e1 level else Ret (e1, None, [])) as [[[e2 lv] t2]|y]; cbn [bind post] in *.
    + apply (post_call e e2 (t ++ t2) (CInit i a low discard lv cap) (fun e s => run mallocs junk conv e (k s))); [|intros; apply IH]. rewrite calls_app, C. exact O.
    + destruct O as (t2 & O). exists (t ++ t2). rewrite calls_app, C. exact O.
  - apply (post_call e e [] (CFree i) (fun e _ => run mallocs junk conv e k)); [reflexivity|]. intros. apply IH.
  - apply post_bind; [apply collect_post|]. intros e1 a t C. apply (post_call e e1 t (CFit i a) (fun e s => run mallocs junk conv e (k s))); [exact C|]. intros. apply IH.
  - apply post_bind; [apply convH|]. intros e1 a t C. apply (post_call e e1 t (CStep i a) (fun e s => run mallocs junk conv e (k s))); [exact C|]. intros. apply IH.
  - apply post_bind; [apply convH|]. intros e1 a t C. apply (post_call e e1 t (CQuantile i a) (fun e s => run mallocs junk conv e (k s))); [exact C|]. intros. apply IH.
  - apply post_bind; [apply convH|]. intros e1 a t C. apply (post_call e e1 t (CProbability i a) (fun e s => run mallocs junk conv e (k s))); [exact C|]. intros. apply IH.
  - apply (IH (with_list e l its)).
Qed.
Lemma collect_length l n : forall e k e' vs t, collect conv e l n k = Ret (e', vs, t) -> length vs = n.
Proof.
  induction n as [|n IH]; intros e k e' vs t C; cbn [collect] in C; [inversion C; reflexivity|].
  destruct (match nth_error (e_lists e l) k with Some x => conv e x | None => Ret (e, PyOpaque, []) end) as [[[e1 v] t1]|]; cbn [bind] in C; [|discriminate C].
  destruct (collect conv e1 l n (S k)) as [[[e2 vs'] t2]|] eqn:E; cbn [bind] in C; [|discriminate C]. inversion C; subst. cbn [length]. f_equal. exact (IH _ _ _ _ _ E).
Qed.
End D.
Lemma convert_post d : forall e x, post e (convert mallocs junk d e x).
Proof.
  induction d as [|d IH]; intros e [v|p]; cbn [convert]; try reflexivity. apply run_post. exact IH.
Qed.
Lemma execute_post d e p : post e (execute mallocs junk d e p).
Proof. apply run_post. apply convert_post. Qed.

(** ** Forms used in Props_Reenter.v *)
Lemma sequential d e p e' v log : execute mallocs junk d e p = Ret (e', v, log) -> calls (e_world e) log = Ret (e_world e').
Proof. intros R. pose proof (execute_post d e p) as P. rewrite R in P. exact P. Qed.
Lemma no_new_ub d e p y : execute mallocs junk d e p = Undef y -> exists log, calls (e_world e) log = Undef y.
Proof. intros R. pose proof (execute_post d e p) as P. rewrite R in P. exact P. Qed.
Lemma batch_size d e i l k e' v log : execute mallocs junk d e (Fit i l k) = Ret (e', v, log) ->
  exists before data after, log = before ++ CFit i data :: after /\ length data = length (e_lists e l).
Proof.
  unfold execute. cbn [run]. intros R. destruct (collect _ e l (length (e_lists e l)) 0) as [[[e1 data] t]|] eqn:C; cbn [bind] in R; [|discriminate R].
  destruct (do_call (e_world e1) (CFit i data)) as [[w s]|]; cbn [bind] in R; [|discriminate R].
  destruct (run _ _ _ _ (k s)) as [[[e2 v2] t2]|]; cbn [bind] in R; [|discriminate R]. inversion R; subst.
  exists t, data, t2. split; [reflexivity|]. exact (collect_length _ _ _ _ _ _ _ _ C).
Qed.
End R.

(** ** Plain arguments *)
Lemma bind_assoc {A B C} (m : res A) (f : A -> res B) (g : B -> res C) : bind (bind m f) g = bind m (fun x => bind (f x) g).
Proof. destruct m; reflexivity. Qed.
Lemma collect_plain conv (C : forall e v, conv e (Plain v) = Ret (e, v, [])) l data n : forall e pre, e_lists e l = pre ++ map Plain data -> n = length pre ->
  collect conv e l (length data) n = Ret (e, data, []).
Proof.
  revert n. induction data as [|v data IH]; intros n e pre E L; [reflexivity|]. cbn [length collect].
  assert (nth_error (e_lists e l) n = Some (Plain v)) as ->.
  { rewrite E, L, nth_error_app2 by apply le_n. rewrite PeanoNat.Nat.sub_diag. reflexivity. }
  rewrite C. cbn [bind]. rewrite (IH (S n) e (pre ++ [Plain v])).
  - reflexivity.
  - rewrite E, <- app_assoc. reflexivity.
  - rewrite app_length, L. cbn [length]. symmetry. apply PeanoNat.Nat.add_1_r.
Qed.
Lemma plain_calls mallocs junk depth (e : env) i :
  (forall l data k, e_lists e l = map Plain data -> execute mallocs junk depth e (Fit i l k) =
    ('(w, r) <- py_fit mallocs junk (e_world e) i (PyList data) ;; '(e', v, t) <- execute mallocs junk depth (with_world e w) (k (interpreter r)) ;; Ret (e', v, CFit i data :: t))) /\
  (forall x k, execute mallocs junk depth e (Step i (Plain x) k) =
    ('(w, r) <- py_step (e_world e) i x ;; '(e', v, t) <- execute mallocs junk depth (with_world e w) (k (interpreter r)) ;; Ret (e', v, CStep i x :: t))) /\
  (forall x k, execute mallocs junk depth e (Quantile i (Plain x) k) =
    ('(w, r) <- py_quantile (e_world e) i x ;; '(e', v, t) <- execute mallocs junk depth (with_world e w) (k (interpreter r)) ;; Ret (e', v, CQuantile i x :: t))) /\
  (forall x k, execute mallocs junk depth e (Probability i (Plain x) k) =
    ('(w, r) <- py_probability (e_world e) i x ;; '(e', v, t) <- execute mallocs junk depth (with_world e w) (k (interpreter r)) ;; Ret (e', v, CProbability i x :: t))) /\
  (forall q low discard level cap k, level = None \/ parses q low discard = true -> execute mallocs junk depth e (Init i (Plain q) low discard (option_map Plain level) cap k) =
    ('(w, r) <- py_init junk (e_world e) i q low discard level cap ;; '(e', v, t) <- execute mallocs junk depth (with_world e w) (k (interpreter r)) ;; Ret (e', v, CInit i q low discard level cap :: t))) /\
  (forall k, execute mallocs junk depth e (New i k) =
    ('(e', v, t) <- execute mallocs junk depth (with_world e (py_new (e_world e) i)) k ;; Ret (e', v, CNew i :: t))) /\
  (forall k, execute mallocs junk depth e (Free i k) =
    ('(w, _) <- w_step (e_world e) (OFree i) ;; '(e', v, t) <- execute mallocs junk depth (with_world e w) k ;; Ret (e', v, CFree i :: t))).
Proof.
  assert (C : forall d e v, convert mallocs junk d e (Plain v) = Ret (e, v, [])) by (intros []; reflexivity).
  repeat split.
  - intros l data k L. unfold execute. cbn [run]. rewrite L at 1. rewrite map_length.
    rewrite (collect_plain _ (C depth) l data 0 e [] L eq_refl). cbn [bind do_call]. rewrite bind_assoc. destruct (py_fit _ _ _ _ _) as [[w r]|]; reflexivity.
  - intros x k. unfold execute. cbn [run]. rewrite C. cbn [bind do_call]. rewrite bind_assoc. destruct (py_step _ _ _) as [[w r]|]; reflexivity.
  - intros x k. unfold execute. cbn [run]. rewrite C. cbn [bind do_call]. rewrite bind_assoc. destruct (py_quantile _ _ _) as [[w r]|]; reflexivity.
  - intros x k. unfold execute. cbn [run]. rewrite C. cbn [bind do_call]. rewrite bind_assoc. destruct (py_probability _ _ _) as [[w r]|]; reflexivity.
  - intros q low discard level cap k L. unfold execute. cbn [run]. rewrite C. cbn [bind].
    assert ((if parses q low discard then optional (convert mallocs junk depth) e (option_map Plain level) else Ret (e, None, [])) = Ret (e, level, [])) as ->.
    { destruct level as [v|]; cbn [option_map optional]; [destruct L as [L| ->]; [discriminate L|]; rewrite C; reflexivity|destruct (parses _ _ _); reflexivity]. }
    cbn [bind do_call app]. rewrite bind_assoc. destruct (py_init _ _ _ _ _ _ _ _) as [[w r]|]; reflexivity.
  - intros k. unfold execute. cbn [run]. cbn [do_call]. rewrite bind_assoc. destruct (w_step _ _) as [[w r]|]; reflexivity.
Qed.
