(** * Properties of the Python and JavaScript bindings (C43, C44) *)
From stdpp Require Import gmap.
From Coq Require Import ZArith List Bool String.
From Verif Require Import Num XMath Ubend Session Peaks Brent Estimator Tail P2 Spot B64 Str Heap Spec HeapSpec StrLemmas Demo Props_Heap
  PyBinding Layout JsBinding BindSpec PyLemmas JsLemmas.
Open Scope Z_scope.

(** ** Python (C43) *)
(** fit on a list, or on an iterable that is not a tuple, is spot_fit on the values of its items. Whatever goes wrong
    is seen as a SystemError: the C function returns None together with an exception. *)
Theorem C43_fit_on_list mallocs junk (w : world B64) i data items :
  data = PyList items \/ data = PyIterable items ->
  8 * Z.of_nat (List.length items) < 2 ^ 64 -> (items = [] \/ mallocs (8 * Z.of_nat (List.length items)) = true) ->
  256 <= Z.of_nat (List.length junk) ->
  match w_step w (OFit (N := B64) i (map number_value items)) with
  | Undef x => py_fit mallocs junk w i data = Undef x
  | Ret (w', r) => exists c ret, r = OutCode c /\ py_fit mallocs junk w i data = Ret (w', ret) /\
      interpreter ret = seen_if ((c =? 0) && forallb is_number items) RNone /\
      (c = 0 \/ exists msg, In (c, msg) fit_messages /\ c_error ret = Some (RuntimeError (bytes_of msg)))
  end.
Proof. exact (C43_fit_lemma mallocs junk w i data items). Qed.
Print Assumptions C43_fit_on_list.
(** a tuple, even an empty one, writes outside the buffer, whatever malloc answers *)
Theorem C43_fit_on_tuple_undefined mallocs junk (w : world B64) i items :
  py_fit mallocs junk w i (PyTuple items) = Undef OutOfBounds.
Proof. exact (C43_tuple_lemma mallocs junk w i items). Qed.
Print Assumptions C43_fit_on_tuple_undefined.
Theorem C43_fit_without_memory_undefined mallocs junk (w : world B64) i data items :
  data = PyList items \/ data = PyIterable items -> items <> [] ->
  mallocs (u64 (8 * Z.of_nat (List.length items))) = false -> py_fit mallocs junk w i data = Undef OutOfBounds.
Proof. exact (C43_malloc_lemma mallocs junk w i data items). Qed.
Print Assumptions C43_fit_without_memory_undefined.
Theorem C43_fit_on_non_iterable mallocs junk (w : world B64) i data :
  (forall l, data <> PyList l /\ data <> PyTuple l /\ data <> PyIterable l) ->
  exists ret, py_fit mallocs junk w i data = Ret (w, ret) /\ interpreter ret = Raises TypeError.
Proof. exact (C43_not_iterable_lemma mallocs junk w i data). Qed.
Print Assumptions C43_fit_on_non_iterable.
(** step is spot_step; an argument that is not a number is observed as -1 before the exception is seen *)
Theorem C43_step (w : world B64) i x :
  match w_step w (OStep (N := B64) i (number_value x)) with
  | Undef y => py_step w i x = Undef y
  | Ret (w', r) => exists c ret, r = OutCode c /\ py_step w i x = Ret (w', ret) /\
      interpreter ret = seen_if (is_number x) (RInt c)
  end.
Proof. exact (C43_step_lemma w i x). Qed.
Print Assumptions C43_step.
(** NaN is not an exception: the error code is returned as an ordinary number *)
Theorem C43_step_nan_returns_code (w : world B64) i x : is_NaN x = true ->
  exists w' ret, py_step w i (PyFloat x) = Ret (w', ret) /\ interpreter ret = Returns (RInt (-1005)) /\
    detector_state w' i = detector_state w i.
Proof. exact (C43_nan_lemma w i x). Qed.
Print Assumptions C43_step_nan_returns_code.
Theorem C43_quantile (w : world B64) i x :
  match w_step w (OQuantile (N := B64) i (number_value x)) with
  | Undef y => py_quantile w i x = Undef y
  | Ret (w', r) => exists z ret, w' = w /\ r = OutNum z /\ py_quantile w i x = Ret (w, ret) /\
      interpreter ret = seen_if (is_number x) (RFloat z)
  end.
Proof. exact (C43_quantile_lemma w i x). Qed.
Print Assumptions C43_quantile.
Theorem C43_probability (w : world B64) i x :
  match w_step w (OProbability (N := B64) i (number_value x)) with
  | Undef y => py_probability w i x = Undef y
  | Ret (w', r) => exists z ret, w' = w /\ r = OutNum z /\ py_probability w i x = Ret (w, ret) /\
      interpreter ret = seen_if (is_number x) (RFloat z)
  end.
Proof. exact (C43_probability_lemma w i x). Qed.
Print Assumptions C43_probability.
(** excesses() lists the window in array order; rotated at the cursor it is in order of arrival *)
Theorem C43_excesses (w : world B64) i mf q low discard level cap :
  detector mf q low discard level cap (detector_state w i) ->
  exists l ret, py_excesses w i = Ret ret /\ interpreter ret = Returns (RList l) /\
    map Some l = cells (window (detector_state w i)) /\
    (let k := Z.to_nat (u_cursor (window (detector_state w i))) in
     oldest_first (window (detector_state w i)) = map Some (skipn k l ++ firstn k l)) /\
    exists dict, py_as_dict w i = Ret dict /\ In ("tail.peaks.container.data"%string, DList l) dict.
Proof. exact (C43_excesses_lemma w i mf q low discard level cap). Qed.
Print Assumptions C43_excesses.
(** an object on which __init__ has not run: the first finite observation writes through a null pointer *)
Theorem C43_uninitialised_object (w : world B64) i x : is_finite x = true ->
  py_step (py_new w i) i (PyFloat x) = Undef OutOfBounds.
Proof. exact (C43_uninitialised_lemma w i x). Qed.
Print Assumptions C43_uninitialised_object.
(** the constructor never goes wrong: it is spot_init, or it raises and leaves the heap as it was *)
Theorem C43_constructor junk (w : world B64) i q low discard level cap : 256 <= Z.of_nat (List.length junk) ->
  exists w' ret, py_construct junk w i q low discard level cap = Ret (w', ret) /\
  if args_ok q low discard level then
    exists w1 c, w_step (py_new w i) (init_call i q low discard level cap) = Ret (w1, OutCode c) /\
      ((c = 0 /\ w' = w1 /\ interpreter ret = Returns RNone) \/
       (exists msg, In (c, msg) init_messages /\ interpreter ret = Raises (RuntimeError (bytes_of msg)) /\ w_heap w' = w_heap w))
  else (interpreter ret = Raises TypeError \/ interpreter ret = Raises OverflowError) /\ w_heap w' = w_heap w.
Proof. exact (C43_construct_lemma junk w i q low discard level cap). Qed.
Print Assumptions C43_constructor.

Definition noise : list Z := repeat 7 256.
Definition always : Z -> bool := fun _ => true.
Definition demo_list : pyobj := PyList (map PyFloat demo_batch).
(** 0: None; an int; -1: TypeError, -2: OverflowError, -3: SystemError, -4: RuntimeError *)
Definition py_code (r : creturn) : Z * Z :=
  match interpreter r with
  | Returns RNone => (0, 0) | Returns (RInt z) => (1, z) | Returns (RFloat _) => (2, 0) | Returns (RList l) => (3, Z.of_nat (List.length l))
  | Raises TypeError => (4, 1) | Raises OverflowError => (4, 2) | Raises SystemError => (4, 3)
  | Raises (RuntimeError m) => (5, Z.of_nat (List.length m))
  end.
Definition seen_by (r : res (world B64 * creturn)) : res (Z * Z) := '(_, r) <- r ;; Ret (py_code r).
Definition counts (w : world B64) (i : Z) : Z * Z := (s_n (detector_state w i), s_Nt (detector_state w i)).
(** a detector calibrated from Python *)
Definition py_demo (ks : list (world B64 -> res (Z * Z))) : res (list (res (Z * Z))) :=
  '(w, _) <- py_construct noise world0 1 (PyFloat (dy 1 7)) None None (Some (PyFloat (dy 3 2))) (Some 4) ;;
  '(w, _) <- py_fit always noise w 1 demo_list ;; Ret (map (fun k => k w) ks).
Example C43_example :
  py_demo
    [ (* the list is accepted; a string in it is observed as -1 (20 observations counted) and reported as SystemError *)
      (fun w => seen_by (py_fit always noise w 1 demo_list));
      (fun w => seen_by (py_fit always noise w 1 (PyList (PyOpaque :: map PyFloat demo_batch))));
      (fun w => '(w', _) <- py_fit always noise w 1 (PyList (PyOpaque :: map PyFloat demo_batch)) ;; Ret (counts w' 1));
      (* a calibration on NaN fails *)
      (fun w => seen_by (py_fit always noise w 1 (PyList [PyFloat (c_nan (N := B64))])));
      (* step *)
      (fun w => seen_by (py_step w 1 (PyInt 100)));
      (fun w => seen_by (py_step w 1 PyOpaque));
      (fun w => '(w', _) <- py_step w 1 PyOpaque ;; Ret (counts w' 1));
      (* excesses *)
      (fun w => r <- py_excesses w 1 ;; Ret (py_code r));
      (* an object that was never initialised *)
      (fun w => seen_by (py_step (py_new w 2) 2 (PyInt 0))) ] =
  Ret [ Ret (0, 0); Ret (4, 3); Ret (Z.of_nat (List.length demo_batch) + 1, 6); Ret (4, 3); Ret (1, 2); Ret (4, 3);
        Ret (Z.of_nat (List.length demo_batch) + 1, 6); Ret (3, 4); Undef OutOfBounds ] /\
  (* the constructor *)
  seen_by (py_construct noise world0 1 (PyFloat (d 2)) None None None None) = Ret (5, 42) /\
  seen_by (py_construct noise world0 1 PyOpaque None None None None) = Ret (4, 1) /\
  seen_by (py_construct noise world0 1 (PyFloat (dy 1 7)) (Some (2 ^ 31)) None None None) = Ret (4, 2).
Proof. vm_compute. repeat split. Qed.

(** ** JavaScript (C44) *)
(** the struct in the wasm32 memory: its size and the places of its members *)
Theorem C44_layout :
  size_of wasm32 c_Spot = 128 /\
  map (fun f => match locate wasm32 0 c_Spot f with Some (o, _) => o | None => -1 end)
    [["q"]; ["level"]; ["discard_anomalies"]; ["low"]; ["__up_down"]; ["anomaly_threshold"]; ["excess_threshold"]; ["Nt"]; ["n"];
     ["tail"; "gamma"]; ["tail"; "sigma"]; ["tail"; "peaks"; "e"]; ["tail"; "peaks"; "e2"]; ["tail"; "peaks"; "min"]; ["tail"; "peaks"; "max"];
     ["tail"; "peaks"; "container"; "cursor"]; ["tail"; "peaks"; "container"; "capacity"];
     ["tail"; "peaks"; "container"; "last_erased_data"]; ["tail"; "peaks"; "container"; "filled"]; ["tail"; "peaks"; "container"; "data"]]%string =
  [0; 8; 16; 20; 24; 32; 40; 48; 52; 56; 64; 72; 80; 88; 96; 104; 108; 112; 120; 124].
Proof. exact (conj eq_refl eq_refl). Qed.
Print Assumptions C44_layout.
(** the getters return the two thresholds, bit for bit *)
Theorem C44_getters_read_the_thresholds m ptr (s : spot B64) a : stored wasm32 m ptr s a ->
  js_anomaly_threshold m ptr = s_at s /\ js_excess_threshold m ptr = s_et s.
Proof. exact (C44_thresholds_lemma m ptr s a). Qed.
Print Assumptions C44_getters_read_the_thresholds.
(* every detector has an image in memory *)
Example C44_stored_example ptr s a : stored wasm32 (image ptr s a) ptr s a.
Proof. exact (image_stored ptr s a). Qed.
(** step throws on NaN, with an empty message, and only then *)
Theorem C44_step (w : world B64) i x :
  match w_step w (OStep (N := B64) i x) with
  | Undef y => js_step w i x = Undef y
  | Ret (w', r) =>
      if is_NaN x then js_step w i x = Ret (w', JsThrows []) /\ detector_state w' i = detector_state w i
      else exists c, r = OutCode c /\ (c = 0 \/ c = 1 \/ c = 2) /\ js_step w i x = Ret (w', JsReturns c)
  end.
Proof. exact (C44_step_lemma w i x). Qed.
Print Assumptions C44_step.
(** fit on an array that is its whole buffer is spot_fit; when it throws, the input buffer is not released *)
Theorem C44_fit (w : world B64) bufs i buf a : fa_wf a -> fa_length a = Z.of_nat (List.length (fa_buffer a)) ->
  match w_step w (OFit (N := B64) i (fa_buffer a)) with
  | Undef y => js_fit w bufs i buf a = Undef y
  | Ret (w', r) => exists c, r = OutCode c /\
      ((c = 0 /\ js_fit w bufs i buf a = Ret (w', bufs, JsReturns 0)) \/
       (exists msg, In (c, msg) fit_messages /\ js_fit w bufs i buf a = Ret (w', buf :: bufs, JsThrows (bytes_of msg))))
  end.
Proof. exact (C44_fit_lemma w bufs i buf a). Qed.
Print Assumptions C44_fit.
(** fit on any other view of a buffer writes past the block allocated for it *)
Theorem C44_fit_on_view_undefined (w : world B64) bufs i buf a : fa_wf a -> fa_length a <> Z.of_nat (List.length (fa_buffer a)) ->
  js_fit w bufs i buf a = Undef OutOfBounds.
Proof. exact (C44_view_lemma w bufs i buf a). Qed.
Print Assumptions C44_fit_on_view_undefined.
Theorem C44_constructor (w : world B64) i q low discard level cap :
  exists w' c, w_step w (OInit (N := B64) i q low discard level cap) = Ret (w', OutCode c) /\
    ((c = 0 /\ js_new w i q low discard level cap = Ret (w', JsReturns tt)) \/
     (exists msg, In (c, msg) init_messages /\ js_new w i q low discard level cap = Ret (w', JsThrows (bytes_of msg)))).
Proof. exact (C44_new_lemma w i q low discard level cap). Qed.
Print Assumptions C44_constructor.
(** the finaliser of an object whose parameters were rejected frees whatever address the struct held before *)
Theorem C44_rejected_object_finaliser (w : world B64) i q low discard level cap w1 msg a :
  js_new w i q low discard level cap = Ret (w1, JsThrows msg) -> msg <> bytes_of "Memory allocation failed" -> w_free w = true ->
  w1 = w /\
  (cs_data (w_inst w i) = Some a -> w_heap w !! a = None -> js_collect w1 i = Undef BadFree) /\
  (cs_data (w_inst w i) = Some a -> is_Some (w_heap w !! a) ->
     exists w2, js_collect w1 i = Ret w2 /\ w_heap w2 = delete a (w_heap w)).
Proof. exact (C44_rejected_lemma w i q low discard level cap w1 msg a). Qed.
Print Assumptions C44_rejected_object_finaliser.
Theorem C44_version junk : List.length junk = 24%nat -> js_version junk = Ret (bytes_of "2.0b2").
Proof. exact (C44_version_lemma junk). Qed.
Print Assumptions C44_version.

Definition js_code {A} (f : A -> Z) (r : js A) : Z * Z := match r with JsReturns a => (0, f a) | JsThrows m => (1, Z.of_nat (List.length m)) end.
Definition js_demo (ks : list (world B64 -> res (Z * Z))) : res (list (res (Z * Z))) :=
  '(w, _) <- js_new world0 1 (dy 1 7) 0 1 (dy 3 2) 4 ;;
  '(w, _, _) <- js_fit w [] 1 1000 (MkArray demo_batch 0 (Z.of_nat (List.length demo_batch))) ;; Ret (map (fun k => k w) ks).
Example C44_example :
  js_demo
    [ (fun w => '(_, r) <- js_step w 1 (d 100) ;; Ret (js_code id r));
      (fun w => '(_, r) <- js_step w 1 (c_nan (N := B64)) ;; Ret (js_code id r));
      (fun w => '(_, bufs, r) <- js_fit w [] 1 1000 (MkArray [c_nan (N := B64)] 0 1) ;; Ret (Z.of_nat (List.length bufs), fst (js_code id r)));
      (fun w => '(_, bufs, r) <- js_fit w [] 1 1000 (MkArray demo_batch 2 8) ;; Ret (Z.of_nat (List.length bufs), fst (js_code id r)));
      (* an object is collected, then one with a wrong level is constructed at the same address, and collected *)
      (fun w => w <- js_collect w 1 ;; '(w, r) <- js_new w 1 (dy 1 7) 0 1 (d 1) 4 ;; Ret (js_code (fun _ => 0) r));
      (fun w => w <- js_collect w 1 ;; '(w, r) <- js_new w 1 (dy 1 7) 0 1 (d 1) 4 ;; w <- js_collect w 1 ;; Ret (0, 0));
      (* the same with another object constructed in between: that one loses its window *)
      (fun w => w <- js_collect w 1 ;; '(w, _) <- js_new w 2 (dy 1 7) 0 1 (dy 3 2) 4 ;; '(w, r) <- js_new w 1 (dy 1 7) 0 1 (d 1) 4 ;;
      w <- js_collect w 1 ;; '(_, _, _) <- js_fit w [] 2 1000 (MkArray demo_batch 0 (Z.of_nat (List.length demo_batch))) ;; Ret (0, 0)) ] =
  Ret [Ret (0, 2); Ret (1, 0); Ret (1, 1); Undef OutOfBounds; Ret (1, 81); Undef BadFree; Undef OutOfBounds].
Proof. vm_compute. reflexivity. Qed.
