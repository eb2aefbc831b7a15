(** * Properties of the Python members, of raw() and of spot_size (C58) *)
From stdpp Require Import gmap.
From Coq Require Import ZArith List Bool String.
From Verif Require Import Num XMath Ubend Peaks Brent Estimator Tail P2 Spot B64 Session Spec Heap HeapSpec Demo Layout JsBinding PyBinding
  PyMembers MemberSpec PyMembersLemmas Props_Heap Props_Bindings.
Open Scope Z_scope.

(** the attributes are the members of the struct, bit for bit; counters modulo 2^64; there is no other data attribute *)
Theorem C58_members m obj (s : spot B64) a : stored lp64 m (obj + 16) s a ->
  (forall name v, In (name, v) (member_values s) -> py_getattr m obj name = Some v) /\
  (forall name, ~ In name (map fst (member_values s)) -> py_getattr m obj name = None).
Proof. exact (fun H => conj (members_lemma m obj s a H) (fun name => members_only m obj name)). Qed.
Print Assumptions C58_members.
(** and they agree with as_dict() *)
Theorem C58_members_agree_with_dict m obj (w : world B64) i a dict : stored lp64 m (obj + 16) (detector_state w i) a ->
  0 <= s_Nt (detector_state w i) < 2 ^ 64 -> 0 <= s_n (detector_state w i) < 2 ^ 64 -> py_as_dict w i = Ret dict ->
  forall name key, In (name, key) same_member -> exists v, py_getattr m obj name = Some v /\ In (key, v) dict.
Proof. exact (dict_lemma m obj w i a dict). Qed.
Print Assumptions C58_members_agree_with_dict.
(** raw() has 152 bytes; every member can be read in it *)
Theorem C58_raw m obj (s : spot B64) a : stored lp64 m (obj + 16) s a ->
  List.length (py_raw m obj) = 152%nat /\
  forall path v, In (path, v) (spot_fields s a) ->
    exists o t, locate lp64 0 c_Spot path = Some (o, t) /\
      firstn (List.length (repr lp64 v)) (skipn (Z.to_nat o) (py_raw m obj)) = repr lp64 v.
Proof. exact (fun H => conj (raw_length m obj) (raw_lemma m obj s a H)). Qed.
Print Assumptions C58_raw.
(** but the excesses are not in it: the same bytes are those of a detector with any other content of its window *)
Theorem C58_raw_without_excesses m obj (s : spot B64) a d : stored lp64 m (obj + 16) s a ->
  stored lp64 m (obj + 16) (with_cells s d) a.
Proof. exact (raw_no_window m (obj + 16) s a d). Qed.
Print Assumptions C58_raw_without_excesses.
(** the number of bytes allocated by spot_new and announced by spot_size, and the offsets compiled in the member table *)
Theorem C58_sizes :
  js_spot_size = 128 /\ size_of lp64 c_Spot = 152 /\ size_of lp64 c_PySpot = 168 /\
  map (fun e => match locate lp64 0 c_PySpot (snd (snd e)) with Some (o, _) => o | None => -1 end) Spot_members =
  [16; 24; 48; 56; 64; 72; 80; 88].
Proof. exact (conj eq_refl (conj eq_refl (conj eq_refl eq_refl))). Qed.
Print Assumptions C58_sizes.

(* every detector has an image in memory *)
Example C58_stored_example obj s a : stored lp64 (py_image obj s a) (obj + 16) s a.
Proof. exact (py_image_stored obj s a). Qed.
(* the attributes of a calibrated detector: Nt = 6, n = 19 *)
Example C58_example :
  py_demo
    [ (fun w =>
       match py_getattr (py_image 5000 (detector_state w 1) 70000) 5000 "Nt"%string, py_getattr (py_image 5000 (detector_state w 1) 70000) 5000 "n"%string with
       | Some (DInt a), Some (DInt b) => Ret (a, b) | _, _ => Undef Diverge end);
      (fun w => Ret (Z.of_nat (List.length (py_raw (py_image 5000 (detector_state w 1) 70000) 5000)),
                     nth 144 (py_raw (py_image 5000 (detector_state w 1) 70000) 5000) 0)) ] =
  Ret [ Ret (6, Z.of_nat (List.length demo_batch)); Ret (152, 70000 mod 256) ].
Proof. vm_compute. reflexivity. Qed.
