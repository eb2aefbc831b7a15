(** * Properties of several detectors over one heap, of the pluggable functions and of the strings
    (C01, C04, C14 over the heap; C34-C38, C41) *)
From stdpp Require Import gmap.
From Coq Require Import ZArith List Bool String Reals.
From Verif Require Import Num XMath Ubend Session Peaks Brent Estimator Tail P2 Spot B64 B64Facts Str Heap Spec HeapSpec
  HeapLemmas HeapB64 StrLemmas Demo.
Open Scope Z_scope.

(** ** A concrete world for the examples: three addresses, everything registered, structs full of junk *)
Definition three_blocks : malloc_fn B64 := fun _ h =>
  if decide (h !! 1 = None) then Some 1 else if decide (h !! 2 = None) then Some 2
  else if decide (h !! 3 = None) then Some 3 else None.
Definition world0 : world B64 :=
  MkWorld ∅ (Some three_blocks) true musl_utils (fun _ => MkCspot junk (Some 77)) [].
Definition init_op (i cap : Z) : op B64 := OInit (N := B64) i (dy 1 7) 0 1 (dy 3 2) cap.
Definition shown (r : res (world B64 * list (out B64))) : option (list Z) :=
  match r with Ret (_, l) => Some (map (fun o => match o with OutCode c => c | OutNum _ => 7 | OutUnit => 8 end) l) | Undef _ => None end.
Example world0_fresh : fresh_malloc (w_malloc world0).
Proof.
  intros bytes h a. unfold three_blocks. repeat (destruct (decide _); [intros H; injection H as <-; assumption|]). discriminate.
Qed.

(** C01 over the heap *)
Theorem C01_rejected_init_changes_nothing (w : world B64) i q low discard level cap w' c :
  is_NaN q = false -> is_NaN level = false ->
  (xval level < 0 \/ 1 <= xval level \/ xval q <= 0 \/ xval (b64_minus (d 1) level) <= xval q)%R ->
  w_step w (OInit (N := B64) i q low discard level cap) = Ret (w', OutCode c) ->
  w' = w /\ (c = -1001 \/ c = -1002).
Proof. exact (C01_heap_lemma w i q low discard level cap w' c). Qed.
Print Assumptions C01_rejected_init_changes_nothing.
Example C01_heap_example : shown (w_run world0 [OInit (N := B64) 5 (dy 1 7) 0 1 (d 1) 4]) = Some [-1001].
Proof. vm_compute. reflexivity. Qed.

(** C04 over the heap *)
Theorem C04_failed_allocation_leaks_nothing {N} (w : world N) i q low discard level cap w' r :
  (w_malloc w = None \/ exists m, w_malloc w = Some m /\ m (ubend_bytes cap) (w_heap w) = None) ->
  w_step w (OInit i q low discard level cap) = Ret (w', r) ->
  w_heap w' = w_heap w /\
  ((exists c, r = OutCode c /\ (c = -1001 \/ c = -1002) /\ w' = w) \/
   (r = OutCode (-1000) /\
    s_at (cs_spot (w_inst w' i)) = s_at (cs_spot (w_inst w i)) /\
    s_et (cs_spot (w_inst w' i)) = s_et (cs_spot (w_inst w i)) /\
    exists w2, w_step w' (OFree i) = Ret (w2, OutUnit) /\ w_heap w2 = w_heap w /\ w_log w2 = w_log w')).
Proof. exact (C04_heap_lemma w i q low discard level cap w' r). Qed.
Print Assumptions C04_failed_allocation_leaks_nothing.
Example C04_heap_example :
  shown (w_run world0 [init_op 1 4; init_op 2 4; init_op 3 4; init_op 4 4; OFree 4]) = Some [0; 0; 0; -1000; 8] /\
  shown (w_run world0 [OSetAllocators None false; init_op 1 4]) = Some [8; -1000].
Proof. split; vm_compute; reflexivity. Qed.

(** C14 over the heap: any number of detectors, any correct interleaving. [ops] is what was done so far, [o] the next call. *)
Theorem C14_memory_safety_any_interleaving (w : world B64) ops w' outs o x :
  fresh_malloc (w_malloc w) -> w_run w ops = Ret (w', outs) -> correct_use none_live ops outs ->
  (forall i q low discard level cap, In (OInit (N := B64) i q low discard level cap) ops -> 1 <= cap < 2 ^ 61) ->
  allowed (live_at_end none_live ops outs) o -> w_step w' o = Undef x -> x = CastRange.
Proof. exact (C14_heap_lemma w ops w' outs o x). Qed.
Print Assumptions C14_memory_safety_any_interleaving.
Definition demo_ops : list (op B64) :=
  [init_op 1 4; init_op 2 3; OFit (N := B64) 1 demo_batch; OStep (N := B64) 1 (d 7); OFit (N := B64) 2 (map d [1; 2; 3; 4; 50]);
   OStep (N := B64) 1 (d 100); OStep (N := B64) 2 (d 4); OFree 1; OStep (N := B64) 2 (d 45); OFree 2].
Definition demo_outs : list (out B64) :=
  [OutCode 0; OutCode 0; OutCode 0; OutCode 1; OutCode 0; OutCode 2; OutCode 1; OutUnit; OutCode 1; OutUnit].
Definition out_view (o : out B64) : Z + bool := match o with OutCode c => inl c | OutUnit => inr true | OutNum _ => inr false end.
Definition seen_run (r : res (world B64 * list (out B64))) : option (list (Z + bool) * nat * list event) :=
  match r with Ret (w', outs) => Some (map out_view outs, map_size (w_heap w'), w_log w') | Undef _ => None end.
Lemma out_view_inj (l l' : list (out B64)) : map out_view l = map out_view l' -> ~ In (inr false) (map out_view l') -> l = l'.
Proof.
  revert l'. induction l as [|a l IH]; intros [|b l'] H N; try discriminate H; [reflexivity|]. cbn [map] in H, N. injection H as H1 H2.
  f_equal; [|apply IH; [exact H2|]; intros I; apply N; right; exact I]. destruct a, b; try discriminate H1; [reflexivity| |].
  - injection H1 as ->. reflexivity.
  - destruct N. left. reflexivity.
Qed.
Lemma demo_run : exists w', w_run world0 demo_ops = Ret (w', demo_outs) /\ map_size (w_heap w') = 0%nat /\
  w_log w' = [EvMalloc 32 (Some 1); EvMalloc 24 (Some 2); EvFree 1; EvFree 2].
Proof.
  assert (E : seen_run (w_run world0 demo_ops) = Some (map out_view demo_outs, 0%nat,
    [EvMalloc 32 (Some 1); EvMalloc 24 (Some 2); EvFree 1; EvFree 2])) by (vm_compute; reflexivity).
  unfold seen_run in E. destruct (w_run world0 demo_ops) as [[w' outs]|]; [|discriminate]. injection E as E E2 E3.
  exists w'. split; [|auto]. rewrite (out_view_inj outs demo_outs); [reflexivity|exact E|].
  cbn. intros H. repeat (destruct H as [H|H]; [discriminate H|]). exact H.
Qed.
Example C14_heap_example : exists w', w_run world0 demo_ops = Ret (w', demo_outs) /\ correct_use none_live demo_ops demo_outs.
Proof. destruct demo_run as (w' & H & _). exists w'. split; [exact H|]. vm_compute. repeat split; intros ? ?; discriminate. Qed.

(** C34 *)
Theorem C34_messages err msg dst size : In (err, msg) messages -> 1 <= size <= Z.of_nat (List.length dst) -> size < 2 ^ 64 ->
  libspot_error err (Some dst) size = Ret (Some (copied (bytes_of msg) size dst)).
Proof. exact (C34_lemma err msg dst size). Qed.
Print Assumptions C34_messages.
Theorem C34_other_codes_untouched err buf size : (forall msg, ~ In (err, msg) messages) -> libspot_error err buf size = Ret buf.
Proof. exact (C34_other_lemma err buf size). Qed.
Print Assumptions C34_other_codes_untouched.
(** the documented code 1005 has a message in the table but libspot_error never delivers it *)
Theorem C34_data_is_nan_refuted buf size : libspot_error 1005 buf size = Ret buf.
Proof. exact (C34_other_lemma 1005 buf size (fun _ H => ltac:(cbn in H; repeat (destruct H as [H|H]; [discriminate|]); exact H))). Qed.
Print Assumptions C34_data_is_nan_refuted.
Example C34_example :
  libspot_error 1000 (Some [9; 9; 9; 9; 9; 9; 9; 9]) 7 = Ret (Some (bytes_of "Memory" ++ [0; 9])) /\
  libspot_error 1005 (Some [9; 9]) 2 = Ret (Some [9; 9]) /\ libspot_error (-1000) (Some [9; 9]) 2 = Ret (Some [9; 9]).
Proof. repeat split. Qed.

(** C35 *)
Theorem C35_bounded_copy src dst size : Forall (fun c => c <> 0) src -> 1 <= size <= Z.of_nat (List.length dst) -> size < 2 ^ 64 ->
  c_strncpy (Some dst) src size = Ret (Some (copied src size dst)).
Proof. exact (C35_copy_lemma src dst size). Qed.
Print Assumptions C35_bounded_copy.
Theorem C35_copied_meaning src size old i : 1 <= size <= Z.of_nat (List.length old) ->
  nth_error (copied src size old) i =
    (if i <? Nat.min (List.length src) (Z.to_nat (size - 1)) then nth_error src i
     else if i <? Z.to_nat size then Some 0%Z else nth_error old i)%nat.
Proof. exact (nth_error_copied src size old i). Qed.
Print Assumptions C35_copied_meaning.
Theorem C35_null_buffer src size : c_strncpy None src size = Ret None.
Proof. exact (C35_null_lemma src size). Qed.
Print Assumptions C35_null_buffer.
Theorem C35_zero_size_overflows src dst : Z.of_nat (List.length dst) < 2 ^ 64 -> c_strncpy (Some dst) src 0 = Undef OutOfBounds.
Proof. exact (C35_zero_lemma src dst). Qed.
Print Assumptions C35_zero_size_overflows.
Theorem C35_short_buffer_overflows src dst size : Forall (fun c => c <> 0) src ->
  Z.of_nat (List.length dst) < size < 2 ^ 64 -> c_strncpy (Some dst) src size = Undef OutOfBounds.
Proof. exact (C35_short_lemma src dst size). Qed.
Print Assumptions C35_short_buffer_overflows.
Example C35_example :
  libspot_version (Some [9; 9; 9; 9; 9; 9; 9]) 6 = Ret (Some [50; 46; 48; 98; 50; 0; 9]) /\
  libspot_version (Some [9; 9; 9; 9; 9; 9; 9]) 3 = Ret (Some [50; 46; 0; 9; 9; 9; 9]) /\
  libspot_license (Some [9]) 1 = Ret (Some [0]) /\ libspot_license (Some [9]) 0 = Undef OutOfBounds.
Proof. repeat split. Qed.

(** C36 *)
Theorem C36_init_allocates_once {N} (w : world N) i q low discard level cap w' :
  w_step w (OInit i q low discard level cap) = Ret (w', OutCode 0) ->
  exists a, w_log w' = w_log w ++ [EvMalloc (u64 (cap * 8)) (Some a)] /\
    w_heap w' = <[a := repeat None (Z.to_nat (u64 (cap * 8) / 8))]> (w_heap w) /\
    cs_data (w_inst w' i) = Some a /\ (forall j, j <> i -> w_inst w' j = w_inst w j).
Proof. exact (C36_init_lemma w i q low discard level cap w'). Qed.
Print Assumptions C36_init_allocates_once.
Theorem C36_calls_never_allocate {N} (w : world N) o i w' r : call_target o = Some i -> w_step w o = Ret (w', r) ->
  w_log w' = w_log w /\ w_malloc w' = w_malloc w /\ w_free w' = w_free w /\
  (forall a, is_Some (w_heap w' !! a) <-> is_Some (w_heap w !! a)) /\
  (forall a, cs_data (w_inst w i) <> Some a -> w_heap w' !! a = w_heap w !! a) /\
  (forall j, j <> i -> w_inst w' j = w_inst w j) /\ cs_data (w_inst w' i) = cs_data (w_inst w i).
Proof. exact (C36_calls_lemma w o i w' r). Qed.
Print Assumptions C36_calls_never_allocate.
Theorem C36_free_releases_once {N} (w : world N) i a w' r : w_free w = true -> cs_data (w_inst w i) = Some a ->
  w_step w (OFree i) = Ret (w', r) ->
  w_log w' = w_log w ++ [EvFree a] /\ w_heap w' = delete a (w_heap w) /\
  (forall j, j <> i -> w_inst w' j = w_inst w j).
Proof. exact (C36_free_lemma w i a w' r). Qed.
Print Assumptions C36_free_releases_once.
Theorem C36_no_leak {N} (w : world N) ops w' outs : fresh_malloc (w_malloc w) -> w_free w = true ->
  w_run w ops = Ret (w', outs) -> correct_use none_live ops outs ->
  (forall m f, In (OSetAllocators m f) ops -> f = true) ->
  (forall i, live_at_end none_live ops outs i = false) ->
  w_heap w' = w_heap w.
Proof. exact (C36_leak_lemma w ops w' outs). Qed.
Print Assumptions C36_no_leak.
Example C36_example : exists w', w_run world0 demo_ops = Ret (w', demo_outs) /\ map_size (w_heap w') = 0%nat /\
  w_log w' = [EvMalloc 32 (Some 1); EvMalloc 24 (Some 2); EvFree 1; EvFree 2] /\
  map (live_at_end none_live demo_ops demo_outs) [1; 2; 3] = [false; false; false].
Proof. destruct demo_run as (w' & H1 & H2 & H3). exists w'. split; [exact H1|]. split; [exact H2|]. split; [exact H3|]. vm_compute. reflexivity. Qed.

(** C37 *)
Theorem C37_double_free {N} (w : world N) i a w' r : w_free w = true -> cs_data (w_inst w i) = Some a ->
  w_step w (OFree i) = Ret (w', r) -> w_step w' (OFree i) = Undef BadFree.
Proof. exact (C37_double_free_lemma w i a w' r). Qed.
Print Assumptions C37_double_free.
Theorem C37_second_free_hits_another_detector {N} (w : world N) i j a w1 r1 q low discard level cap w2 w3 r3 :
  w_free w = true -> i <> j -> cs_data (w_inst w i) = Some a ->
  w_step w (OFree i) = Ret (w1, r1) ->
  w_step w1 (OInit j q low discard level cap) = Ret (w2, OutCode 0) -> cs_data (w_inst w2 j) = Some a ->
  w_step w2 (OFree i) = Ret (w3, r3) ->
  w_heap w3 !! a = None /\ cs_data (w_inst w3 j) = Some a /\ get_data (detector_state w3 j) = [].
Proof. exact (C37_free_after_reuse_lemma w i j a w1 r1 q low discard level cap w2 w3 r3). Qed.
Print Assumptions C37_second_free_hits_another_detector.
Theorem C37_free_after_rejected_init {N} (w : world N) i q low discard level cap w1 c a :
  w_step w (OInit i q low discard level cap) = Ret (w1, OutCode c) -> (c = -1001 \/ c = -1002) -> w_free w = true ->
  w1 = w /\
  (cs_data (w_inst w i) = Some a -> w_heap w !! a = None -> w_step w1 (OFree i) = Undef BadFree) /\
  (cs_data (w_inst w i) = Some a -> is_Some (w_heap w !! a) ->
     exists w2, w_step w1 (OFree i) = Ret (w2, OutUnit) /\ w_heap w2 = delete a (w_heap w)) /\
  (cs_data (w_inst w i) = None -> exists w2, w_step w1 (OFree i) = Ret (w2, OutUnit) /\ w_heap w2 = w_heap w).
Proof. exact (C37_rejected_lemma w i q low discard level cap w1 c a). Qed.
Print Assumptions C37_free_after_rejected_init.
Definition why_of {A} (r : res A) : option why := match r with Undef x => Some x | Ret _ => None end.
Example C37_example :
  why_of (w_run world0 [init_op 1 4; OFree 1; OFree 1]) = Some BadFree /\
  why_of (w_run world0 [OInit (N := B64) 1 (dy 1 7) 0 1 (d 1) 4; OFree 1]) = Some BadFree /\
  why_of (w_run world0 [init_op 1 4; OFree 1; init_op 2 4; OFree 1]) = None /\
  why_of (w_run world0 [init_op 1 4; OFree 1; init_op 2 4; OFree 1; OFit (N := B64) 2 demo_batch]) = Some OutOfBounds.
Proof. repeat split; vm_compute; reflexivity. Qed.

(** C38 *)
Theorem C38_set_allocators {N} (w : world N) m f w' r : w_step w (OSetAllocators m f) = Ret (w', r) ->
  w_malloc w' = m /\ w_free w' = f /\ w_heap w' = w_heap w /\ w_utils w' = w_utils w /\ w_inst w' = w_inst w /\
  (forall i q low discard level cap w2 c, m = None ->
     w_step w' (OInit i q low discard level cap) = Ret (w2, OutCode c) -> c = -1000 \/ c = -1001 \/ c = -1002) /\
  (forall i, f = false -> exists w2, w_step w' (OFree i) = Ret (w2, OutUnit) /\ w_heap w2 = w_heap w).
Proof. exact (C38_allocators_lemma w m f w' r). Qed.
Print Assumptions C38_set_allocators.
Theorem C38_set_float_utils {N} (w : world N) l f w' r : w_step w (OSetFloatUtils l f) = Ret (w', r) ->
  fu_ldexp (w_utils w') = match l with Some l => l | None => fu_ldexp (w_utils w) end /\
  fu_frexp (w_utils w') = match f with Some f => f | None => fu_frexp (w_utils w) end /\
  w_heap w' = w_heap w /\ w_inst w' = w_inst w /\ w_malloc w' = w_malloc w /\ w_free w' = w_free w.
Proof. exact (C38_utils_lemma w l f w' r). Qed.
Print Assumptions C38_set_float_utils.
Example C38_example :
  shown (w_run world0 [init_op 1 4; OSetAllocators None false; OFree 1; OFree 1; init_op 1 4]) = Some [0; 8; 8; 8; -1000].
Proof. vm_compute. reflexivity. Qed.

(** C41 *)
Theorem C41_detectors_do_not_interfere {N} (w : world N) pre j q low discard level cap post w' outs :
  fresh_malloc (w_malloc w) ->
  w_run w (pre ++ OInit j q low discard level cap :: post) = Ret (w', outs) ->
  correct_use none_live (pre ++ OInit j q low discard level cap :: post) outs ->
  nth_error outs (List.length pre) = Some (OutCode 0) ->
  (forall o, In o post -> leaves_alone j o) ->
  exists old s0,
    spot_init old q low discard level cap (fun bytes => Some (repeat None (Z.to_nat (bytes / 8)))) = (s0, 0) /\
    session (c_math (w_utils w)) s0 (calls_on j post) =
      Ret (detector_state w' j, answers_to j post (skipn (S (List.length pre)) outs)).
Proof. exact (C41_lemma w pre j q low discard level cap post w' outs). Qed.
Print Assumptions C41_detectors_do_not_interfere.
(** so that everything proved about [detector] holds in every interleaving *)
Theorem C41_every_interleaving_is_a_detector (w : world B64) pre j q low discard level cap post w' outs :
  fresh_malloc (w_malloc w) -> 1 <= cap < 2 ^ 61 ->
  w_run w (pre ++ OInit (N := B64) j q low discard level cap :: post) = Ret (w', outs) ->
  correct_use none_live (pre ++ OInit (N := B64) j q low discard level cap :: post) outs ->
  nth_error outs (List.length pre) = Some (OutCode 0) ->
  (forall o, In o post -> leaves_alone j o) ->
  detector (c_math (w_utils w)) q low discard level cap (detector_state w' j).
Proof. exact (C41_detector_lemma w pre j q low discard level cap post w' outs). Qed.
Print Assumptions C41_every_interleaving_is_a_detector.
Example C41_example : (* the answers of detector 1, alone and interleaved with detector 2 *)
  shown (w_run world0 [init_op 1 4; OFit (N := B64) 1 demo_batch; OStep (N := B64) 1 (d 7); OStep (N := B64) 1 (d 100)]) = Some [0; 0; 1; 2] /\
  exists w', w_run world0 demo_ops = Ret (w', demo_outs) /\ answers_to 1 (skipn 1 demo_ops) (skipn 1 demo_outs) = [ACode 0; ACode 1; ACode 2].
Proof. split; [vm_compute; reflexivity|]. destruct demo_run as (w' & H & _). exists w'. split; [exact H|reflexivity]. Qed.
