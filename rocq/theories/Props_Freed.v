(** * Use of a detector after spot_free (C96) *)
From stdpp Require Import gmap.
From Coq Require Import ZArith List Bool.
From Flocq Require Import IEEE754.BinarySingleNaN.
From Verif Require Import Num XMath Ubend Session Peaks Brent Estimator Tail P2 Spot B64 Heap Spec HeapSpec FreedSpec FreedLemmas Demo.
Open Scope Z_scope.

(** After spot_free, and until spot_init or spot_free is called on the same struct again, every other call on it is defined and
    leaves the memory and the other detectors as they are, even if its block has been given to another one meanwhile: spot_step
    answers NORMAL, spot_fit fails, the quantile and the probability are NaN. (A second spot_free is not so harmless: C37.) *)
Theorem C96_after_free (w : world B64) i w1 r ops w2 outs o :
  w_step w (OFree i) = Ret (w1, r) -> (forall o, In o ops -> ~ revives i o) -> w_run w1 ops = Ret (w2, outs) -> uses i o ->
  exists w3 a, w_step w2 o = Ret (w3, a) /\ answer_of_freed o a /\ w_heap w3 = w_heap w2 /\ w_log w3 = w_log w2 /\
    forall j, j <> i -> w_inst w3 j = w_inst w2 j.
Proof. exact (after_free w i w1 r ops w2 outs o). Qed.
Print Assumptions C96_after_free.

(** What is left in the struct: not a number in every double, no excess, no observation, no capacity; but the pointer. *)
Theorem C96_struct_after_free (w : world B64) i w1 r : w_step w (OFree i) = Ret (w1, r) ->
  let s := cs_spot (w_inst w1 i) in let t := s_tail s in let p := t_peaks t in
  (forall x, In x [s_q s; s_level s; s_at s; s_et s; t_gamma t; t_sigma t; p_e p; p_e2 p; p_min p; p_max p; u_last (p_cont p)] -> x = (B754_nan : b64)) /\
  s_Nt s = 0 /\ s_n s = 0 /\ u_cursor (p_cont p) = 0 /\ u_capacity (p_cont p) = 0 /\ cs_data (w_inst w1 i) = cs_data (w_inst w i).
Proof. exact (freed_fields w i w1 r). Qed.
Print Assumptions C96_struct_after_free.

(** Detector 5 is calibrated and freed, 6 gets its block (address 1) and is calibrated, 5 is used, then 6. *)
Definition one_block : malloc_fn B64 := fun _ h => if decide (h !! 1 = None) then Some 1 else None.
Definition world1 : world B64 := MkWorld ∅ (Some one_block) true musl_utils (fun _ => MkCspot junk None) [].
Definition init_op (i : Z) : op B64 := OInit (N := B64) i (dy 1 7) 0 1 (dy 3 2) 4.
Definition use5 : list (op B64) :=
  [OStep (N := B64) 5 (d 9); OFit (N := B64) 5 demo_batch; OStep (N := B64) 5 (d 9); OStep (N := B64) 5 qnan; OQuantile (N := B64) 5 (dy 1 7); OProbability (N := B64) 5 (d 9)].
Definition shown (r : res (world B64 * list (out B64))) : option (list Z * bool) :=
  match r with
  | Ret (w, l) => Some (map (fun o : out B64 => match o with OutCode c => c | OutNum x => if is_NaN x then 7 else 6 | OutUnit => 8 end) l,
                        match cs_data (w_inst w 6) with Some 1 => true | _ => false end)
  | Undef _ => None end.
Example C96_example :
  shown (w_run world1 ([init_op 5; OFit (N := B64) 5 demo_batch; OFree 5; init_op 6; OFit (N := B64) 6 demo_batch] ++ use5 ++ [OStep (N := B64) 6 (d 7)])) =
    Some ([0; 0; 8; 0; 0; 0; -1004; 0; -1005; 7; 7; 1], true) /\
  forall o, In o use5 -> uses 5 o /\ ~ revives 5 o.
Proof. split; [vm_compute; reflexivity|]. intros o H. unfold use5 in H. cbn [In] in H. repeat (destruct H as [<-|H]; [cbn; split; [reflexivity|tauto]|]). contradiction. Qed.
