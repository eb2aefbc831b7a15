(** * HeapB64: the binary64 program over the heap *)
From stdpp Require Import gmap.
From Coq Require Import ZArith List Bool Reals Lia Lra.
From Verif Require Import Num NumFacts XMath Ubend UbendFacts Peaks PeaksFacts Brent Estimator Tail P2 P2Facts Spot SpotFacts
  Session B64 B64Facts Spec SpotB64 Heap HeapSpec HeapLemmas DetectorLemmas.
Open Scope Z_scope.

Lemma C14_heap_lemma (w : world B64) ops w' outs o x :
  fresh_malloc (w_malloc w) -> w_run w ops = Ret (w', outs) -> correct_use none_live ops outs ->
  (forall i q low discard level cap, In (OInit i q low discard level cap) ops -> 1 <= cap < 2 ^ 61) ->
  allowed (live_at_end none_live ops outs) o -> w_step w' o = Undef x -> x = CastRange.
Proof.
  intros F R C K A H. pose proof (inv_start w F) as I.
  assert (W0 : all_wf none_live w) by (intros i; discriminate).
  assert (K' : forall o, In o ops -> caps_ok o) by (intros [] Ho; cbn; eauto).
  pose proof (run_all_wf ops none_live w w' outs I W0 C K' R) as W.
  destruct (run_inv _ _ _ _ _ I C R) as [I' _].
  eapply step_safe; eauto; [apply trunc_ok_b64|apply exp_safe_b64].
Qed.

Lemma C41_detector_lemma (w : world B64) pre j q low discard level cap post w' outs :
  fresh_malloc (w_malloc w) -> 1 <= cap < 2 ^ 61 ->
  w_run w (pre ++ OInit j q low discard level cap :: post) = Ret (w', outs) ->
  correct_use none_live (pre ++ OInit j q low discard level cap :: post) outs ->
  nth_error outs (length pre) = Some (OutCode 0) ->
  (forall o, In o post -> leaves_alone j o) ->
  detector (c_math (w_utils w)) q low discard level cap (detector_state w' j).
Proof.
  intros F K R C HZ La. destruct (C41_lemma w pre j q low discard level cap post w' outs F R C HZ La) as (old & s0 & E & HS).
  exists old, (repeat None (Z.to_nat (ubend_bytes cap / 8))), s0, (calls_on j post), (answers_to j post (skipn (S (length pre)) outs)).
  split; [assumption|]. split; [|split; [|assumption]].
  - rewrite repeat_length. unfold ubend_bytes, u64. rewrite Z.mod_small by lia. rewrite Z.div_mul by lia. lia.
  - rewrite <- E. reflexivity.
Qed.

Lemma C01_heap_lemma (w : world B64) i q low discard level cap w' c :
  is_NaN q = false -> is_NaN level = false ->
  (xval level < 0 \/ 1 <= xval level \/ xval q <= 0 \/ xval (b64_minus (d 1) level) <= xval q)%R ->
  w_step w (OInit (N := B64) i q low discard level cap) = Ret (w', OutCode c) ->
  w' = w /\ (c = -1001 \/ c = -1002).
Proof.
  intros Nq Nl H E. cbn [w_step] in E. unfold w_init in E.
  pose proof (C01_lemma (cs_spot (w_inst w i)) q low discard level cap (fun _ => None) Nq Nl) as L.
  unfold spot_init in L. destruct (spot_check (N := B64) q level) as [code|] eqn:S.
  - injection E as <- <-. split; [reflexivity|]. unfold spot_check in S.
    destruct ((_ || _)%bool); [injection S as <-; auto|]. destruct ((_ || _)%bool); [injection S as <-; auto|discriminate].
  - exfalso. cbv beta iota zeta delta [tail_init peaks_init ubend_init] in L.
    change (-1000 <? 0) with true in L. cbv beta iota zeta in L. destruct L as (_ & _ & L & _). destruct L as [L _]. destruct (L (or_intror eq_refl)) as [[? ?] [? ?]].
    destruct H as [H|[H|[H|H]]]; lra.
Qed.
