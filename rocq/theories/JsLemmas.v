(** * JsLemmas: proofs about the JavaScript binding *)
From stdpp Require Import gmap.
From Coq Require Import ZArith List Bool String Lia.
From Flocq Require Import Core IEEE754.BinarySingleNaN IEEE754.Bits.
From Verif Require Import Num NumFacts XMath Ubend UbendFacts Peaks Brent Estimator Tail P2 Spot SpotFacts B64 Session Spec SpotB64 Heap HeapSpec
  Str StrLemmas DetectorLemmas WindowLemmas HeapLemmas PyBinding BindSpec PyLemmas Layout JsBinding.
Open Scope Z_scope.

(** ** Reading a double *)
Lemma big_endian_app l b : big_endian (l ++ [b]) = 256 * big_endian l + b.
Proof.
  induction l as [|a l IH]; [cbn; lia|]. cbn [app big_endian]. rewrite IH, app_length. cbn [List.length].
  rewrite Nat2Z.inj_add, Z.pow_add_r by lia. change (256 ^ Z.of_nat 1) with 256. ring.
Qed.
Lemma big_endian_le n : forall v, 0 <= v < 256 ^ Z.of_nat n -> big_endian (rev (le_bytes n v)) = v.
Proof.
  induction n as [|n IH]; intros v H; [cbn in *; lia|].
  cbn [le_bytes rev]. rewrite big_endian_app. rewrite Nat2Z.inj_succ, Z.pow_succ_r in H by lia.
  rewrite IH by (split; [apply Z.div_pos; lia|apply Z.div_lt_upper_bound; lia]).
  rewrite (Z_div_mod_eq_full v 256) at 3. reflexivity.
Qed.
Lemma le_bytes_length n : forall v, List.length (le_bytes n v) = n.
Proof. induction n as [|n IH]; intros v; cbn; auto. Qed.
Lemma to_bits_range x : 0 <= to_bits x < 256 ^ Z.of_nat 8.
Proof.
  unfold to_bits. change (256 ^ Z.of_nat 8) with (2 ^ (52 + 11 + 1)).
  pose proof (bits_of_binary_float_range 52 11 ltac:(lia) ltac:(lia)) as R. apply R.
Qed.
Lemma of_to_bits x : of_bits (to_bits x) = x.
Proof.
  unfold of_bits, to_bits, b64_of_bits, bits_of_b64. rewrite binary_float_of_bits_of_binary_float.
  apply Binary.B2BSN_BSN2B.
Qed.
Lemma read_stored m a x : bytes m a 8 = le_bytes 8 (to_bits x) -> js_read_double m a = x.
Proof. intros H. unfold js_read_double. rewrite H, big_endian_le by apply to_bits_range. apply of_to_bits. Qed.
Lemma stored_double m ptr s a path x o : stored wasm32 m ptr s a -> In (path, VDouble x) (spot_fields s a) ->
  locate wasm32 0 c_Spot path = Some (o, CDouble) -> js_read_double m (ptr + o) = x.
Proof.
  intros H I L. apply H in I as (o' & t & L' & B). rewrite L in L'. injection L' as <- <-.
  apply read_stored. exact B.
Qed.
Lemma C44_thresholds_lemma m ptr s a : stored wasm32 m ptr s a ->
  js_anomaly_threshold m ptr = s_at s /\ js_excess_threshold m ptr = s_et s.
Proof.
  intros H. split.
  - apply (stored_double m ptr s a ["anomaly_threshold"%string] _ 32 H); [cbn; auto 10|reflexivity].
  - apply (stored_double m ptr s a ["excess_threshold"%string] _ 40 H); [cbn; auto 10|reflexivity].
Qed.

(** ** Messages *)
Lemma stringify_app a b : stringify (a ++ b) = stringify a ++ stringify b.
Proof. unfold stringify. apply filter_app. Qed.
Lemma stringify_nonzero l : Forall (fun c => c <> 0) l -> stringify l = l.
Proof.
  induction 1 as [|c l H _ IH]; [reflexivity|]. unfold stringify in *. cbn [List.filter].
  destruct (Z.eqb_spec c 0); [contradiction|]. cbn [negb]. f_equal. exact IH.
Qed.
Lemma js_error_eq code msg : In (code, msg) messages -> js_error code = Ret (bytes_of msg).
Proof.
  cbn [messages In]. intros H. repeat (destruct H as [H|H]; [injection H as <- <-; vm_compute; reflexivity|]). destruct H.
Qed.
Lemma js_error_nan : js_error 1005 = Ret [].
Proof. vm_compute. reflexivity. Qed.
Lemma C44_version_lemma junk : List.length junk = 24%nat -> js_version junk = Ret (bytes_of "2.0b2").
Proof.
  intros H. unfold js_version, libspot_version. rewrite C35_copy_lemma by (rewrite ?H; try (repeat constructor; discriminate); lia).
  cbn [bind]. unfold copied. rewrite (skipn_all2 junk) by (rewrite H; vm_compute; lia). vm_compute. reflexivity.
Qed.

(** ** step *)
Lemma step_code (w : world B64) i x w' r : w_step w (OStep (N := B64) i x) = Ret (w', r) ->
  exists c, r = OutCode c /\
    (if is_NaN x then c = -1005 /\ detector_state w' i = detector_state w i else c = 0 \/ c = 1 \/ c = 2).
Proof.
  cbn [w_step]. destruct (spot_step _ _ _) as [[s c]|] eqn:F; [|discriminate]. cbn [bind]. intros H. injection H as <- <-.
  exists c. split; [reflexivity|]. fold (detector_state w i) in F.
  destruct (is_NaN x) eqn:Hn.
  - destruct (C06_lemma (w_math w) (detector_state w i) x) as (E & _). rewrite (E Hn) in F. injection F as <- <-.
    split; [reflexivity|]. apply store_same.
  - revert F. unfold spot_step. rewrite (is_NaN_model x), Hn.
    destruct (_ && _)%bool; [intros H; injection H as <- <-; auto|].
    match goal with |- context [if ?b then _ else _] => destruct b end; [|intros H; injection H as <- <-; auto].
    destruct (tail_push _ _) as [t|]; [|discriminate]. cbn [bind].
    destruct (tail_fit _ _) as [[t' l]|]; [|discriminate]. cbn [bind].
    destruct (spot_quantile _ _ _) as [z|]; [|discriminate]. cbn [bind]. intros H; injection H as <- <-; auto.
Qed.
Lemma C44_step_lemma (w : world B64) i x :
  match w_step w (OStep (N := B64) i x) with
  | Undef y => js_step w i x = Undef y
  | Ret (w', r) =>
      if is_NaN x then js_step w i x = Ret (w', JsThrows []) /\ detector_state w' i = detector_state w i
      else exists c, r = OutCode c /\ (c = 0 \/ c = 1 \/ c = 2) /\ js_step w i x = Ret (w', JsReturns c)
  end.
Proof.
  unfold js_step. destruct (w_step w _) as [[w' r]|y] eqn:F; [|reflexivity]. cbn [bind].
  destruct (step_code _ _ _ _ _ F) as (c & -> & Hc). destruct (is_NaN x).
  - destruct Hc as (-> & Hs). change (-1005 <? 0) with true. cbn iota.
    rewrite (js_error_nan : js_error (- (-1005)) = Ret []). auto.
  - exists c. split; [reflexivity|]. split; [exact Hc|]. destruct (Z.ltb_spec c 0); [lia|]. reflexivity.
Qed.

(** ** fit *)
Lemma C44_fit_lemma (w : world B64) bufs i buf a : fa_wf a -> fa_length a = Z.of_nat (List.length (fa_buffer a)) ->
  match w_step w (OFit (N := B64) i (fa_buffer a)) with
  | Undef y => js_fit w bufs i buf a = Undef y
  | Ret (w', r) => exists c, r = OutCode c /\
      ((c = 0 /\ js_fit w bufs i buf a = Ret (w', bufs, JsReturns 0)) \/
       (exists msg, In (c, msg) fit_messages /\ js_fit w bufs i buf a = Ret (w', buf :: bufs, JsThrows (bytes_of msg))))
  end.
Proof.
  intros Hw Hl. unfold js_fit. rewrite Hl, Z.leb_refl, Nat2Z.id, firstn_all.
  destruct (w_step w _) as [[w' r]|y] eqn:F; [|reflexivity]. cbn [bind].
  destruct (fit_code _ _ _ _ _ F) as (c & -> & [-> |(msg & Hm)]); [exists 0; auto|].
  exists c. split; [reflexivity|]. right. exists msg. split; [exact Hm|].
  assert (Hn : c < 0) by (cbn in Hm; destruct Hm as [Hm|[Hm|[]]]; injection Hm as <- <-; lia).
  destruct (Z.ltb_spec c 0); [|lia]. rewrite (js_error_eq _ msg) by (apply fit_messages_in; exact Hm). reflexivity.
Qed.
Lemma C44_view_lemma (w : world B64) bufs i buf a : fa_wf a -> fa_length a <> Z.of_nat (List.length (fa_buffer a)) ->
  js_fit w bufs i buf a = Undef OutOfBounds.
Proof.
  intros (H1 & H2 & H3) Hn. unfold js_fit. destruct (Z.leb_spec (Z.of_nat (List.length (fa_buffer a))) (fa_length a)); [|reflexivity]. lia.
Qed.

(** ** Construction and finalisation *)
Lemma C44_new_lemma (w : world B64) i q low discard level cap :
  exists w' c, w_step w (OInit (N := B64) i q low discard level cap) = Ret (w', OutCode c) /\
    ((c = 0 /\ js_new w i q low discard level cap = Ret (w', JsReturns tt)) \/
     (exists msg, In (c, msg) init_messages /\ js_new w i q low discard level cap = Ret (w', JsThrows (bytes_of msg)))).
Proof.
  unfold js_new. destruct (w_step w _) as [[w' r]|y] eqn:S.
  2: { cbn [w_step] in S. destruct (w_init _ _ _ _ _ _ _); discriminate. }
  destruct (init_code _ _ _ _ _ _ _ _ _ S) as (c & -> & Hc). exists w', c. split; [reflexivity|]. cbn [bind].
  destruct Hc as [->|[->|[->| ->]]]; [auto|..]; right; eexists; (split; [cbn; eauto|]);
    cbn [Z.ltb Z.compare]; erewrite js_error_eq by (cbn; eauto 10); reflexivity.
Qed.
Lemma C44_rejected_lemma (w : world B64) i q low discard level cap w1 msg a :
  js_new w i q low discard level cap = Ret (w1, JsThrows msg) -> msg <> bytes_of "Memory allocation failed" -> w_free w = true ->
  w1 = w /\
  (cs_data (w_inst w i) = Some a -> w_heap w !! a = None -> js_collect w1 i = Undef BadFree) /\
  (cs_data (w_inst w i) = Some a -> is_Some (w_heap w !! a) ->
     exists w2, js_collect w1 i = Ret w2 /\ w_heap w2 = delete a (w_heap w)).
Proof.
  intros H Hm F. destruct (C44_new_lemma w i q low discard level cap) as (w' & c & S & [(_ & N)|(msg' & I & N)]); rewrite N in H; [discriminate|].
  injection H as -> <-.
  assert (Hc : c = -1001 \/ c = -1002).
  { cbn in I. destruct I as [I|[I|[I|[]]]]; injection I as <- <-; auto. contradiction. }
  destruct (C37_rejected_lemma w i q low discard level cap w1 c a S Hc F) as (E & H1 & H2 & _).
  split; [exact E|]. unfold js_collect. split.
  - intros A B. rewrite (H1 A B). reflexivity.
  - intros A B. destruct (H2 A B) as (w2 & E2 & Hh). rewrite E2. eexists. split; [reflexivity|exact Hh].
Qed.

(** ** Every detector has an image in memory: [stored] is not vacuous *)
Definition image (ptr : Z) (s : spot B64) (a : Z) : memory := fun z =>
  nth (Z.to_nat (z - ptr)) (List.concat (map (fun f => repr wasm32 (snd f)) (spot_fields s a))) 0.
Lemma bytes_image ptr s a o n : 0 <= o -> bytes (image ptr s a) (ptr + o) n =
  map (fun k => nth (Z.to_nat o + k) (List.concat (map (fun f => repr wasm32 (snd f)) (spot_fields s a))) 0) (seq 0 n).
Proof.
  intros H. unfold bytes. apply map_ext. intros k. unfold image. f_equal. lia.
Qed.
Lemma image_stored ptr s a : stored wasm32 (image ptr s a) ptr s a.
Proof.
  intros path v I. cbn [spot_fields In] in I.
  repeat (destruct I as [I|I];
    [injection I as <- <-; eexists _, _; (split; [reflexivity|]); rewrite bytes_image by (vm_compute; discriminate); unfold spot_fields;
     cbn [map snd]; unfold repr; cbn -[Z.div Z.modulo to_bits Z.pow]; reflexivity|]).
  destruct I.
Qed.
