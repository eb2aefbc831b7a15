(** * PyLemmas: proofs about the Python binding *)
From stdpp Require Import gmap.
From Coq Require Import ZArith List Bool String Lia.
From Flocq Require Import IEEE754.BinarySingleNaN.
From Verif Require Import Num NumFacts XMath Ubend UbendFacts Peaks Brent Estimator Tail P2 Spot SpotFacts B64 Session Spec SpotB64 Heap HeapSpec
  Str StrLemmas DetectorLemmas WindowLemmas HeapLemmas PyBinding BindSpec.
Open Scope Z_scope.

(** ** Objects *)
Lemma minus_one_eq : minus_one = d (-1).
Proof. apply B2SF_inj. vm_compute. reflexivity. Qed.
Lemma finite_agree x : BinarySingleNaN.is_finite x = is_finite x.
Proof. destruct x; reflexivity. Qed.
Definition error_of (o : pyobj) : option exc := snd (as_double (Some o)).
Lemma as_double_eq o : as_double (Some o) = (number_value o, error_of o).
Proof.
  unfold error_of. destruct o; cbn [as_double number_value snd]; rewrite ?minus_one_eq; try reflexivity.
  rewrite finite_agree. unfold d. destruct (is_finite (b64_ofZ z)); reflexivity.
Qed.
Lemma error_number o : match error_of o with None => is_number o = true | Some _ => is_number o = false end.
Proof.
  unfold error_of. destruct o; cbn [as_double is_number snd]; try reflexivity.
  rewrite finite_agree. unfold d. destruct (is_finite (b64_ofZ z)); reflexivity.
Qed.

(** ** The copy loop *)
Lemma copy_list l cells : Z.of_nat (List.length l) <= cells -> forall n k err, (k + n = List.length l)%nat ->
  copy_items (true, l) cells n (Z.of_nat k) err =
    Ret (map number_value (skipn k l), fold_left (fun e o => last_error e (error_of o)) (skipn k l) err).
Proof.
  intros Hc. induction n as [|n IH]; intros k err Hk; cbn [copy_items].
  - rewrite skipn_all2 by lia. reflexivity.
  - destruct (Z.ltb_spec (Z.of_nat k) cells); [|lia].
    unfold list_item. cbn [fst snd]. rewrite Nat2Z.id.
    destruct (nth_error l k) as [o|] eqn:E; [|apply nth_error_None in E; lia].
    rewrite as_double_eq.
    replace (Z.of_nat k + 1) with (Z.of_nat (S k)) by lia. rewrite IH by lia. cbn [bind].
    assert (S : skipn k l = o :: skipn (S k) l).
    { clear - E. revert l E. induction k as [|k IH]; intros [|a l] E; try discriminate; cbn in *; [injection E as ->; reflexivity|]. apply IH. exact E. }
    rewrite S. reflexivity.
Qed.
Lemma copy_overflow seq cells n : forall k err, k <= cells -> cells - k < Z.of_nat n ->
  copy_items seq cells n k err = Undef OutOfBounds.
Proof.
  induction n as [|n IH]; intros k err H1 H2; [cbn in H2; lia|]. cbn [copy_items].
  destruct (Z.ltb_spec k cells); [|reflexivity].
  destruct (as_double _) as [v e]. rewrite IH by lia. reflexivity.
Qed.
Lemma fold_error l : forall err,
  match fold_left (fun e o => last_error e (error_of o)) l err with
  | None => err = None /\ forallb is_number l = true
  | Some _ => err <> None \/ forallb is_number l = false
  end.
Proof.
  induction l as [|o l IH]; intros err; cbn [fold_left forallb].
  - destruct err; [left; discriminate|auto].
  - specialize (IH (last_error err (error_of o))). pose proof (error_number o) as E.
    destruct (fold_left _ _ _).
    + destruct IH as [IH|IH]; [|right; rewrite IH; apply andb_false_r].
      destruct (error_of o); cbn in IH; [right; rewrite E; reflexivity|]. left. exact IH.
    + destruct IH as (I1 & I2). destruct (error_of o); cbn in I1; [discriminate|]. rewrite E, I2. auto.
Qed.

(** ** Messages *)
Lemma c_string_app src rest : Forall (fun c => c <> 0) src -> c_string (src ++ 0 :: rest) = src.
Proof.
  induction 1 as [|c src H _ IH]; [reflexivity|]. cbn [app c_string].
  destruct (Z.eqb_spec c 0); [contradiction|]. f_equal. exact IH.
Qed.
Lemma message_nonzero code msg : In (code, msg) messages -> Forall (fun c => c <> 0) (bytes_of msg).
Proof.
  cbn [messages In]. intros H. repeat (destruct H as [H|H]; [injection H as <- <-; repeat constructor; discriminate|]). destruct H.
Qed.
Lemma message_short code msg : In (code, msg) messages -> (List.length (bytes_of msg) <= 200)%nat.
Proof.
  cbn [messages In]. intros H. repeat (destruct H as [H|H]; [injection H as <- <-; vm_compute; lia|]). destruct H.
Qed.
Lemma copied_message code msg junk : In (code, msg) messages ->
  exists rest, copied (bytes_of msg) 256 junk = bytes_of msg ++ 0 :: rest.
Proof.
  intros H. pose proof (message_short _ _ H) as L. unfold copied.
  rewrite firstn_all2 by lia. 
  replace (Z.to_nat 256 - Nat.min (List.length (bytes_of msg)) (Z.to_nat (256 - 1)))%nat with (S (255 - List.length (bytes_of msg))) by lia.
  eexists. cbn [repeat app]. reflexivity.
Qed.
Lemma runtime_error_eq code msg junk : In (- code, msg) messages -> 256 <= Z.of_nat (List.length junk) ->
  runtime_error code junk = Ret (RuntimeError (bytes_of msg)).
Proof.
  intros H L. unfold runtime_error. rewrite (C34_lemma _ msg) by (assumption || lia). cbn [bind].
  destruct (copied_message _ _ junk H) as (rest & ->). rewrite c_string_app by (eapply message_nonzero; eauto). reflexivity.
Qed.
Lemma fit_messages_in c msg : In (c, msg) fit_messages -> In (- c, msg) messages.
Proof. cbn. intros [H|[H|[]]]; injection H as <- <-; auto 10. Qed.
Lemma init_messages_in c msg : In (c, msg) init_messages -> In (- c, msg) messages.
Proof. cbn. intros [H|[H|[H|[]]]]; injection H as <- <-; auto 10. Qed.

(** ** fit *)
Lemma fit_code (w : world B64) i data w' r : w_step w (OFit (N := B64) i data) = Ret (w', r) ->
  exists c, r = OutCode c /\ (c = 0 \/ exists msg, In (c, msg) fit_messages).
Proof.
  cbn [w_step]. destruct (spot_fit _ _ _) as [[s' c]|] eqn:F; [|discriminate]. cbn [bind]. intros H. injection H as <- <-.
  exists c. split; [reflexivity|]. apply C21_lemma in F as ([->|[->| ->]] & _); cbn; eauto 10.
Qed.

Lemma C43_fit_lemma mallocs junk (w : world B64) i data items :
  data = PyList items \/ data = PyIterable items ->
  8 * Z.of_nat (List.length items) < 2 ^ 64 -> (items = [] \/ mallocs (8 * Z.of_nat (List.length items)) = true) ->
  256 <= Z.of_nat (List.length junk) ->
  match w_step w (OFit (N := B64) i (map number_value items)) with
  | Undef x => py_fit mallocs junk w i data = Undef x
  | Ret (w', r) => exists c ret, r = OutCode c /\ py_fit mallocs junk w i data = Ret (w', ret) /\
      interpreter ret = seen_if ((c =? 0) && forallb is_number items) RNone /\
      (c = 0 \/ exists msg, In (c, msg) fit_messages /\ c_error ret = Some (RuntimeError (bytes_of msg)))
  end.
Proof.
  intros Hd H64 Hm Hj.
  assert (E : py_fit mallocs junk w i data =
    ('(w, r) <- w_step w (OFit (N := B64) i (map number_value items)) ;;
      match r with
      | OutCode c =>
          if c <? 0 then e <- runtime_error c junk ;; Ret (w, MkReturn (Some RNone) (Some e))
          else Ret (w, MkReturn (Some RNone) (fold_left (fun e o => last_error e (error_of o)) items None))
      | _ => Ret (w, MkReturn None None)
      end)).
  { unfold py_fit. replace (sequence_fast data) with (Some (true, items)) by (destruct Hd as [-> | ->]; reflexivity).
    unfold list_size. cbn [fst snd].
    replace (u64 (Z.of_nat (List.length items) * 8)) with (8 * Z.of_nat (List.length items)) by (unfold u64; rewrite Z.mod_small; lia).
    rewrite Nat2Z.id. change 0 with (Z.of_nat 0) at 2.
    rewrite copy_list; [reflexivity| |lia].
    destruct Hm as [-> |Hm]; [cbn; destruct (mallocs _); reflexivity|]. rewrite Hm.
    replace (8 * Z.of_nat (List.length items) / 8) with (Z.of_nat (List.length items)) by (rewrite Z.mul_comm, Z.div_mul; lia). lia. }
  rewrite E. clear E. destruct (w_step w _) as [[w' r]|x] eqn:F; [|reflexivity].
  apply fit_code in F as (c & -> & Hc). cbn [bind].
  pose proof (fold_error items None) as FE.
  destruct Hc as [-> |(msg & Hc)].
  - cbn [Z.ltb Z.compare Z.eqb andb]. eexists 0, _. split; [reflexivity|]. split; [reflexivity|].
    split; [|auto]. unfold interpreter, seen_if. cbn [c_value c_error].
    destruct (fold_left _ _ _).
    + destruct FE as [FE|FE]; [contradiction|]. rewrite FE. reflexivity.
    + rewrite (proj2 FE). reflexivity.
  - assert (Hn : c < 0) by (cbn in Hc; destruct Hc as [Hc|[Hc|[]]]; injection Hc as <- <-; lia).
    destruct (Z.ltb_spec c 0); [|lia]. rewrite (runtime_error_eq _ msg) by (auto using fit_messages_in). cbn [bind].
    exists c. eexists. split; [reflexivity|]. split; [reflexivity|]. destruct (Z.eqb_spec c 0); [lia|].
    split; [reflexivity|]. right. exists msg. auto.
Qed.

Lemma C43_tuple_lemma mallocs junk (w : world B64) i items : py_fit mallocs junk w i (PyTuple items) = Undef OutOfBounds.
Proof.
  unfold py_fit. cbn [sequence_fast]. unfold list_size. cbn [fst snd].
  rewrite copy_overflow; [reflexivity| |].
  - destruct (mallocs _); [|lia]. apply Z.div_pos; [|lia]. apply Z.mod_pos_bound. lia.
  - rewrite Z2Nat.id by (vm_compute; discriminate).
    assert ((if mallocs (u64 (u64 (-1) * 8)) then u64 (u64 (-1) * 8) / 8 else 0) <= 2 ^ 61) by (destruct (mallocs _); vm_compute; discriminate).
    assert (2 ^ 61 - 0 < u64 (-1)) by (vm_compute; reflexivity). lia.
Qed.
Lemma C43_malloc_lemma mallocs junk (w : world B64) i data items :
  data = PyList items \/ data = PyIterable items -> items <> [] ->
  mallocs (u64 (8 * Z.of_nat (List.length items))) = false -> py_fit mallocs junk w i data = Undef OutOfBounds.
Proof.
  intros Hd Hn Hm. unfold py_fit. replace (sequence_fast data) with (Some (true, items)) by (destruct Hd as [-> | ->]; reflexivity).
  unfold list_size. cbn [fst snd]. rewrite Z.mul_comm, Hm. rewrite copy_overflow; [reflexivity|lia|].
  rewrite Nat2Z.id. destruct items; [contradiction|]. cbn [List.length]. lia.
Qed.
Lemma C43_not_iterable_lemma mallocs junk (w : world B64) i data :
  (forall l, data <> PyList l /\ data <> PyTuple l /\ data <> PyIterable l) ->
  exists ret, py_fit mallocs junk w i data = Ret (w, ret) /\ interpreter ret = Raises TypeError.
Proof.
  intros H. destruct data; try (edestruct H as (? & ? & ?); contradiction); eexists; split; reflexivity.
Qed.

(** ** step, quantile, probability *)
Lemma seen_ok v x : interpreter (MkReturn (Some v) (error_of x)) = seen_if (is_number x) v.
Proof. unfold interpreter, seen_if. cbn. pose proof (error_number x). destruct (error_of x); rewrite H; reflexivity. Qed.
Lemma C43_step_lemma (w : world B64) i x :
  match w_step w (OStep (N := B64) i (number_value x)) with
  | Undef y => py_step w i x = Undef y
  | Ret (w', r) => exists c ret, r = OutCode c /\ py_step w i x = Ret (w', ret) /\
      interpreter ret = seen_if (is_number x) (RInt c)
  end.
Proof.
  unfold py_step. rewrite as_double_eq. destruct (w_step w _) as [[w' r]|y] eqn:F; [|reflexivity]. cbn [bind].
  cbn [w_step] in F. destruct (spot_step _ _ _) as [[s c]|]; [|discriminate]. cbn [bind] in F. injection F as <- <-.
  eexists c, _. split; [reflexivity|]. split; [reflexivity|]. apply seen_ok.
Qed.
Lemma C43_quantile_lemma (w : world B64) i x :
  match w_step w (OQuantile (N := B64) i (number_value x)) with
  | Undef y => py_quantile w i x = Undef y
  | Ret (w', r) => exists z ret, w' = w /\ r = OutNum z /\ py_quantile w i x = Ret (w, ret) /\
      interpreter ret = seen_if (is_number x) (RFloat z)
  end.
Proof.
  unfold py_quantile. rewrite as_double_eq. destruct (w_step w _) as [[w' r]|y] eqn:F; [|reflexivity]. cbn [bind].
  cbn [w_step] in F. destruct (spot_quantile _ _ _) as [z|]; [|discriminate]. cbn [bind] in F. injection F as <- <-.
  eexists z, _. split; [reflexivity|]. split; [reflexivity|]. split; [reflexivity|]. apply seen_ok.
Qed.
Lemma C43_probability_lemma (w : world B64) i x :
  match w_step w (OProbability (N := B64) i (number_value x)) with
  | Undef y => py_probability w i x = Undef y
  | Ret (w', r) => exists z ret, w' = w /\ r = OutNum z /\ py_probability w i x = Ret (w, ret) /\
      interpreter ret = seen_if (is_number x) (RFloat z)
  end.
Proof.
  unfold py_probability. rewrite as_double_eq. destruct (w_step w _) as [[w' r]|y] eqn:F; [|reflexivity]. cbn [bind].
  cbn [w_step] in F. destruct (spot_probability _ _ _) as [z|]; [|discriminate]. cbn [bind] in F. injection F as <- <-.
  eexists z, _. split; [reflexivity|]. split; [reflexivity|]. split; [reflexivity|]. apply seen_ok.
Qed.
Lemma store_same {N} (w : world N) i : detector_state (w_store w i (detector_state w i)) i = detector_state w i.
Proof.
  destruct (cs_data (w_inst w i)) as [a|] eqn:Ea; [destruct (w_heap w !! a) as [b|] eqn:E|].
  - apply (load_store _ _ _ a). split; [exact Ea|]. rewrite E. eauto.
  - unfold detector_state, w_store, load, get_data, store_data, set_inst. cbn [w_heap w_inst]. rewrite Z.eqb_refl, Ea.
    cbn [cs_spot cs_data deref]. rewrite E. cbn [deref]. rewrite E. reflexivity.
  - unfold detector_state, w_store, load, get_data, store_data, set_inst. cbn [w_heap w_inst]. rewrite Z.eqb_refl, Ea. reflexivity.
Qed.
Lemma C43_nan_lemma (w : world B64) i x : is_NaN x = true ->
  exists w' ret, py_step w i (PyFloat x) = Ret (w', ret) /\ interpreter ret = Returns (RInt (-1005)) /\
    detector_state w' i = detector_state w i.
Proof.
  intros H. destruct (C06_lemma (w_math w) (detector_state w i) x) as (E & _). specialize (E H).
  unfold py_step. cbn [as_double w_step]. unfold detector_state in E. rewrite E. cbn [bind].
  eexists _, _. split; [reflexivity|]. split; [reflexivity|]. apply store_same.
Qed.

(** ** excesses *)
Lemma to_python_list_ok cells : forall l, firstn (List.length l) cells = map Some l -> to_python_list cells (List.length l) = Ret l.
Proof.
  induction cells as [|c cells IH]; intros l H.
  - rewrite firstn_nil in H. destruct l; [reflexivity|discriminate].
  - destruct l as [|x l]; [reflexivity|]. cbn in H. injection H as -> H. cbn [to_python_list List.length].
    rewrite (IH l H). reflexivity.
Qed.
Lemma map_some_app {A} (a b : list (option A)) l : a ++ b = map Some l ->
  exists la lb, l = la ++ lb /\ a = map Some la /\ b = map Some lb.
Proof.
  revert l. induction a as [|x a IH]; intros l H; [exists [], l; auto|].
  destruct l as [|y l]; [discriminate|]. cbn in H. injection H as -> H.
  destruct (IH _ H) as (la & lb & -> & -> & ->). exists (y :: la), lb. auto.
Qed.
Lemma window_array cap (u : ubend B64) l : rep cap u l ->
  exists k, to_python_list (u_data u) (Z.to_nat (if u_filled u =? 0 then u_cursor u else u_capacity u)) = Ret k /\
    map Some k = cells u /\
    oldest_first u = map Some (skipn (Z.to_nat (u_cursor u)) k ++ firstn (Z.to_nat (u_cursor u)) k).
Proof.
  intros R. unfold oldest_first, cells, ubend_size.
  destruct R as (H & Hc & Hd & [(Hf & H1 & H2 & H3 & _)|(Hf & H1 & H2 & H3)]); rewrite Hf; cbn [Z.eqb].
  - rewrite H1, Nat2Z.id. exists l. split; [|split].
    + apply to_python_list_ok. exact H3.
    + symmetry. exact H3.
    + rewrite skipn_all, firstn_all. exact H3.
  - rewrite Hc, <- Hd, Nat2Z.id, firstn_all.
    destruct (map_some_app _ _ _ H3) as (la & lb & -> & Ha & Hb).
    assert (Hu : u_data u = map Some (lb ++ la)).
    { rewrite map_app, <- Ha, <- Hb. symmetry. apply firstn_skipn. }
    assert (Lb : List.length lb = Z.to_nat (u_cursor u)).
    { apply (f_equal (@List.length _)) in Hb. rewrite firstn_length, map_length in Hb. lia. }
    exists (lb ++ la). split; [|split].
    + assert (L : List.length (lb ++ la) = List.length (u_data u)) by (rewrite Hu, map_length; reflexivity).
      assert (T : forall n, n = List.length (u_data u) -> firstn n (u_data u) = map Some (lb ++ la)) by (intros n ->; rewrite firstn_all; exact Hu).
      specialize (T _ L). apply to_python_list_ok in T. etransitivity; [|exact T]. f_equal. symmetry. exact L.
    + symmetry. exact Hu.
    + rewrite <- Lb, skipn_app, firstn_app, skipn_all, firstn_all, Nat.sub_diag. cbn [skipn firstn app].
      rewrite app_nil_r, drop_0, Lb. exact H3.
Qed.
Lemma C43_excesses_lemma (w : world B64) i mf q low discard level cap :
  detector mf q low discard level cap (detector_state w i) ->
  exists l ret, py_excesses w i = Ret ret /\ interpreter ret = Returns (RList l) /\
    map Some l = cells (window (detector_state w i)) /\
    (let k := Z.to_nat (u_cursor (window (detector_state w i))) in
     oldest_first (window (detector_state w i)) = map Some (skipn k l ++ firstn k l)) /\
    exists dict, py_as_dict w i = Ret dict /\ In ("tail.peaks.container.data"%string, DList l) dict.
Proof.
  intros H. apply detector_facts in H as (_ & _ & _ & _ & _ & l & R).
  destruct (window_array cap _ l R) as (k & E & C & O).
  unfold py_excesses, py_as_dict. fold (detector_state w i). fold (window (detector_state w i)).
  change (win (detector_state w i)) with (window (detector_state w i)) in *.
  rewrite E. cbn [bind]. exists k. eexists. split; [reflexivity|]. split; [reflexivity|]. split; [exact C|].
  split; [exact O|]. eexists. split; [reflexivity|]. cbn [In]. do 18 right. left. reflexivity.
Qed.

(** ** Objects whose __init__ has not run *)
Lemma zero_times y : is_finite y = true -> exists s, b64_mult (B754_zero false) y = B754_zero s.
Proof. destruct y; try discriminate; intros _; cbn; eauto. Qed.
Lemma minus_zero_finite x : is_finite x = true -> is_finite (b64_minus x (B754_zero false)) = true.
Proof. destruct x; try discriminate; intros _; [destruct s|]; reflexivity. Qed.
Lemma C43_uninitialised_lemma (w : world B64) i x : is_finite x = true ->
  py_step (py_new w i) i (PyFloat x) = Undef OutOfBounds.
Proof.
  intros H. unfold py_step. cbn [as_double w_step].
  replace (load (w_heap (py_new w i)) (w_inst (py_new w i) i)) with (cs_spot zero_spot)
    by (unfold py_new, set_inst; cbn [w_inst w_heap]; rewrite Z.eqb_refl; reflexivity).
  assert (Hn : XMath.is_nan (N := B64) x = false) by (rewrite is_NaN_model; destruct x; reflexivity || discriminate H).
  unfold spot_step. rewrite Hn.
  cbn [zero_spot cs_spot s_discard s_updown s_at s_et s_n s_Nt s_tail with_counts Z.eqb negb andb].
  destruct (zero_times _ (minus_zero_finite x H)) as (sg & E). change (@nmul B64) with b64_mult. change (@nsub B64) with b64_minus.
  rewrite E.
  destruct sg; reflexivity.
Qed.

(** ** Construction *)
Lemma init_code (w : world B64) i q low discard level cap w' r :
  w_step w (OInit (N := B64) i q low discard level cap) = Ret (w', r) ->
  exists c, r = OutCode c /\ (c = 0 \/ c = -1000 \/ c = -1001 \/ c = -1002).
Proof.
  cbn [w_step]. destruct (w_init _ _ _ _ _ _ _) as [w1 c] eqn:E. intros H. injection H as <- <-.
  exists c. split; [reflexivity|]. revert E. unfold w_init, spot_init, spot_check.
  destruct (_ || _)%bool; [intros H; injection H as <- <-; auto|].
  destruct (_ || _)%bool; [intros H; injection H as <- <-; auto|].
  destruct (xmalloc _ _) as [[h [a|]] ev]; destruct (tail_init _ _) as [t r]; destruct (r <? 0); intros H; injection H as <- <-; auto.
Qed.
Lemma free_without_window {N} (w : world N) i : cs_data (w_inst w i) = None ->
  exists w', w_step w (OFree i) = Ret (w', OutUnit) /\ w_heap w' = w_heap w.
Proof. intros H. cbn [w_step]. unfold w_free_spot. rewrite H. eexists. split; reflexivity. Qed.
Lemma construct_fails (w w1 : world B64) i ret q low discard level cap junk :
  py_init junk (py_new w i) i q low discard level cap = Ret (w1, ret) -> c_value ret = None ->
  cs_data (w_inst w1 i) = None -> w_heap w1 = w_heap w ->
  exists w', py_construct junk w i q low discard level cap = Ret (w', ret) /\ w_heap w' = w_heap w.
Proof.
  intros E V D H. destruct (free_without_window w1 i D) as (w2 & F & Hh). exists w2. unfold py_construct. rewrite E. cbn [bind].
  rewrite V, F. cbn [bind]. split; [reflexivity|congruence].
Qed.
Lemma new_window (w : world B64) i : cs_data (w_inst (py_new w i) i) = None.
Proof. unfold py_new, set_inst. cbn [w_inst]. rewrite Z.eqb_refl. reflexivity. Qed.
Lemma C43_construct_lemma junk (w : world B64) i q low discard level cap : 256 <= Z.of_nat (List.length junk) ->
  exists w' ret, py_construct junk w i q low discard level cap = Ret (w', ret) /\
  if args_ok q low discard level then
    exists w1 c, w_step (py_new w i) (init_call i q low discard level cap) = Ret (w1, OutCode c) /\
      ((c = 0 /\ w' = w1 /\ interpreter ret = Returns RNone) \/
       (exists msg, In (c, msg) init_messages /\ interpreter ret = Raises (RuntimeError (bytes_of msg)) /\ w_heap w' = w_heap w))
  else (interpreter ret = Raises TypeError \/ interpreter ret = Raises OverflowError) /\ w_heap w' = w_heap w.
Proof.
  intros Hj.
  assert (EL : (match level with Some l => as_double (Some l) | None => (b64_div (b64_ofZ 98) (b64_ofZ 100), None) end) =
    (number_value (given level (PyFloat default_level)), error_of (given level (PyFloat default_level))))
    by (destruct level as [l|]; [apply as_double_eq|reflexivity]).
  assert (EI : py_init junk (py_new w i) i q low discard level cap =
    match error_of q, error_of (given level (PyFloat default_level)) with
    | None, None =>
      if (int32_ok (given low 0) && int32_ok (given discard 1))%bool then
        '(w, r) <- w_step (py_new w i) (init_call i q low discard level cap) ;;
        match r with
        | OutCode c =>
            if c <? 0 then e <- runtime_error c junk ;; Ret (w, MkReturn None (Some e))
            else Ret (w, MkReturn (Some RNone) None)
        | _ => Ret (w, MkReturn None None)
        end
      else Ret (py_new w i, MkReturn None (Some OverflowError))
    | Some e, _ | None, Some e => Ret (py_new w i, MkReturn None (Some e))
    end).
  { unfold py_init. rewrite as_double_eq, EL. unfold init_call. destruct cap; reflexivity. }
  assert (EB : forall z, int32_ok z = fits_int z) by (intros z; unfold int32_ok, fits_int; lia).
  rewrite !EB in EI. unfold args_ok.
  pose proof (error_number q) as E1. pose proof (error_number (given level (PyFloat default_level))) as E2.
  assert (TE : forall o e, error_of o = Some e -> e = TypeError \/ e = OverflowError).
  { intros o e. unfold error_of. destruct o; cbn [as_double snd]; try (intros H; injection H as <-; auto); try discriminate.
    destruct (BinarySingleNaN.is_finite _); intros H; [discriminate|injection H as <-; auto]. }
  destruct (error_of q) as [e|] eqn:Q.
  { rewrite E1. cbn [andb]. destruct (construct_fails _ _ _ _ _ _ _ _ _ _ EI eq_refl (new_window w i) eq_refl) as (w2 & C & H2).
    eexists w2, _. split; [exact C|]. split; [|exact H2]. cbn. destruct (TE _ _ Q) as [-> | ->]; auto. }
  rewrite E1. destruct (error_of (given level _)) as [e|] eqn:L.
  { rewrite E2. cbn [andb]. destruct (construct_fails _ _ _ _ _ _ _ _ _ _ EI eq_refl (new_window w i) eq_refl) as (w2 & C & H2).
    eexists w2, _. split; [exact C|]. split; [|exact H2]. cbn. destruct (TE _ _ L) as [-> | ->]; auto. }
  rewrite E2. cbn [andb]. destruct (fits_int (given low 0) && fits_int (given discard 1))%bool eqn:I.
  2: { destruct (construct_fails _ _ _ _ _ _ _ _ _ _ EI eq_refl (new_window w i) eq_refl) as (w2 & C & H2).
       eexists w2, _. split; [exact C|]. split; [|exact H2]. cbn. auto. }
  destruct (w_step (py_new w i) (init_call i q low discard level cap)) as [[w1 r]|x] eqn:S.
  2: { unfold init_call in S. cbn [w_step] in S. destruct (w_init _ _ _ _ _ _ _); discriminate. }
  destruct (init_code _ _ _ _ _ _ _ _ _ S) as (c & -> & Hc). cbn [bind] in EI.
  destruct (Z.eqb_spec c 0) as [-> |Hn].
  - cbn [Z.ltb Z.compare] in EI. eexists w1, _. unfold py_construct. rewrite EI. cbn [bind c_value]. split; [reflexivity|].
    exists w1, 0. split; [reflexivity|]. left. auto.
  - assert (Hm : exists msg, In (c, msg) init_messages) by (destruct Hc as [->|[->|[->| ->]]]; [contradiction|..]; cbn; eauto 10).
    destruct Hm as (msg & Hm). assert (c < 0) by lia. destruct (Z.ltb_spec c 0); [|lia].
    rewrite (runtime_error_eq _ msg) in EI by (auto using init_messages_in). cbn [bind] in EI.
    unfold init_call in S. cbn [w_step] in S. destruct (w_init _ _ _ _ _ _ _) as [w1' c'] eqn:W. injection S as -> ->.
    assert (HH : cs_data (w_inst w1 i) = None /\ w_heap w1 = w_heap w).
    { destruct (step_init_fail _ _ _ _ _ _ _ _ _ W Hn) as [-> |(_ & H1 & _ & _ & _ & H2 & _)]; [split; [apply new_window|reflexivity]|auto]. }
    destruct (construct_fails _ _ _ _ _ _ _ _ _ _ EI eq_refl (proj1 HH) (proj2 HH)) as (w2 & C & H2).
    eexists w2, _. split; [exact C|]. exists w1, c. split; [reflexivity|]. right. exists msg. auto.
Qed.
