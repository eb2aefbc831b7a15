(** * HeapLemmas: proofs about the heap shared by several detectors *)
From stdpp Require Import gmap.
From Coq Require Import ZArith List Bool Lia.
From Verif Require Import Num NumFacts XMath Ubend UbendFacts Peaks PeaksFacts Brent Estimator Tail P2 P2Facts Spot SpotFacts
  Session Heap HeapSpec.
Open Scope Z_scope.

Section HeapLemmas.
Context {N : NumOps}.
Implicit Types (w : world N) (h : heap N).

Lemma h_ins h a b : (<[a := b]> h : heap N) !! a = Some b.
Proof. apply (lookup_insert (M := gmap Z)). Qed.
Lemma h_ins_ne h a c b : a <> c -> (<[a := b]> h : heap N) !! c = h !! c.
Proof. apply (lookup_insert_ne (M := gmap Z)). Qed.
Lemma h_del_ne h a c : a <> c -> (delete a h : heap N) !! c = h !! c.
Proof. apply (lookup_delete_ne (M := gmap Z)). Qed.
Lemma h_del h a : (delete a h : heap N) !! a = None.
Proof. apply (lookup_delete (M := gmap Z)). Qed.

Lemma set_get (s : spot N) : set_data s (get_data s) = s.
Proof. destruct s as [? ? ? ? ? ? ? ? ? [? ? [? ? ? ? [? ? ? ? ?]]]]. reflexivity. Qed.
Lemma set_set (s : spot N) b c : set_data (set_data s b) c = set_data s c.
Proof. reflexivity. Qed.
Lemma get_set (s : spot N) b : get_data (set_data s b) = b.
Proof. reflexivity. Qed.

Lemma set_inst_eq w i c : set_inst w i c i = c.
Proof. unfold set_inst. rewrite Z.eqb_refl. reflexivity. Qed.
Lemma set_inst_neq w i j c : j <> i -> set_inst w i c j = w_inst w j.
Proof. intros H. unfold set_inst. rewrite (proj2 (Z.eqb_neq j i) H). reflexivity. Qed.

(** ** The invariant of correct use *)
Definition owns w (i a : Z) : Prop := cs_data (w_inst w i) = Some a /\ is_Some (w_heap w !! a).

Lemma store_owned w i s a : owns w i a ->
  w_heap (w_store w i s) = <[a := get_data s]> (w_heap w) /\ cs_data (w_inst (w_store w i s) i) = Some a.
Proof.
  intros [E [b Hb]]. unfold w_store. cbn. rewrite E. cbn. rewrite Hb. split; [reflexivity|].
  rewrite set_inst_eq. reflexivity.
Qed.

Lemma load_store w i s a : owns w i a -> detector_state (w_store w i s) i = s.
Proof.
  intros O. destruct (store_owned w i s a O) as [H1 H2]. unfold detector_state, load. rewrite H2, H1.
  cbn [deref]. rewrite h_ins. unfold w_store. cbn. rewrite set_inst_eq. apply set_get.
Qed.
Lemma load_store_other w i j s a b : owns w i a -> owns w j b -> a <> b -> i <> j ->
  detector_state (w_store w i s) j = detector_state w j.
Proof.
  intros O [E [c Hc]] Hab Hij. destruct (store_owned w i s a O) as [H1 H2]. unfold detector_state, load.
  rewrite H1. unfold w_store at 1 2; cbn. rewrite set_inst_neq by congruence. rewrite E. cbn [deref].
  rewrite h_ins_ne by congruence. reflexivity.
Qed.
Lemma owns_store w i j s a b : owns w i a -> owns w j b -> owns (w_store w i s) j b.
Proof.
  intros O [E [c Hc]]. destruct (store_owned w i s a O) as [H1 H2]. split.
  - unfold w_store; cbn. destruct (Z.eq_dec j i) as [->|Hn].
    + rewrite set_inst_eq. cbn. exact E.
    + rewrite set_inst_neq by assumption. exact E.
  - rewrite H1. destruct (Z.eq_dec a b) as [->|Hn].
    + rewrite h_ins. eauto.
    + rewrite h_ins_ne by assumption. eauto.
Qed.
Lemma owns_store_inv w i j s a b : owns w i a -> owns (w_store w i s) j b -> cs_data (w_inst w j) = Some b.
Proof.
  intros O [E _]. unfold w_store in E; cbn in E. destruct (Z.eq_dec j i) as [->|Hn].
  - rewrite set_inst_eq in E. exact E.
  - rewrite set_inst_neq in E by assumption. exact E.
Qed.

Lemma owns_fun w i a b : owns w i a -> owns w i b -> a = b.
Proof. intros [E _] [F _]. congruence. Qed.

(** ** What each operation does *)
Definition call_target (o : op N) : option Z :=
  match o with OFit i _ | OStep i _ | OQuantile i _ | OProbability i _ => Some i | _ => None end.

(** fit, step, quantile and probability act on the world as [do_call] does on the state of the detector. *)
Lemma step_call w o i c w' r : call_on i o = Some c -> w_step w o = Ret (w', r) ->
  exists s', do_call (w_math w) (detector_state w i) c = Ret (s', answer_of r) /\
    (w' = w_store w i s' \/ (w' = w /\ s' = detector_state w i)).
Proof.
  intros E H. destruct o; cbn in E; try discriminate;
    destruct (i0 =? i) eqn:Ei; try discriminate; apply Z.eqb_eq in Ei; subst i0; injection E as <-; cbn [w_step] in H.
  - destruct (spot_fit _ _ _) as [[s' c]|] eqn:F; [|discriminate]. cbn [bind] in H. injection H as <- <-.
    exists s'. unfold do_call, detector_state. rewrite F. cbn. auto.
  - destruct (spot_step _ _ _) as [[s' c]|] eqn:F; [|discriminate]. cbn [bind] in H. injection H as <- <-.
    exists s'. unfold do_call, detector_state. rewrite F. cbn. auto.
  - destruct (spot_quantile _ _ _) as [v|] eqn:F; [|discriminate]. cbn [bind] in H. injection H as <- <-.
    exists (detector_state w i). unfold do_call, detector_state. rewrite F. cbn. auto.
  - destruct (spot_probability _ _ _) as [v|] eqn:F; [|discriminate]. cbn [bind] in H. injection H as <- <-.
    exists (detector_state w i). unfold do_call, detector_state. rewrite F. cbn. auto.
Qed.
Lemma step_call_undef w o i c x : call_on i o = Some c -> w_step w o = Undef x ->
  do_call (w_math w) (detector_state w i) c = Undef x.
Proof.
  intros E H. destruct o; cbn in E; try discriminate;
    destruct (i0 =? i) eqn:Ei; try discriminate; apply Z.eqb_eq in Ei; subst i0; injection E as <-; cbn [w_step] in H;
    unfold do_call, detector_state.
  - destruct (spot_fit _ _ _) as [[s' c]|] eqn:F; [discriminate|]. injection H as <-. reflexivity.
  - destruct (spot_step _ _ _) as [[s' c]|] eqn:F; [discriminate|]. injection H as <-. reflexivity.
  - destruct (spot_quantile _ _ _) as [v|] eqn:F; [discriminate|]. injection H as <-. reflexivity.
  - destruct (spot_probability _ _ _) as [v|] eqn:F; [discriminate|]. injection H as <-. reflexivity.
Qed.

Lemma init_zero (old : spot N) q low discard level cap alloc s : spot_init old q low discard level cap alloc = (s, 0) ->
  exists blk, alloc (ubend_bytes cap) = Some blk /\ get_data s = blk /\ spot_check q level = None /\
    spot_init old q low discard level cap (fun _ => Some blk) = (s, 0).
Proof.
  unfold spot_init. destruct (spot_check q level) as [c|] eqn:C.
  { intros H. exfalso. unfold spot_check in C.
    destruct ((_ || _)%bool); [injection C as <-; discriminate|].
    destruct ((_ || _)%bool); [injection C as <-; discriminate|discriminate]. }
  destruct (alloc (ubend_bytes cap)) as [blk|]; cbn; intros H.
  - injection H as <-. exists blk. repeat split; reflexivity.
  - discriminate.
Qed.

(** A successful init, over the heap. *)
Lemma step_init_ok w i q low discard level cap w' : w_init w i q low discard level cap = (w', 0) ->
  exists m a blk s0,
    w_malloc w = Some m /\ m (ubend_bytes cap) (w_heap w) = Some a /\
    blk = repeat None (Z.to_nat (ubend_bytes cap / 8)) /\
    spot_init (cs_spot (w_inst w i)) q low discard level cap (fun _ => Some blk) = (s0, 0) /\
    get_data s0 = blk /\
    w' = MkWorld (<[a := blk]> (w_heap w)) (w_malloc w) (w_free w) (w_utils w)
           (set_inst w i (MkCspot s0 (Some a))) (w_log w ++ [EvMalloc (ubend_bytes cap) (Some a)]).
Proof.
  unfold w_init, xmalloc. destruct (spot_check q level) as [c|] eqn:C.
  { intros H. exfalso. injection H as _ ->. unfold spot_check in C.
    destruct ((_ || _)%bool); [discriminate|].
    destruct ((_ || _)%bool); [discriminate|discriminate]. }
  destruct (w_malloc w) as [m|] eqn:M.
  2:{ destruct (spot_init _ _ _ _ _ _ _) as [s r] eqn:E. intros H. injection H as _ ->.
      apply init_zero in E as (blk & E & _). discriminate. }
  destruct (m (ubend_bytes cap) (w_heap w)) as [a|] eqn:A.
  2:{ destruct (spot_init _ _ _ _ _ _ _) as [s r] eqn:E. intros H. injection H as _ ->.
      apply init_zero in E as (blk & E & _). discriminate. }
  destruct (spot_init _ _ _ _ _ _ _) as [s r] eqn:E. intros H. injection H as <- ->.
  apply init_zero in E as (blk & E & E2 & E3 & E4). cbn in E. rewrite h_ins in E. injection E as <-.
  exists m, a, (repeat None (Z.to_nat (ubend_bytes cap / 8))), s. repeat split; auto.
Qed.

(** An init that did not return 0. *)
Lemma step_init_fail w i q low discard level cap w' r : w_init w i q low discard level cap = (w', r) -> r <> 0 ->
  w' = w \/
  (r = -1000 /\ w_heap w' = w_heap w /\ w_malloc w' = w_malloc w /\ w_free w' = w_free w /\ w_utils w' = w_utils w /\
   cs_data (w_inst w' i) = None /\ (forall j, j <> i -> w_inst w' j = w_inst w j) /\
   spot_check q level = None /\
   w_log w' = w_log w ++ match w_malloc w with None => [] | Some _ => [EvMalloc (ubend_bytes cap) None] end).
Proof.
  unfold w_init, xmalloc. destruct (spot_check q level) as [c|] eqn:C.
  { intros H _. injection H as <- <-. auto. }
  destruct (w_malloc w) as [m|] eqn:M; [destruct (m (ubend_bytes cap) (w_heap w)) as [a|] eqn:A|];
    unfold spot_init; rewrite C; cbn; intros H Hr; injection H as <- <-.
  - congruence.
  - right. cbn. rewrite set_inst_eq. repeat split; auto. intros j Hj. apply set_inst_neq; assumption.
  - right. cbn. rewrite set_inst_eq. repeat split; auto. intros j Hj. apply set_inst_neq; assumption.
Qed.

Lemma free_ok w i a w' : cs_data (w_inst w i) = Some a -> w_free_spot w i = Ret w' ->
  w_malloc w' = w_malloc w /\ w_free w' = w_free w /\ w_utils w' = w_utils w /\
  w_inst w' = set_inst w i (MkCspot (spot_free (cs_spot (w_inst w i))) (Some a)) /\
  if w_free w then w_heap w' = delete a (w_heap w) /\ w_log w' = w_log w ++ [EvFree a] /\ is_Some (w_heap w !! a)
  else w_heap w' = w_heap w /\ w_log w' = w_log w.
Proof.
  intros E. unfold w_free_spot, xfree. rewrite E. destruct (w_free w) eqn:F.
  - destruct (w_heap w !! a) eqn:L; [|discriminate]. cbn. intros H. injection H as <-. cbn. repeat split; eauto.
  - cbn. intros H. injection H as <-. cbn. rewrite app_nil_r. repeat split; reflexivity.
Qed.

(** ** Preservation *)
Record inv (live : Z -> bool) w : Prop := {
  inv_owns : forall i, live i = true -> exists a, owns w i a;
  inv_apart : forall i j a, live i = true -> live j = true -> owns w i a -> owns w j a -> i = j;
  inv_malloc : fresh_malloc (w_malloc w)
}.

Lemma inv_start w : fresh_malloc (w_malloc w) -> inv none_live w.
Proof. intros H. split; [discriminate|discriminate|assumption]. Qed.

Lemma inv_store live w i s a : inv live w -> owns w i a -> inv live (w_store w i s).
Proof.
  intros [Ho Ha Hm] O. split.
  - intros j Hj. destruct (Ho j Hj) as [b Hb]. exists b. eapply owns_store; eauto.
  - intros j k b Hj Hk Oj Ok. destruct (Ho j Hj) as [bj Hbj], (Ho k Hk) as [bk Hbk].
    pose proof (owns_store_inv _ _ _ _ _ _ O Oj) as Ej. pose proof (owns_store_inv _ _ _ _ _ _ O Ok) as Ek.
    assert (bj = b) by (destruct Hbj; congruence). assert (bk = b) by (destruct Hbk; congruence). subst.
    eapply Ha; eauto.
  - exact Hm.
Qed.

Lemma call_on_self o i : call_target o = Some i -> exists c, call_on i o = Some c.
Proof. destruct o; cbn; intros H; try discriminate; injection H as ->; rewrite Z.eqb_refl; eauto. Qed.
Lemma call_on_target o i c : call_on i o = Some c -> call_target o = Some i.
Proof.
  destruct o; cbn; intros H; try discriminate; destruct (Z.eqb_spec i0 i); try discriminate; subst; reflexivity.
Qed.

Lemma step_inv live w o w' r : inv live w -> allowed live o -> w_step w o = Ret (w', r) ->
  inv (live_after live o r) w' /\ w_utils w' = w_utils w.
Proof.
  intros I A H. destruct (call_target o) as [i|] eqn:T.
  - destruct (call_on_self _ _ T) as [c Hc]. destruct (step_call _ _ _ _ _ _ Hc H) as (s' & _ & Hw).
    assert (L : live i = true) by (destruct o; cbn in T; try discriminate; injection T as ->; exact A).
    destruct (inv_owns _ _ I i L) as [a O].
    assert (EL : live_after live o r = live) by (destruct o; try discriminate; reflexivity).
    rewrite EL. destruct Hw as [->|[-> _]]; [|auto]. split; [eapply inv_store; eauto|reflexivity].
  - destruct o; try discriminate; cbn [w_step] in H.
    + injection H as <- <-. cbn. split; [|reflexivity]. destruct I as [Ho Ha Hm]. split; auto.
    + destruct A.
    + destruct (w_init w i q low discard level max_excess) as [w1 r1] eqn:E. injection H as <- <-. cbn [allowed] in A.
      destruct (Z.eq_dec r1 0) as [->|Hr].
      * apply step_init_ok in E as (m & a & blk & s0 & Em & Ea & Eb & Es & Eg & ->). cbn.
        split; [|reflexivity]. pose proof (inv_malloc _ _ I) as Fm. rewrite Em in Fm. pose proof (Fm _ _ _ Ea) as Fa.
        assert (K : forall j b, j <> i -> live j = true ->
                  owns (MkWorld (<[a:=blk]> (w_heap w)) (w_malloc w) (w_free w) (w_utils w)
                        (set_inst w i (MkCspot s0 (Some a))) (w_log w ++ [EvMalloc (ubend_bytes max_excess) (Some a)])) j b
                  -> owns w j b /\ b <> a).
        { intros j b Hj Lj [Hd Hh]. cbn in Hd, Hh. rewrite set_inst_neq in Hd by assumption.
          destruct (inv_owns _ _ I j Lj) as [b' [Hd' Hh']].
          assert (b' = b) by congruence. subst b'.
          split; [split; assumption|]. intros ->. rewrite Fa in Hh'. destruct Hh'. discriminate. }
        split.
        -- intros j Hj. destruct (Z.eq_dec j i) as [e|Hn]; [subst j|rewrite (proj2 (Z.eqb_neq j i) Hn) in Hj].
           ++ exists a. split; cbn; [rewrite set_inst_eq; reflexivity|]. rewrite h_ins. eauto.
           ++ cbn in Hj. destruct (inv_owns _ _ I j Hj) as [b [Hd Hh]]. exists b. split; cbn.
              ** rewrite set_inst_neq by assumption. exact Hd.
              ** destruct (Z.eq_dec a b) as [->|]; [rewrite h_ins; eauto|].
                 rewrite h_ins_ne by assumption. exact Hh.
        -- intros j k b Hj Hk Oj Ok.
           destruct (Z.eq_dec j i) as [ej|Hjn]; [|rewrite (proj2 (Z.eqb_neq j i) Hjn) in Hj];
             (destruct (Z.eq_dec k i) as [ek|Hkn]; [|rewrite (proj2 (Z.eqb_neq k i) Hkn) in Hk]); [congruence| | |]; try subst j; try subst k.
           ++ exfalso. destruct (K k b Hkn Hk Ok) as [_ Hb]. destruct Oj as [Hd _]. cbn in Hd.
              rewrite set_inst_eq in Hd. cbn in Hd. congruence.
           ++ exfalso. destruct (K j b Hjn Hj Oj) as [_ Hb]. destruct Ok as [Hd _]. cbn in Hd.
              rewrite set_inst_eq in Hd. cbn in Hd. congruence.
           ++ cbn in Hj, Hk. eapply (inv_apart _ _ I); eauto; [apply (K j b Hjn Hj Oj)|apply (K k b Hkn Hk Ok)].
        -- exact (inv_malloc _ _ I).
      * assert (EL : forall j, live_after live (OInit i q low discard level max_excess) (OutCode r1) j = live j).
        { intros j. cbn. rewrite (proj2 (Z.eqb_neq r1 0) Hr), andb_false_r. reflexivity. }
        destruct (step_init_fail _ _ _ _ _ _ _ _ _ E Hr) as [->|(_ & Hh & Hm & Hf & Hu & Hd & Hi & _)].
        -- split; [|reflexivity]. destruct I as [Ho Ha Hm]. split.
           ++ intros j Hj. rewrite EL in Hj. auto.
           ++ intros j k b Hj Hk Oj Ok. rewrite EL in Hj, Hk. eapply Ha; eauto.
           ++ assumption.
        -- split; [|assumption].
           assert (K : forall j, live j = true -> w_inst w1 j = w_inst w j) by (intros j Hj; apply Hi; congruence).
           split.
           ++ intros j Hj. rewrite EL in Hj. destruct (inv_owns _ _ I j Hj) as [b [Hb1 Hb2]]. exists b.
              split; [rewrite K by assumption|rewrite Hh]; assumption.
           ++ intros j k b Hj Hk [D1 H1] [D2 H2]. rewrite EL in Hj, Hk. rewrite K in D1, D2 by assumption. rewrite Hh in H1, H2.
              eapply (inv_apart _ _ I); eauto; split; eassumption.
           ++ rewrite Hm. exact (inv_malloc _ _ I).
    + cbn [allowed] in A. destruct (w_free_spot w i) as [w1|] eqn:E; [|discriminate]. injection H as <- <-.
      destruct (inv_owns _ _ I i A) as [a [Da Ha]].
      destruct (free_ok _ _ _ _ Da E) as (Hm & Hf & Hu & Hi & Hh).
      split; [|assumption].
      assert (K : forall j, j <> i -> w_inst w1 j = w_inst w j).
      { intros j Hj. rewrite Hi. apply set_inst_neq. assumption. }
      split.
      * intros j Hj. cbn in Hj. destruct (Z.eq_dec j i) as [e|Hn];
          [subst j; rewrite Z.eqb_refl in Hj; discriminate|rewrite (proj2 (Z.eqb_neq j i) Hn) in Hj].
        destruct (inv_owns _ _ I j Hj) as [b [Db Hb]]. exists b. split; [rewrite K by assumption; exact Db|].
        destruct (w_free w).
        -- destruct Hh as [-> _]. rewrite h_del_ne; [exact Hb|]. intros ->.
           apply Hn. symmetry. eapply (inv_apart _ _ I); eauto; split; eauto.
        -- destruct Hh as [-> _]. exact Hb.
      * intros j k b Hj Hk [D1 H1] [D2 H2]. cbn in Hj, Hk.
        destruct (Z.eq_dec j i) as [ej|Hjn];
          [subst j; rewrite Z.eqb_refl in Hj; discriminate|rewrite (proj2 (Z.eqb_neq j i) Hjn) in Hj].
        destruct (Z.eq_dec k i) as [ek|Hkn];
          [subst k; rewrite Z.eqb_refl in Hk; discriminate|rewrite (proj2 (Z.eqb_neq k i) Hkn) in Hk].
        rewrite K in D1, D2 by assumption.
        destruct (inv_owns _ _ I j Hj) as [b1 O1], (inv_owns _ _ I k Hk) as [b2 O2].
        assert (b1 = b) by (destruct O1; congruence). assert (b2 = b) by (destruct O2; congruence). subst.
        eapply (inv_apart _ _ I); eauto.
      * rewrite Hm. exact (inv_malloc _ _ I).
Qed.

Lemma state_call live w o w' r j c : inv live w -> live j = true -> call_on j o = Some c -> w_step w o = Ret (w', r) ->
  do_call (w_math w) (detector_state w j) c = Ret (detector_state w' j, answer_of r).
Proof.
  intros I L Hc H. destruct (step_call _ _ _ _ _ _ Hc H) as (s' & Hd & Hw). rewrite Hd.
  destruct (inv_owns _ _ I j L) as [a O].
  destruct Hw as [->|[-> ->]]; [|reflexivity]. rewrite (load_store _ _ _ _ O). reflexivity.
Qed.

Lemma state_other live w o w' r j : inv live w -> allowed live o -> live j = true -> call_on j o = None ->
  leaves_alone j o -> w_step w o = Ret (w', r) -> detector_state w' j = detector_state w j.
Proof.
  intros I A L Hc La H. destruct (inv_owns _ _ I j L) as [b Ob].
  destruct (call_target o) as [i|] eqn:T.
  - destruct (call_on_self _ _ T) as [c Hci]. destruct (step_call _ _ _ _ _ _ Hci H) as (s' & _ & Hw).
    assert (Li : live i = true) by (destruct o; cbn in T; try discriminate; injection T as ->; exact A).
    destruct (inv_owns _ _ I i Li) as [a Oa]. assert (Hij : i <> j) by (intros ->; congruence).
    destruct Hw as [->|[-> _]]; [|reflexivity].
    apply (load_store_other _ _ _ _ a b); auto. intros ->. apply Hij. eapply (inv_apart _ _ I); eauto.
  - destruct Ob as [Db Hb]. unfold detector_state, load. destruct o; try discriminate; cbn [w_step] in H.
    + injection H as <- <-. reflexivity.
    + destruct A.
    + destruct (w_init w i q low discard level max_excess) as [w1 r1] eqn:E. injection H as <- <-. cbn in La, A.
      destruct (Z.eq_dec r1 0) as [->|Hr].
      * apply step_init_ok in E as (m & a & blk & s0 & Em & Ea & Eb & Es & Eg & ->). cbn [w_heap w_inst].
        rewrite set_inst_neq by congruence. rewrite Db. cbn [deref].
        pose proof (inv_malloc _ _ I) as Fm. rewrite Em in Fm. pose proof (Fm _ _ _ Ea) as Fa.
        rewrite h_ins_ne; [reflexivity|]. intros ->. rewrite Fa in Hb. destruct Hb; discriminate.
      * destruct (step_init_fail _ _ _ _ _ _ _ _ _ E Hr) as [->|(_ & Hh & Hm & Hf & Hu & Hd & Hi & _)]; [reflexivity|].
        rewrite Hi by congruence. rewrite Hh. reflexivity.
    + cbn in A, La. destruct (w_free_spot w i) as [w1|] eqn:E; [|discriminate]. injection H as <- <-.
      destruct (inv_owns _ _ I i A) as [a [Da Ha]].
      destruct (free_ok _ _ _ _ Da E) as (Hm & Hf & Hu & Hi & Hh). rewrite Hi. rewrite set_inst_neq by congruence.
      rewrite Db. cbn [deref]. destruct (w_free w); destruct Hh as [-> _]; [|reflexivity].
      rewrite h_del_ne; [reflexivity|]. intros ->. apply La. eapply (inv_apart _ _ I); eauto; split; eauto.
Qed.

Lemma live_alone live (o : op N) (r : out N) j : live j = true -> leaves_alone j o -> live_after live o r j = true.
Proof.
  intros L La. destruct o; cbn in *; try exact L.
  - destruct r; try exact L. destruct ((j =? i) && (c =? 0)); [reflexivity|exact L].
  - destruct (Z.eqb_spec j i); [congruence|exact L].
Qed.

Lemma run_session j ops : forall live w w' outs, inv live w -> live j = true -> correct_use live ops outs ->
  (forall o, In o ops -> leaves_alone j o) -> w_run w ops = Ret (w', outs) ->
  session (w_math w) (detector_state w j) (calls_on j ops) = Ret (detector_state w' j, answers_to j ops outs).
Proof.
  induction ops as [|o ops IH]; intros live w w' outs I L C La H; cbn in H.
  - injection H as <- <-. reflexivity.
  - destruct (w_step w o) as [[w1 r]|] eqn:E1; [|discriminate]. cbn [bind] in H.
    destruct (w_run w1 ops) as [[w2 rs]|] eqn:E2; [|discriminate]. cbn [bind] in H. injection H as <- <-.
    destruct C as [A C].
    destruct (step_inv _ _ _ _ _ I A E1) as [I1 U].
    assert (L1 : live_after live o r j = true) by (apply live_alone; [assumption|apply La; left; reflexivity]).
    specialize (IH _ _ _ _ I1 L1 C (fun o' Ho => La o' (or_intror Ho)) E2).
    assert (M : w_math w1 = w_math w) by (unfold w_math; rewrite U; reflexivity).
    cbn [calls_on answers_to]. destruct (call_on j o) as [c|] eqn:Hc.
    + cbn [session]. rewrite (state_call _ _ _ _ _ _ _ I L Hc E1). cbn [bind]. rewrite M in IH. rewrite IH. reflexivity.
    + rewrite M in IH. rewrite <- IH. f_equal. symmetry. eapply state_other; eauto. apply La. left. reflexivity.
Qed.

Lemma w_run_app w ops1 ops2 w' outs : w_run w (ops1 ++ ops2) = Ret (w', outs) ->
  exists w1 o1 o2, w_run w ops1 = Ret (w1, o1) /\ w_run w1 ops2 = Ret (w', o2) /\ outs = o1 ++ o2 /\ length o1 = length ops1.
Proof.
  revert w w' outs. induction ops1 as [|o ops1 IH]; intros w w' outs H; cbn in H.
  - exists w, [], outs. auto.
  - destruct (w_step w o) as [[w1 r]|] eqn:E1; [|discriminate]. cbn [bind] in H.
    destruct (w_run w1 (ops1 ++ ops2)) as [[w2 rs]|] eqn:E2; [|discriminate]. cbn [bind] in H. injection H as <- <-.
    destruct (IH _ _ _ E2) as (wa & o1 & o2 & Ha & Hb & -> & Hl).
    exists wa, (r :: o1), o2. cbn. rewrite E1. cbn. rewrite Ha. cbn. auto.
Qed.
Lemma correct_app live (ops1 ops2 : list (op N)) (o1 o2 : list (out N)) : length o1 = length ops1 -> correct_use live (ops1 ++ ops2) (o1 ++ o2) ->
  correct_use live ops1 o1 /\ correct_use (live_at_end live ops1 o1) ops2 o2.
Proof.
  revert live o1. induction ops1 as [|o ops1 IH]; intros live [|r o1] Hl H; cbn in Hl, H; try discriminate; cbn.
  - auto.
  - injection Hl as Hl. destruct H as [A H]. destruct (IH _ _ Hl H). auto.
Qed.
Lemma run_inv live ops w w' outs : inv live w -> correct_use live ops outs -> w_run w ops = Ret (w', outs) ->
  inv (live_at_end live ops outs) w' /\ w_utils w' = w_utils w.
Proof.
  revert live w outs. induction ops as [|o ops IH]; intros live w outs I C H; cbn in H.
  - injection H as <- <-. auto.
  - destruct (w_step w o) as [[w1 r]|] eqn:E1; [|discriminate]. cbn [bind] in H.
    destruct (w_run w1 ops) as [[w2 rs]|] eqn:E2; [|discriminate]. cbn [bind] in H. injection H as <- <-.
    destruct C as [A C]. destruct (step_inv _ _ _ _ _ I A E1) as [I1 U].
    destruct (IH _ _ _ I1 C E2) as [I2 U2]. split; [exact I2|]. rewrite U2, U. reflexivity.
Qed.

Lemma skipn_mid {A} (l : list A) x r : skipn (S (length l)) (l ++ x :: r) = r.
Proof. induction l as [|y l IH]; [reflexivity|exact IH]. Qed.

(** ** C41 *)
Lemma C41_lemma w pre j q low discard level cap post w' outs :
  fresh_malloc (w_malloc w) ->
  w_run w (pre ++ OInit j q low discard level cap :: post) = Ret (w', outs) ->
  correct_use none_live (pre ++ OInit j q low discard level cap :: post) outs ->
  nth_error outs (length pre) = Some (OutCode 0) ->
  (forall o, In o post -> leaves_alone j o) ->
  exists old s0,
    spot_init old q low discard level cap (fun bytes => Some (repeat None (Z.to_nat (bytes / 8)))) = (s0, 0) /\
    session (c_math (w_utils w)) s0 (calls_on j post) =
      Ret (detector_state w' j, answers_to j post (skipn (S (length pre)) outs)).
Proof.
  intros F R C Hz La.
  destruct (w_run_app _ _ _ _ _ R) as (w1 & o1 & o2 & R1 & R2 & -> & Hl).
  destruct (correct_app _ _ _ _ _ Hl C) as [C1 C2].
  destruct (run_inv _ _ _ _ _ (inv_start w F) C1 R1) as [I1 U1].
  cbn [w_run] in R2. destruct (w_step w1 _) as [[w2 r]|] eqn:E1; [|discriminate]. cbn [bind] in R2.
  destruct (w_run w2 post) as [[w3 rs]|] eqn:E2; [|discriminate]. cbn [bind] in R2. injection R2 as <- <-.
  cbn [correct_use] in C2. destruct C2 as [A C2].
  rewrite <- Hl in Hz. rewrite nth_error_app2 in Hz by lia. rewrite Nat.sub_diag in Hz. cbn in Hz. injection Hz as ->.
  destruct (step_inv _ _ _ _ _ I1 A E1) as [I2 U2].
  assert (L2 : live_after (live_at_end none_live pre o1) (OInit j q low discard level cap) (OutCode 0) j = true).
  { cbn. rewrite Z.eqb_refl. reflexivity. }
  pose proof (run_session j post _ _ _ _ I2 L2 C2 La E2) as HS.
  cbn [w_step] in E1. destruct (w_init _ _ _ _ _ _ _) as [w2' r'] eqn:Ei. injection E1 as -> ->.
  apply step_init_ok in Ei as (m & a & blk & s0 & Em & Ea & Eb & Es & Eg & Ew).
  exists (cs_spot (w_inst w1 j)), s0.
  assert (D : detector_state w2 j = s0).
  { unfold detector_state, load. rewrite Ew. cbn [w_heap w_inst]. rewrite set_inst_eq. cbn [cs_data cs_spot deref].
    rewrite h_ins, <- Eg. apply set_get. }
  split.
  - rewrite <- Es. unfold spot_init. rewrite Eb. reflexivity.
  - rewrite <- Hl, skipn_mid.
    rewrite D in HS. unfold w_math in HS. rewrite U2, U1 in HS. exact HS.
Qed.

(** ** Leaks *)
(** [base]: the heap before the first call. The blocks of live detectors are not in [base]; everything else is as in
    [base], as long as a free function is registered. *)
Definition tight (base : heap N) (live : Z -> bool) w : Prop :=
  w_free w = true /\
  (forall i a, live i = true -> owns w i a -> base !! a = None) /\
  (forall a, (forall i, live i = true -> ~ owns w i a) -> w_heap w !! a = base !! a).

Lemma tight_start w : w_free w = true -> tight (w_heap w) none_live w.
Proof. intros F. split; [assumption|]. split; [discriminate|]. reflexivity. Qed.

Definition keeps_free (o : op N) : Prop := match o with OSetAllocators _ f => f = true | _ => True end.

Lemma step_tight base live w o w' r : inv live w -> tight base live w -> allowed live o -> keeps_free o ->
  w_step w o = Ret (w', r) -> tight base (live_after live o r) w'.
Proof.
  intros I (F & Tb & Th) A K H. destruct (call_target o) as [i|] eqn:T.
  - destruct (call_on_self _ _ T) as [c Hc]. destruct (step_call _ _ _ _ _ _ Hc H) as (s' & _ & Hw).
    assert (L : live i = true) by (destruct o; cbn in T; try discriminate; injection T as ->; exact A).
    destruct (inv_owns _ _ I i L) as [a O].
    assert (EL : live_after live o r = live) by (destruct o; try discriminate; reflexivity).
    rewrite EL. destruct Hw as [->|[-> _]]; [|split; [|split]; assumption].
    split; [exact F|]. split.
    + intros j b Hj Oj. destruct (inv_owns _ _ I j Hj) as [b' O'].
      pose proof (owns_store_inv _ _ _ _ _ _ O Oj). assert (b' = b) by (destruct O'; congruence). subst b'. eapply Tb; eauto.
    + intros b Hb. destruct (store_owned w i s' a O) as [Hh _]. rewrite Hh. rewrite h_ins_ne.
      * apply Th. intros j Hj Oj. apply (Hb j Hj). eapply owns_store; eauto.
      * intros ->. apply (Hb i L). eapply owns_store; eauto.
  - destruct o; try discriminate; cbn [w_step] in H.
    + injection H as <- <-. cbn in *. subst f. split; [reflexivity|]. split; assumption.
    + destruct A.
    + destruct (w_init w i q low discard level max_excess) as [w1 r1] eqn:E. injection H as <- <-. cbn [allowed] in A.
      destruct (Z.eq_dec r1 0) as [->|Hr].
      * apply step_init_ok in E as (m & a & blk & s0 & Em & Ea & Eb & Es & Eg & ->).
        pose proof (inv_malloc _ _ I) as Fm. rewrite Em in Fm. pose proof (Fm _ _ _ Ea) as Fa.
        assert (Na : forall j, live j = true -> ~ owns w j a).
        { intros j Hj [_ Hh]. rewrite Fa in Hh. destruct Hh. discriminate. }
        split; [exact F|]. split.
        -- intros j b Hj [Hd Hh]. cbn in Hj, Hd, Hh. destruct (Z.eq_dec j i) as [e|Hn].
           ++ subst j. rewrite set_inst_eq in Hd. cbn in Hd. injection Hd as <-. rewrite <- Th by assumption. exact Fa.
           ++ rewrite (proj2 (Z.eqb_neq j i) Hn) in Hj. cbn in Hj. rewrite set_inst_neq in Hd by assumption.
              destruct (inv_owns _ _ I j Hj) as [b' O']. assert (b' = b) by (destruct O'; congruence). subst b'. eapply Tb; eauto.
        -- intros b Hb. cbn [w_heap]. rewrite h_ins_ne.
           ++ apply Th. intros j Hj Oj. apply (Hb j).
              ** cbn. rewrite Hj. destruct (_ && _); reflexivity.
              ** assert (j <> i) by congruence. destruct Oj as [Hd Hh]. split; cbn.
                 --- rewrite set_inst_neq by assumption. exact Hd.
                 --- rewrite h_ins_ne; [exact Hh|]. intros ->. apply (Na j Hj). split; assumption.
           ++ intros ->. apply (Hb i); [cbn; rewrite Z.eqb_refl; reflexivity|]. split; cbn.
              ** rewrite set_inst_eq. reflexivity.
              ** rewrite h_ins. eauto.
      * assert (EL : forall j, live_after live (OInit i q low discard level max_excess) (OutCode r1) j = live j).
        { intros j. cbn. rewrite (proj2 (Z.eqb_neq r1 0) Hr), andb_false_r. reflexivity. }
        destruct (step_init_fail _ _ _ _ _ _ _ _ _ E Hr) as [->|(_ & Hh & Hm & Hf & Hu & Hd & Hi & _)].
        -- split; [exact F|]. split; [intros j b Hj; rewrite EL in Hj; eauto|]. intros b Hb. apply Th.
           intros j Hj. apply Hb. rewrite EL. exact Hj.
        -- assert (Ki : forall j, live j = true -> w_inst w1 j = w_inst w j) by (intros j Hj; apply Hi; congruence).
           split; [congruence|]. split.
           ++ intros j b Hj [H1 H2]. rewrite EL in Hj. rewrite Ki in H1 by assumption. rewrite Hh in H2. eapply Tb; eauto. split; assumption.
           ++ intros b Hb. rewrite Hh. apply Th. intros j Hj [H1 H2]. apply (Hb j); [rewrite EL; exact Hj|].
              split; [rewrite Ki by assumption|rewrite Hh]; assumption.
    + cbn [allowed] in A. destruct (w_free_spot w i) as [w1|] eqn:E; [|discriminate]. injection H as <- <-.
      destruct (inv_owns _ _ I i A) as [a [Da Ha]].
      destruct (free_ok _ _ _ _ Da E) as (Hm & Hf & Hu & Hi & Hh). rewrite F in Hh. destruct Hh as (Hh & _ & _).
      assert (Ki : forall j, j <> i -> w_inst w1 j = w_inst w j).
      { intros j Hj. rewrite Hi. apply set_inst_neq. assumption. }
      split; [congruence|]. split.
      * intros j b Hj [H1 H2]. cbn in Hj. destruct (Z.eq_dec j i) as [e|Hn].
        { subst j. rewrite Z.eqb_refl in Hj. discriminate. }
        rewrite (proj2 (Z.eqb_neq j i) Hn) in Hj. rewrite Ki in H1 by assumption.
        destruct (inv_owns _ _ I j Hj) as [b' O']. assert (b' = b) by (destruct O'; congruence). subst b'. eapply Tb; eauto.
      * intros b Hb. rewrite Hh. destruct (Z.eq_dec a b) as [<-|Hab].
        -- rewrite h_del. symmetry. eapply Tb; [exact A|]. split; eauto.
        -- rewrite h_del_ne by assumption. apply Th. intros j Hj [H1 H2].
           destruct (Z.eq_dec j i) as [e|Hn]; [subst j; congruence|].
           apply (Hb j); [cbn; rewrite (proj2 (Z.eqb_neq j i) Hn); exact Hj|].
           split; [rewrite Ki by assumption; exact H1|]. rewrite Hh, h_del_ne by assumption. exact H2.
Qed.

Lemma run_tight base ops : forall live w w' outs, inv live w -> tight base live w -> correct_use live ops outs ->
  (forall o, In o ops -> keeps_free o) -> w_run w ops = Ret (w', outs) -> tight base (live_at_end live ops outs) w'.
Proof.
  induction ops as [|o ops IH]; intros live w w' outs I T C K H; cbn in H.
  - injection H as <- <-. exact T.
  - destruct (w_step w o) as [[w1 r]|] eqn:E1; [|discriminate]. cbn [bind] in H.
    destruct (w_run w1 ops) as [[w2 rs]|] eqn:E2; [|discriminate]. cbn [bind] in H. injection H as <- <-.
    destruct C as [A C]. destruct (step_inv _ _ _ _ _ I A E1) as [I1 U].
    eapply IH; eauto; [|intros; apply K; right; assumption].
    eapply step_tight; eauto. apply K. left. reflexivity.
Qed.

Lemma C36_leak_lemma w ops w' outs : fresh_malloc (w_malloc w) -> w_free w = true ->
  w_run w ops = Ret (w', outs) -> correct_use none_live ops outs ->
  (forall m f, In (OSetAllocators m f) ops -> f = true) ->
  (forall i, live_at_end none_live ops outs i = false) ->
  w_heap w' = w_heap w.
Proof.
  intros Fm Ff R C K L.
  assert (K' : forall o, In o ops -> keeps_free o) by (intros [] Ho; cbn; eauto).
  destruct (run_tight (w_heap w) ops none_live w w' outs (inv_start w Fm) (tight_start w Ff) C K' R) as (_ & _ & Th).
  apply (map_eq (M := gmap Z)). intros a. apply Th. intros i Hi. rewrite L in Hi. discriminate.
Qed.

(** ** Allocator calls *)
Lemma C36_calls_lemma w o i w' r : call_target o = Some i -> w_step w o = Ret (w', r) ->
  w_log w' = w_log w /\ w_malloc w' = w_malloc w /\ w_free w' = w_free w /\
  (forall a, is_Some (w_heap w' !! a) <-> is_Some (w_heap w !! a)) /\
  (forall a, cs_data (w_inst w i) <> Some a -> w_heap w' !! a = w_heap w !! a) /\
  (forall j, j <> i -> w_inst w' j = w_inst w j) /\ cs_data (w_inst w' i) = cs_data (w_inst w i).
Proof.
  intros T H. destruct (call_on_self _ _ T) as [c Hc]. destruct (step_call _ _ _ _ _ _ Hc H) as (s' & _ & [->|[-> _]]).
  2:{ repeat split; auto; intros ?; tauto. }
  unfold w_store; cbn. repeat split; auto.
  - unfold store_data. destruct (cs_data (w_inst w i)) as [b|]; [|auto]. destruct (w_heap w !! b) eqn:E; [|auto].
    destruct (Z.eq_dec b a) as [<-|Hn]; [rewrite E; eauto|rewrite h_ins_ne by assumption; auto].
  - unfold store_data. destruct (cs_data (w_inst w i)) as [b|]; [|auto]. destruct (w_heap w !! b) eqn:E; [|auto].
    destruct (Z.eq_dec b a) as [<-|Hn]; [rewrite h_ins; eauto|rewrite h_ins_ne by assumption; auto].
  - intros a Ha. unfold store_data. destruct (cs_data (w_inst w i)) as [b|]; [|auto]. destruct (w_heap w !! b) eqn:E; [|auto].
    apply h_ins_ne. congruence.
  - intros j Hj. apply set_inst_neq. assumption.
  - rewrite set_inst_eq. reflexivity.
Qed.

Lemma C36_init_lemma w i q low discard level cap w' :
  w_step w (OInit i q low discard level cap) = Ret (w', OutCode 0) ->
  exists a, w_log w' = w_log w ++ [EvMalloc (u64 (cap * 8)) (Some a)] /\
    w_heap w' = <[a := repeat None (Z.to_nat (u64 (cap * 8) / 8))]> (w_heap w) /\
    cs_data (w_inst w' i) = Some a /\ (forall j, j <> i -> w_inst w' j = w_inst w j).
Proof.
  cbn [w_step]. destruct (w_init _ _ _ _ _ _ _) as [w1 r] eqn:E. intros H. injection H as -> ->.
  apply step_init_ok in E as (m & a & blk & s0 & Em & Ea & -> & Es & Eg & ->). exists a. cbn [w_log w_heap w_inst].
  rewrite set_inst_eq. repeat split; auto. intros j Hj. apply set_inst_neq. assumption.
Qed.

Lemma C36_free_lemma w i a w' r : w_free w = true -> cs_data (w_inst w i) = Some a ->
  w_step w (OFree i) = Ret (w', r) ->
  w_log w' = w_log w ++ [EvFree a] /\ w_heap w' = delete a (w_heap w) /\
  (forall j, j <> i -> w_inst w' j = w_inst w j).
Proof.
  intros F D. cbn [w_step]. destruct (w_free_spot w i) as [w1|] eqn:E; [|discriminate]. intros H. injection H as <- <-.
  destruct (free_ok _ _ _ _ D E) as (Hm & Hf & Hu & Hi & Hh). rewrite F in Hh. destruct Hh as (Hh & Hl & _).
  repeat split; auto. intros j Hj. rewrite Hi. apply set_inst_neq. assumption.
Qed.

(** ** C01, C04, C37, C38 over the heap *)
Lemma C04_heap_lemma w i q low discard level cap w' r :
  (w_malloc w = None \/ exists m, w_malloc w = Some m /\ m (ubend_bytes cap) (w_heap w) = None) ->
  w_step w (OInit i q low discard level cap) = Ret (w', r) ->
  w_heap w' = w_heap w /\
  ((exists c, r = OutCode c /\ (c = -1001 \/ c = -1002) /\ w' = w) \/
   (r = OutCode (-1000) /\
    s_at (cs_spot (w_inst w' i)) = s_at (cs_spot (w_inst w i)) /\
    s_et (cs_spot (w_inst w' i)) = s_et (cs_spot (w_inst w i)) /\
    exists w2, w_step w' (OFree i) = Ret (w2, OutUnit) /\ w_heap w2 = w_heap w /\ w_log w2 = w_log w')).
Proof.
  intros Hm. cbn [w_step]. unfold w_init. destruct (spot_check q level) as [c|] eqn:C.
  { intros H. injection H as <- <-. split; [reflexivity|]. left. exists c. split; [reflexivity|]. split; [|reflexivity].
    unfold spot_check in C. destruct ((_ || _)%bool); [injection C as <-; auto|].
    destruct ((_ || _)%bool); [injection C as <-; auto|discriminate]. }
  assert (X : exists ev, xmalloc w (ubend_bytes cap) = (w_heap w, None, ev)).
  { unfold xmalloc. destruct Hm as [Hm|(m & Hm & Hn)]; rewrite Hm; [|rewrite Hn]; eauto. }
  destruct X as [ev ->]. unfold spot_init. rewrite C. cbn. intros H. injection H as <- <-. cbn [w_heap w_inst].
  split; [reflexivity|]. right. rewrite set_inst_eq. cbn. repeat split.
  unfold w_free_spot. cbn [w_inst]. rewrite set_inst_eq. cbn. eexists. split; [reflexivity|]. split; reflexivity.
Qed.

Lemma C37_double_free_lemma w i a w' r : w_free w = true -> cs_data (w_inst w i) = Some a ->
  w_step w (OFree i) = Ret (w', r) -> w_step w' (OFree i) = Undef BadFree.
Proof.
  intros F D. cbn [w_step]. destruct (w_free_spot w i) as [w1|] eqn:E; [|discriminate]. intros H. injection H as <- <-.
  destruct (free_ok _ _ _ _ D E) as (Hm & Hf & Hu & Hi & Hh). rewrite F in Hh. destruct Hh as (Hh & Hl & _).
  unfold w_free_spot. rewrite Hi, set_inst_eq. cbn [cs_data]. unfold xfree. rewrite Hf, F, Hh, h_del. reflexivity.
Qed.

(** freed again after the block has been handed to another detector: the other detector loses its window *)
Lemma C37_free_after_reuse_lemma w i j a w1 r1 q low discard level cap w2 w3 r3 : w_free w = true -> i <> j ->
  cs_data (w_inst w i) = Some a ->
  w_step w (OFree i) = Ret (w1, r1) ->
  w_step w1 (OInit j q low discard level cap) = Ret (w2, OutCode 0) -> cs_data (w_inst w2 j) = Some a ->
  w_step w2 (OFree i) = Ret (w3, r3) ->
  w_heap w3 !! a = None /\ cs_data (w_inst w3 j) = Some a /\ get_data (detector_state w3 j) = [].
Proof.
  intros F Hij D. cbn [w_step]. destruct (w_free_spot w i) as [w1'|] eqn:E; [|discriminate]. intros H. injection H as -> <-.
  destruct (free_ok _ _ _ _ D E) as (Hm & Hf & Hu & Hi & Hh).
  destruct (w_init _ _ _ _ _ _ _) as [w2' r2] eqn:E2. intros H. injection H as -> ->.
  apply step_init_ok in E2 as (m & a' & blk & s0 & Em & Ea & Eb & Es & Eg & ->). cbn [w_inst]. rewrite set_inst_eq. cbn [cs_data].
  intros Ha; injection Ha as ->.
  clear E. destruct (w_free_spot _ i) as [w3'|] eqn:E3; [|discriminate]. intros H. injection H as -> <-.
  eapply free_ok in E3; [|cbn [w_inst]; rewrite set_inst_neq by assumption; rewrite Hi, set_inst_eq; reflexivity].
  destruct E3 as (Hm3 & Hf3 & Hu3 & Hi3 & Hh3). cbn [w_free w_heap] in Hh3. rewrite Hf, F in Hh3. destruct Hh3 as (Hh3 & _ & _).
  assert (N3 : w_heap w3 !! a = None) by (rewrite Hh3; apply h_del).
  assert (D3 : cs_data (w_inst w3 j) = Some a).
  { rewrite Hi3. rewrite set_inst_neq by congruence. cbn [w_inst]. rewrite set_inst_eq. reflexivity. }
  split; [assumption|]. split; [assumption|]. unfold detector_state, load. rewrite D3. cbn [deref]. rewrite N3. reflexivity.
Qed.

Lemma C37_rejected_lemma w i q low discard level cap w1 c a :
  w_step w (OInit i q low discard level cap) = Ret (w1, OutCode c) -> (c = -1001 \/ c = -1002) -> w_free w = true ->
  w1 = w /\
  (cs_data (w_inst w i) = Some a -> w_heap w !! a = None -> w_step w1 (OFree i) = Undef BadFree) /\
  (cs_data (w_inst w i) = Some a -> is_Some (w_heap w !! a) ->
     exists w2, w_step w1 (OFree i) = Ret (w2, OutUnit) /\ w_heap w2 = delete a (w_heap w)) /\
  (cs_data (w_inst w i) = None -> exists w2, w_step w1 (OFree i) = Ret (w2, OutUnit) /\ w_heap w2 = w_heap w).
Proof.
  cbn [w_step]. destruct (w_init _ _ _ _ _ _ _) as [w1' r1] eqn:E. intros H. injection H as -> ->. intros Hc F.
  assert (Hr : c <> 0) by lia.
  destruct (step_init_fail _ _ _ _ _ _ _ _ _ E Hr) as [->|(-> & _)]; [|lia].
  split; [reflexivity|]. unfold w_free_spot. repeat split.
  - intros -> Hn. unfold xfree. rewrite F, Hn. reflexivity.
  - intros -> [b Hb]. unfold xfree. rewrite F, Hb. cbn. eexists. split; reflexivity.
  - intros ->. cbn. eexists. split; reflexivity.
Qed.

Lemma C38_allocators_lemma w m f w' r : w_step w (OSetAllocators m f) = Ret (w', r) ->
  w_malloc w' = m /\ w_free w' = f /\ w_heap w' = w_heap w /\ w_utils w' = w_utils w /\ w_inst w' = w_inst w /\
  (forall i q low discard level cap w2 c, m = None ->
     w_step w' (OInit i q low discard level cap) = Ret (w2, OutCode c) -> c = -1000 \/ c = -1001 \/ c = -1002) /\
  (forall i, f = false -> exists w2, w_step w' (OFree i) = Ret (w2, OutUnit) /\ w_heap w2 = w_heap w).
Proof.
  cbn [w_step]. intros H. injection H as <- <-. cbn. repeat split.
  - intros i q low discard level cap w2 c -> H.
    eapply C04_heap_lemma in H; [|left; reflexivity].
    destruct H as [_ [(c' & H & Hc & _)|(H & _)]]; injection H as <-; tauto.
  - intros i ->. unfold w_free_spot, xfree. cbn. destruct (cs_data (w_inst w i)); cbn; eexists; split; reflexivity.
Qed.

Lemma C38_utils_lemma w l f w' r : w_step w (OSetFloatUtils l f) = Ret (w', r) ->
  fu_ldexp (w_utils w') = match l with Some l => l | None => fu_ldexp (w_utils w) end /\
  fu_frexp (w_utils w') = match f with Some f => f | None => fu_frexp (w_utils w) end /\
  w_heap w' = w_heap w /\ w_inst w' = w_inst w /\ w_malloc w' = w_malloc w /\ w_free w' = w_free w.
Proof. cbn [w_step]. intros H. injection H as <- <-. repeat split. Qed.

(** ** Memory safety of any correct use *)
Definition caps_ok (o : op N) : Prop := match o with OInit _ _ _ _ _ cap => 1 <= cap < 2 ^ 61 | _ => True end.
Definition all_wf (live : Z -> bool) w : Prop :=
  forall i, live i = true -> exists cap l, wf cap (detector_state w i) l.

Lemma step_all_wf live w o w' r : inv live w -> all_wf live w -> allowed live o -> caps_ok o ->
  w_step w o = Ret (w', r) -> all_wf (live_after live o r) w'.
Proof.
  intros I W A K H j Hj. destruct (call_on j o) as [c|] eqn:Hc.
  - assert (L : live j = true) by (destruct o; cbn in Hc; try discriminate; exact Hj).
    pose proof (state_call _ _ _ _ _ _ _ I L Hc H) as D. destruct (W j L) as (cap & l & Wj).
    destruct (do_call_wf _ _ _ _ _ _ _ Wj D) as (_ & l' & W'). eauto.
  - destruct (Z.eq_dec (match o with OInit i _ _ _ _ _ => i | OFree i => i | _ => j + 1 end) j) as [e|Hne].
    + destruct o; cbn in e; try lia; subst j.
      * cbn [w_step] in H. destruct (w_init _ _ _ _ _ _ _) as [w1 r1] eqn:E. injection H as -> <-. cbn in A, Hj.
        rewrite Z.eqb_refl in Hj. destruct (Z.eqb_spec r1 0) as [->|Hn]; [|cbn in Hj; congruence].
        apply step_init_ok in E as (m & a & blk & s0 & Em & Ea & Eb & Es & Eg & ->).
        exists max_excess, []. unfold detector_state, load. cbn [w_heap w_inst]. rewrite set_inst_eq. cbn [cs_data cs_spot deref].
        rewrite h_ins, <- Eg, set_get. cbn in K. apply (init_wf _ _ _ _ _ _ _ _ K) in Es; [exact Es|].
        rewrite Eb, repeat_length. unfold ubend_bytes, u64. rewrite Z.mod_small by lia. rewrite Z.div_mul by lia. lia.
      * cbn in Hj. rewrite Z.eqb_refl in Hj. discriminate.
    + assert (La : leaves_alone j o) by (destruct o; cbn in Hne |- *; auto).
      assert (L : live j = true).
      { destruct o; cbn in Hj, Hne; try exact Hj.
        - destruct r; try exact Hj. rewrite (proj2 (Z.eqb_neq j i)) in Hj by congruence. exact Hj.
        - rewrite (proj2 (Z.eqb_neq j i)) in Hj by congruence. exact Hj. }
      rewrite (state_other _ _ _ _ _ _ I A L Hc La H). auto.
Qed.

Lemma run_all_wf ops : forall live w w' outs, inv live w -> all_wf live w -> correct_use live ops outs ->
  (forall o, In o ops -> caps_ok o) -> w_run w ops = Ret (w', outs) -> all_wf (live_at_end live ops outs) w'.
Proof.
  induction ops as [|o ops IH]; intros live w w' outs I T C K H; cbn in H.
  - injection H as <- <-. exact T.
  - destruct (w_step w o) as [[w1 r]|] eqn:E1; [|discriminate]. cbn [bind] in H.
    destruct (w_run w1 ops) as [[w2 rs]|] eqn:E2; [|discriminate]. cbn [bind] in H. injection H as <- <-.
    destruct C as [A C]. destruct (step_inv _ _ _ _ _ I A E1) as [I1 U].
    eapply IH; eauto; [|intros; apply K; right; assumption].
    eapply step_all_wf; eauto. apply K. left. reflexivity.
Qed.

Lemma step_safe live w o x : trunc_ok (N := N) -> exp_safe (w_math w) -> inv live w -> all_wf live w -> allowed live o ->
  w_step w o = Undef x -> x = CastRange.
Proof.
  intros T X I W A H. destruct (call_target o) as [i|] eqn:Ht.
  - destruct (call_on_self _ _ Ht) as [c Hc].
    assert (L : live i = true) by (destruct o; cbn in Ht; try discriminate; injection Ht as ->; exact A).
    destruct (W i L) as (cap & l & Wi). eapply do_call_undef; eauto. eapply step_call_undef; eauto.
  - destruct o; try discriminate; cbn [w_step] in H.
    + destruct (w_init _ _ _ _ _ _ _). discriminate.
    + cbn in A. destruct (inv_owns _ _ I i A) as [a [D [b Hb]]]. unfold w_free_spot in H. rewrite D in H.
      unfold xfree in H. rewrite Hb in H. destruct (w_free w); discriminate.
Qed.

End HeapLemmas.
