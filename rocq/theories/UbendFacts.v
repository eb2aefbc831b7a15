(** * UbendFacts: the circular buffer refines a bounded FIFO queue *)
From Coq Require Import ZArith List Bool Lia Permutation.
From Verif Require Import Num NumFacts XMath Ubend Session.
Import ListNotations.
Open Scope Z_scope.

(** ** The abstract bounded queue *)
Definition qpush {A} (cap : Z) (l : list A) (x : A) : list A :=
  if Z.of_nat (length l) <? cap then l ++ [x] else tl l ++ [x].

Section UbendFacts.
Context {N : NumOps}.

(** [rep cap u l]: the buffer [u] of capacity [cap] holds the queue [l] (oldest first). *)
Definition rep (cap : Z) (u : ubend N) (l : list (num N)) : Prop :=
  1 <= cap < 2 ^ 61 /\
  u_capacity u = cap /\
  Z.of_nat (length (u_data u)) = cap /\
  ((u_filled u = 0 /\ u_cursor u = Z.of_nat (length l) /\ u_cursor u < cap /\
    firstn (length l) (u_data u) = map Some l /\ u_last u = c_nan)
   \/
   (u_filled u = 1 /\ Z.of_nat (length l) = cap /\ 0 <= u_cursor u < cap /\
    skipn (Z.to_nat (u_cursor u)) (u_data u) ++ firstn (Z.to_nat (u_cursor u)) (u_data u) = map Some l)).

Lemma rep_length cap u l : rep cap u l -> Z.of_nat (length l) <= cap.
Proof. intros (H & _ & _ & [(_ & H1 & H2 & _)|(_ & H1 & _)]); lia. Qed.

Lemma rep_size cap u l : rep cap u l -> ubend_size u = Z.of_nat (length l).
Proof.
  intros (H & Hc & _ & [(Hf & H1 & H2 & _)|(Hf & H1 & _)]); unfold ubend_size; rewrite Hf; simpl; lia.
Qed.

Lemma rep_init cap d : 1 <= cap < 2 ^ 61 -> Z.of_nat (length d) = cap ->
  rep cap (fst (ubend_init (N := N) (Some d) cap)) [].
Proof.
  intros H1 H2. unfold rep. simpl. repeat split; try lia.
  left. repeat split; try lia; reflexivity.
Qed.

(** Array-order content: a rotation of the queue. *)
Lemma rep_stored cap u l : rep cap u l ->
  exists w, firstn (length w) (u_data u) = map Some w /\ Permutation w l /\
            ubend_size u = Z.of_nat (length w) /\ length w = length l.
Proof.
  intros R. pose proof (rep_size _ _ _ R) as Hs.
  destruct R as (H & Hc & Hd & [(Hf & H1 & H2 & H3 & _)|(Hf & H1 & H2 & H3)]).
  - exists l. repeat split; auto.
  - set (c := Z.to_nat (u_cursor u)) in *.
    assert (Ed : u_data u = firstn c (u_data u) ++ skipn c (u_data u)) by (symmetry; apply firstn_skipn).
    (* l = l1 ++ l2 with skipn = map Some l1, firstn = map Some l2 *)
    assert (Hs2 : exists l1 l2, l = l1 ++ l2 /\ skipn c (u_data u) = map Some l1
                                /\ firstn c (u_data u) = map Some l2).
    { remember (skipn c (u_data u)) as A. remember (firstn c (u_data u)) as B.
      clear -H3. revert l H3. induction A as [|a A IH]; intros l H3; simpl in *.
      - exists [], l. auto.
      - destruct l as [|x l]; [discriminate|]. simpl in H3. injection H3 as -> H3.
        destruct (IH l H3) as (l1 & l2 & -> & -> & ->).
        exists (x :: l1), l2. auto. }
    destruct Hs2 as (l1 & l2 & -> & E1 & E2).
    exists (l2 ++ l1). rewrite app_length in H1, Hs.
    assert (EL : length (l2 ++ l1) = length (l1 ++ l2)) by (rewrite !app_length; lia).
    repeat split.
    + rewrite map_app, <- E1, <- E2. rewrite firstn_skipn.
      rewrite firstn_all2; [reflexivity|]. rewrite app_length. lia.
    + apply Permutation_app_comm.
    + rewrite Hs. rewrite app_length. lia.
    + assumption.
Qed.

Lemma rep_push cap u l x : rep cap u l ->
  exists u', ubend_push u x = Ret (u', if Z.of_nat (length l) <? cap then c_nan else hd x l)
             /\ rep cap u' (qpush cap l x).
Proof.
  intros (H & Hc & Hd & [(Hf & H1 & H2 & H3 & H4)|(Hf & H1 & H2 & H3)]); unfold ubend_push, qpush; rewrite Hf; simpl.
  - (* not filled *)
    rewrite H4. rewrite wr_ok by lia. simpl.
    rewrite Hc. rewrite (u64_small (cap - 1)) by lia.
    replace (Z.of_nat (length l) <? cap) with true by (symmetry; apply Z.ltb_lt; lia).
    assert (Hlen : (length l < length (u_data u))%nat) by lia.
    set (d' := upd (u_data u) (Z.to_nat (u_cursor u)) (Some x)).
    assert (Ed' : firstn (S (length l)) d' = map Some (l ++ [x])).
    { unfold d'. rewrite H1, Nat2Z.id.
      assert (E : exists b t, u_data u = map Some l ++ b :: t).
      { exists (nth (length l) (u_data u) None), (skipn (S (length l)) (u_data u)).
        rewrite <- H3.
        rewrite <- (firstn_skipn (length l) (u_data u)) at 1. f_equal.
        clear -Hlen. revert Hlen. generalize (length l) as k. generalize (u_data u) as d.
        induction d as [|a d IH]; intros [|k] Hk; simpl in *; try lia; auto.
        apply IH; lia. }
      destruct E as (b & t & E). rewrite E.
      replace (length l) with (length (map (@Some (num N)) l)) by apply map_length.
      rewrite upd_app, map_app.
      rewrite <- (Nat.add_1_r (length (map Some l))).
      rewrite firstn_app_2. reflexivity. }
    destruct (Z.eqb_spec (u_cursor u) (cap - 1)) as [Ec|Ec].
    + eexists; split; [reflexivity|]. unfold rep; simpl. rewrite app_length; simpl.
      split; [assumption|]. split; [reflexivity|].
      split; [unfold d'; rewrite upd_length; assumption|].
      right. split; [reflexivity|]. split; [lia|]. split; [lia|].
      rewrite app_nil_r.
      rewrite <- Ed'. rewrite firstn_all2; [reflexivity|].
      unfold d'. rewrite upd_length. lia.
    + eexists; split; [reflexivity|]. unfold rep; simpl. rewrite app_length; simpl.
      rewrite (u64_small (u_cursor u + 1)) by lia.
      split; [assumption|]. split; [reflexivity|].
      split; [unfold d'; rewrite upd_length; assumption|].
      left. repeat split; try lia.
      rewrite <- Ed'. f_equal. lia.
  - (* filled *)
    set (c := Z.to_nat (u_cursor u)) in *.
    replace (Z.of_nat (length l) <? cap) with false by (symmetry; apply Z.ltb_ge; lia).
    assert (Hlen : (c < length (u_data u))%nat) by lia.
    assert (E : exists A b B, u_data u = A ++ b :: B /\ length A = c).
    { exists (firstn c (u_data u)), (nth c (u_data u) None), (skipn (S c) (u_data u)).
      split.
      - rewrite <- (firstn_skipn c (u_data u)) at 1. f_equal.
        clear -Hlen. revert Hlen. generalize c as k. generalize (u_data u) as d.
        induction d as [|a d IH]; intros [|k] Hk; simpl in *; try lia; auto.
        apply IH; lia.
      - rewrite firstn_length. lia. }
    destruct E as (A & b & B & Ed & HA).
    rewrite Ed in H3.
    assert (EB : skipn c (A ++ b :: B) = b :: B).
    { rewrite <- HA. rewrite skipn_app, skipn_all, Nat.sub_diag. reflexivity. }
    assert (EA : firstn c (A ++ b :: B) = A).
    { rewrite <- HA. rewrite firstn_app, firstn_all, Nat.sub_diag. simpl. apply app_nil_r. }
    rewrite EB, EA in H3.
    destruct l as [|a l]; [discriminate|]. simpl in H3. injection H3 as -> H3.
    rewrite (rdcell_ok _ _ a); simpl.
    2: lia.
    2:{ rewrite Ed. fold c. rewrite nth_error_app2 by lia. rewrite HA, Nat.sub_diag. reflexivity. }
    rewrite wr_ok by lia. simpl. rewrite Hc. rewrite (u64_small (cap - 1)) by lia.
    fold c.
    assert (Eu : upd (u_data u) c (Some x) = A ++ Some x :: B).
    { rewrite Ed, <- HA. apply upd_app. }
    rewrite Eu.
    assert (Hlen2 : length (u_data u) = (length A + S (length B))%nat) by (rewrite Ed, app_length; reflexivity).
    destruct (Z.eqb_spec (u_cursor u) (cap - 1)) as [Ec|Ec].
    + eexists; split; [reflexivity|]. unfold rep; simpl. rewrite !app_length; simpl.
      split; [assumption|]. split; [reflexivity|]. split; [lia|].
      right. split; [reflexivity|]. split; [simpl in H1; lia|]. split; [lia|].
      assert (B = []) by (destruct B; [reflexivity|simpl in *; lia]). subst B. simpl in *.
      rewrite app_nil_r, map_app, <- H3. reflexivity.
    + eexists; split; [reflexivity|]. unfold rep; simpl. rewrite !app_length; simpl.
      rewrite (u64_small (u_cursor u + 1)) by lia.
      split; [assumption|]. split; [reflexivity|]. split; [lia|].
      right. split; [reflexivity|]. split; [simpl in H1; lia|]. split; [lia|].
      replace (Z.to_nat (u_cursor u + 1)) with (length (A ++ [Some x])) by (rewrite app_length; simpl; lia).
      replace (A ++ Some x :: B) with ((A ++ [Some x]) ++ B) by (rewrite <- app_assoc; reflexivity).
      rewrite skipn_app, skipn_all, Nat.sub_diag. simpl.
      rewrite firstn_app, firstn_all, Nat.sub_diag. simpl. rewrite app_nil_r.
      rewrite app_assoc, H3, map_app. reflexivity.
Qed.

Lemma qpush_lastn {A} cap (l : list A) x : 1 <= cap ->
  qpush cap (lastn (Z.to_nat cap) l) x = lastn (Z.to_nat cap) (l ++ [x]).
Proof.
  intros H. unfold qpush. rewrite lastn_length.
  destruct (Z.ltb_spec (Z.of_nat (Nat.min (length l) (Z.to_nat cap))) cap) as [Hl|Hl].
  - rewrite lastn_snoc_lt by lia. reflexivity.
  - rewrite lastn_snoc_ge by lia. reflexivity.
Qed.

Lemma hd_lastn {A} k (l : list A) x : (0 < k <= length l)%nat ->
  hd x (lastn k l) = nth (length l - k) l x.
Proof.
  intros H. unfold lastn.
  assert (Hm : (length l - k < length l)%nat) by lia.
  revert Hm. generalize (length l - k)%nat as m. clear. intros m.
  revert m; induction l as [|a l IH]; intros [|m] Hm; simpl in *; try lia; auto.
  apply IH; lia.
Qed.

(** The returned values: NaN [cap] times, then the history itself, delayed by [cap]. *)
Lemma ubend_pushes_rep cap hist u xs :
  rep cap u (lastn (Z.to_nat cap) hist) ->
  exists u' outs, ubend_pushes u xs = Ret (u', outs) /\
    rep cap u' (lastn (Z.to_nat cap) (hist ++ xs)) /\
    length outs = length xs /\
    (forall i, (i < length xs)%nat ->
       nth_error outs i = nth_error (repeat c_nan (Z.to_nat cap) ++ hist ++ xs) (length hist + i)).
Proof.
  revert hist u; induction xs as [|x xs IH]; intros hist u R.
  - exists u, []. simpl. rewrite app_nil_r. split; [reflexivity|]. split; [assumption|].
    split; [reflexivity|]. intros i Hi; lia.
  - pose proof R as (Hcap & _).
    destruct (rep_push cap u _ x R) as (u1 & E1 & R1).
    rewrite qpush_lastn in R1 by lia.
    destruct (IH (hist ++ [x]) u1 R1) as (u2 & outs & E2 & R2 & L2 & N2).
    rewrite <- app_assoc in R2. simpl in R2.
    eexists u2, (_ :: outs). simpl ubend_pushes. rewrite E1. simpl. rewrite E2. simpl.
    split; [reflexivity|]. split; [assumption|]. split; [simpl; lia|].
    intros [|i] Hi; simpl in Hi.
    + simpl nth_error at 1. rewrite Nat.add_0_r. rewrite lastn_length.
      destruct (Z.ltb_spec (Z.of_nat (Nat.min (length hist) (Z.to_nat cap))) cap) as [Hl|Hl].
      * rewrite nth_error_app1 by (rewrite repeat_length; lia).
        symmetry. apply nth_error_repeat. lia.
      * rewrite nth_error_app2 by (rewrite repeat_length; lia). rewrite repeat_length.
        rewrite nth_error_app1 by lia.
        rewrite hd_lastn by lia. symmetry.
        apply nth_error_nth'. lia.
    + simpl nth_error at 1. rewrite N2 by lia.
      rewrite app_length; simpl. rewrite <- app_assoc. simpl. f_equal. lia.
Qed.

(** Reading of [rep] in the vocabulary of [Spec.v]. *)
Lemma rep_cells cap u l : rep cap u l ->
  (if u_filled u =? 0 then firstn (Z.to_nat (ubend_size u)) (u_data u)
   else skipn (Z.to_nat (u_cursor u)) (u_data u) ++ firstn (Z.to_nat (u_cursor u)) (u_data u)) = map Some l.
Proof.
  intros (H1 & Hc & Hd & [(Hf & H2 & H3 & H4 & _)|(Hf & H2 & H3 & H4)]); rewrite Hf; cbn.
  - unfold ubend_size. rewrite Hf. cbn. rewrite H2, Nat2Z.id. exact H4.
  - exact H4.
Qed.

End UbendFacts.
