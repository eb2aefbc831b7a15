(** * WindowLemmas: proofs about the window, its statistics, and what fit and step put in it *)
From Coq Require Import ZArith List Bool Lia Reals Lra Permutation.
From Flocq Require Import Core.Core IEEE754.BinarySingleNaN.
From Verif Require Import Num NumFacts XMath Ubend Session UbendFacts Peaks PeaksFacts Brent Estimator Tail P2 P2Facts
  Spot SpotFacts B64 B64Facts Spec SpotB64 DetectorLemmas.
Import ListNotations.
Open Scope Z_scope.

Lemma rep_oldest_first {N} cap (u : ubend N) l : rep cap u l -> oldest_first u = map Some l.
Proof. intros R. unfold oldest_first, cells. apply (rep_cells cap u l R). Qed.

Lemma last_k_lastn {A} cap (l : list A) : last_k cap l = lastn (Z.to_nat cap) l.
Proof. reflexivity. Qed.

Lemma lastn_app_r {A} k (a b : list A) : (k <= length b)%nat -> lastn k (a ++ b) = lastn k b.
Proof.
  intros H. unfold lastn. rewrite app_length, skipn_app, skipn_all2 by lia. cbn [app]. f_equal. lia.
Qed.

(** ** C13 *)
Lemma C13_lemma {N} cap (blk : list (option (num N))) xs :
  1 <= cap < 2 ^ 61 -> Z.of_nat (length blk) = cap ->
  exists u outs,
    ubend_pushes (fst (ubend_init (Some blk) cap)) xs = Ret (u, outs) /\
    oldest_first u = map Some (last_k cap xs) /\
    ubend_size u = Z.min (Z.of_nat (length xs)) cap /\
    length outs = length xs /\
    (forall i, (i < length xs)%nat ->
       nth_error outs i = if Z.of_nat i <? cap then Some c_nan else nth_error xs (i - Z.to_nat cap)).
Proof.
  intros H1 H2. pose proof (rep_init (N := N) cap blk H1 H2) as R.
  destruct (ubend_pushes_rep cap [] _ xs R) as (u & outs & E & R' & L & O).
  exists u, outs. cbn [app] in *. split; [assumption|]. split; [apply (rep_oldest_first cap); assumption|].
  split. { rewrite (rep_size _ _ _ R'), lastn_length. lia. }
  split; [assumption|]. intros i Hi. rewrite O by assumption. cbn [length Nat.add].
  destruct (Z.ltb_spec (Z.of_nat i) cap) as [Hc|Hc].
  - rewrite nth_error_app1 by (rewrite repeat_length; lia). apply nth_error_repeat. lia.
  - rewrite nth_error_app2 by (rewrite repeat_length; lia). rewrite repeat_length. reflexivity.
Qed.

(** ** C15 *)
Lemma ubend_short_oob {N} cap (u : ubend N) xs :
  0 <= cap < 2 ^ 64 -> u_capacity u = cap -> u_filled u = 0 -> 0 <= u_cursor u <= Z.of_nat (length (u_data u)) ->
  (Z.of_nat (length (u_data u)) < cap \/ u_data u = []) ->
  Z.of_nat (length (u_data u)) - u_cursor u < Z.of_nat (length xs) ->
  ubend_pushes u xs = Undef OutOfBounds.
Proof.
  intros Hcap. revert u; induction xs as [|x xs IH]; intros u Hc Hf Hcur Hs Hl; cbn [length] in Hl; [lia|].
  cbn [ubend_pushes]. unfold ubend_push. rewrite Hf. cbn [Z.eqb bind].
  destruct (Z.eq_dec (u_cursor u) (Z.of_nat (length (u_data u)))) as [E|E].
  { rewrite wr_oob by lia. reflexivity. }
  rewrite wr_ok by lia. cbn [bind]. rewrite Hc.
  assert (Hs' : Z.of_nat (length (u_data u)) < cap).
  { destruct Hs as [Hs|Hs]; [assumption|]. rewrite Hs in *. cbn in *. lia. }
  rewrite (u64_small (cap - 1)) by lia.
  destruct (Z.eqb_spec (u_cursor u) (cap - 1)) as [Ec|Ec]; [lia|]. rewrite u64_small by lia.
  rewrite IH; [reflexivity|..]; cbn [u_capacity u_filled u_cursor u_data]; try reflexivity; rewrite ?upd_length; try lia; auto.
Qed.

(** block size for a wrapped byte count *)
Lemma C15_lemma {N} cap (xs : list (num N)) :
  (cap = 0 \/ 2 ^ 61 <= cap) -> cap < 2 ^ 64 ->
  let blk := repeat None (Z.to_nat (ubend_bytes cap / 8)) in
  Z.of_nat (length blk) < Z.of_nat (length xs) ->
  ubend_pushes (fst (ubend_init (Some blk) cap)) xs = Undef OutOfBounds.
Proof.
  intros H1 H2 blk H3.
  apply (ubend_short_oob cap); cbn [ubend_init fst u_capacity u_filled u_cursor u_data]; try lia; try reflexivity.
  unfold blk, ubend_bytes, u64 in *. rewrite repeat_length in *.
  assert (B : 0 <= (cap * 8) mod 2 ^ 64 < 2 ^ 64) by (apply Z.mod_pos_bound; lia).
  destruct H1 as [-> | H1].
  - right. reflexivity.
  - left. rewrite Z2Nat.id by (apply Z.div_pos; lia).
    apply Z.lt_le_trans with (2 ^ 61); [|assumption].
    apply Z.div_lt_upper_bound; lia.
Qed.

(** ** C16 *)
Definition is_min (m : b64) (l : list b64) : Prop := In m l /\ forall y, In y l -> b64_leb m y = true.
Definition is_max (m : b64) (l : list b64) : Prop := In m l /\ forall y, In y l -> b64_leb y m = true.

Lemma leb_refl x : nan64 x = false -> b64_leb x x = true.
Proof. intros H. apply leb_true_iff. repeat split; auto. lra. Qed.
Lemma leb_trans x y z : b64_leb x y = true -> b64_leb y z = true -> b64_leb x z = true.
Proof. rewrite !leb_true_iff. intros (?&?&?) (?&?&?). repeat split; auto. lra. Qed.
Lemma leb_total x y : nan64 x = false -> nan64 y = false -> b64_ltb x y = false -> b64_leb y x = true.
Proof.
  intros Hx Hy H. apply leb_true_iff. repeat split; auto. apply Rnot_lt_le. intros C.
  assert (b64_ltb x y = true) by (apply ltb_true_iff; auto). congruence.
Qed.
Lemma ltb_leb x y : b64_ltb x y = true -> b64_leb x y = true.
Proof. rewrite ltb_true_iff, leb_true_iff. intros (?&?&?). repeat split; auto. lra. Qed.

Lemma is_min_snoc m l x : is_min m l -> nan64 x = false -> (forall y, In y l -> nan64 y = false) ->
  is_min (if b64_ltb x m then x else m) (l ++ [x]).
Proof.
  intros (H1 & H2) Hx Hl. destruct (b64_ltb x m) eqn:E.
  - split; [apply in_or_app; right; left; reflexivity|].
    intros y Hy. apply in_app_or in Hy as [Hy|[<-|[]]].
    + eapply leb_trans; [apply ltb_leb; exact E|]. auto.
    + apply leb_refl; assumption.
  - split; [apply in_or_app; left; assumption|].
    intros y Hy. apply in_app_or in Hy as [Hy|[<-|[]]]; auto.
    apply leb_total; auto.
Qed.
Lemma is_max_snoc m l x : is_max m l -> nan64 x = false -> (forall y, In y l -> nan64 y = false) ->
  is_max (if b64_ltb m x then x else m) (l ++ [x]).
Proof.
  intros (H1 & H2) Hx Hl. destruct (b64_ltb m x) eqn:E.
  - split; [apply in_or_app; right; left; reflexivity|].
    intros y Hy. apply in_app_or in Hy as [Hy|[<-|[]]].
    + eapply leb_trans; [|apply ltb_leb; exact E]. auto.
    + apply leb_refl; assumption.
  - split; [apply in_or_app; left; assumption|].
    intros y Hy. apply in_app_or in Hy as [Hy|[<-|[]]]; auto.
    apply leb_total; auto.
Qed.

Lemma is_min_one x : nan64 x = false -> is_min x [x].
Proof. intros H. split; [left; reflexivity|]. intros y [<-|[]]. apply leb_refl; assumption. Qed.
Lemma is_max_one x : nan64 x = false -> is_max x [x].
Proof. intros H. split; [left; reflexivity|]. intros y [<-|[]]. apply leb_refl; assumption. Qed.

Lemma is_min_perm m l l' : Permutation l l' -> is_min m l -> is_min m l'.
Proof.
  intros P (H1 & H2). split; [eapply Permutation_in; eauto|].
  intros y Hy. apply H2. eapply Permutation_in; [apply Permutation_sym; eassumption|assumption].
Qed.
Lemma is_max_perm m l l' : Permutation l l' -> is_max m l -> is_max m l'.
Proof.
  intros P (H1 & H2). split; [eapply Permutation_in; eauto|].
  intros y Hy. apply H2. eapply Permutation_in; [apply Permutation_sym; eassumption|assumption].
Qed.

(** The recomputation loop finds the extremes. *)
Lemma stats_of_minmax (w : list b64) : w <> [] -> (forall y, In y w -> nan64 y = false) ->
  let '(_, _, mn, mx) := stats_of (N := B64) w in is_min mn w /\ is_max mx w.
Proof.
  intros Hne Hn. unfold stats_of.
  assert (G : forall (w1 w2 : list b64) e e2 mn mx,
     (forall y, In y (w1 ++ w2) -> nan64 y = false) -> w1 <> [] -> is_min mn w1 -> is_max mx w1 ->
     let '(_, _, mn', mx') := fold_left (stats_turn (N := B64)) w2 (e, e2, mn, mx) in is_min mn' (w1 ++ w2) /\ is_max mx' (w1 ++ w2)).
  { intros w1 w2; revert w1; induction w2 as [|v w2 IH]; intros w1 e e2 mn mx Hn' Hne' Hmn Hmx; cbn [fold_left].
    - rewrite app_nil_r. auto.
    - unfold stats_turn at 2. rewrite !is_nan_b64.
      assert (Nmn : nan64 mn = false) by (apply Hn', in_or_app; left; apply Hmn).
      assert (Nmx : nan64 mx = false) by (apply Hn', in_or_app; left; apply Hmx).
      rewrite Nmn, Nmx. cbn [orb].
      assert (Nv : nan64 v = false) by (apply Hn', in_or_app; right; left; reflexivity).
      assert (N1 : forall y, In y w1 -> nan64 y = false) by (intros; apply Hn', in_or_app; left; assumption).
      replace (w1 ++ v :: w2) with ((w1 ++ [v]) ++ w2) in * by (rewrite <- app_assoc; reflexivity).
      apply IH.
      + assumption.
      + destruct w1; discriminate.
      + apply (is_min_snoc mn w1 v); auto.
      + apply (is_max_snoc mx w1 v); auto. }
  destruct w as [|v w]; [congruence|]. cbn [fold_left].
  unfold stats_turn at 2. change (XMath.is_nan (@c_nan B64)) with true. cbn [orb].
  assert (Nv : nan64 v = false) by (apply Hn; left; reflexivity).
  apply (G [v] w); auto; try discriminate.
  - apply is_min_one; assumption.
  - apply is_max_one; assumption.
Qed.

Definition minmax_ok (p : peaks B64) (l : list b64) : Prop :=
  l <> [] -> is_min (p_min p) l /\ is_max (p_max p) l.

Lemma peaks_push_minmax cap (p : peaks B64) l x :
  rep cap (p_cont p) l -> (forall y, In y l -> nan64 y = false) -> nan64 x = false -> minmax_ok p l ->
  exists p', peaks_push p x = Ret p' /\ rep cap (p_cont p') (qpush cap l x) /\ minmax_ok p' (qpush cap l x).
Proof.
  intros R Hl Hx M.
  destruct (peaks_push_eq cap p l x R) as (c & w & _ & R' & H1 & H2 & H3 & E).
  eexists; split; [exact E|].
  assert (Lw : length w = length (qpush cap l x)) by (apply Permutation_length; assumption).
  assert (Hq : forall y, In y (qpush cap l x) -> nan64 y = false).
  { intros y. unfold qpush. destruct (Z.of_nat (length l) <? cap); intros Hy; apply in_app_or in Hy as [Hy|[<-|[]]]; auto.
    apply Hl. destruct l; [destruct Hy|right; assumption]. }
  assert (Hw : forall y, In y w -> nan64 y = false).
  { intros y Hy. apply Hq. eapply Permutation_in; eauto. }
  unfold push_mn, push_mx in *.
  change (@nlt B64) with b64_ltb in *. change (@nle B64) with b64_leb in *.
  destruct (Z.ltb_spec (Z.of_nat (length l)) cap) as [Hc|Hc].
  - (* no eviction *)
    change (XMath.is_nan (@c_nan B64)) with true in *. cbv iota in *.
    split; [exact R'|]. intros _. cbn [p_min p_max].
    rewrite Lw. unfold qpush in *. replace (Z.of_nat (length l) <? cap) with true in * by (symmetry; apply Z.ltb_lt; assumption).
    rewrite app_length. cbn [length].
    destruct l as [|a l'].
    + cbn [length app]. cbn. split; [apply is_min_one|apply is_max_one]; assumption.
    + replace (Z.eqb (Z.of_nat (length (a :: l') + 1)) 1) with false by (symmetry; apply Z.eqb_neq; cbn [length]; lia).
      cbn [orb]. destruct (M ltac:(discriminate)) as (M1 & M2). split; [apply is_min_snoc|apply is_max_snoc]; auto.
  - (* eviction *)
    pose proof (rep_length _ _ _ R) as Hlen. destruct R as (Hcap & _).
    destruct l as [|a l']; [cbn in *; lia|]. cbn [hd] in *.
    assert (Na : nan64 a = false) by (apply Hl; left; reflexivity).
    rewrite is_nan_b64, Na in *.
    unfold qpush in *. replace (Z.of_nat (length (a :: l')) <? cap) with false in * by (symmetry; apply Z.ltb_ge; assumption).
    cbn [tl] in *.
    set (mn := if (Z.of_nat (length w) =? 1) || b64_ltb x (p_min p) then x else p_min p) in *.
    set (mx := if (Z.of_nat (length w) =? 1) || b64_ltb (p_max p) x then x else p_max p) in *.
    clear E.
    match goal with |- context [if ?b then set_stats _ _ else ?r] =>
      change b with (b64_leb a mn || b64_leb mx a)%bool;
      change r with (MkPeaks (N := B64) (p_e r) (p_e2 r) mn mx c) end.
    destruct (b64_leb a mn || b64_leb mx a)%bool eqn:ER.
    + pose proof (stats_of_minmax w) as SM. unfold set_stats. destruct (stats_of w) as [[[e e2] mn'] mx'].
      split; [exact R'|]. intros _. cbn [p_min p_max].
      destruct SM as (S1 & S2); auto.
      { intros ->. rewrite app_length in Lw. cbn in Lw. lia. }
      split; [eapply is_min_perm|eapply is_max_perm]; eauto.
    + split; [exact R'|]. intros _. cbn [p_min p_max].
      apply orb_false_iff in ER as (ER1 & ER2).
      destruct (M ltac:(discriminate)) as (M1 & M2).
      destruct (Z.of_nat (length w) =? 1) eqn:E1.
      { (* capacity 1: the evicted value compares with x one way or the other *)
        exfalso. cbn [orb] in mn, mx. subst mn mx.
        destruct (b64_ltb a x) eqn:C.
        - apply ltb_leb in C. congruence.
        - apply leb_total in C; auto. congruence. }
      cbn [orb] in mn, mx.
      assert (Mn : is_min mn ((a :: l') ++ [x])) by exact (is_min_snoc _ _ x M1 Hx Hl).
      assert (Mx : is_max mx ((a :: l') ++ [x])) by exact (is_max_snoc _ _ x M2 Hx Hl).
      clearbody mn mx.
      destruct Mn as (In1 & All1). destruct Mx as (In2 & All2).
      split; split.
      * destruct In1 as [E|I]; [|exact I]. subst a. rewrite leb_refl in ER1; [discriminate|assumption].
      * intros y Hy. apply All1. right. exact Hy.
      * destruct In2 as [E|I]; [|exact I]. subst a. rewrite leb_refl in ER2; [discriminate|assumption].
      * intros y Hy. apply All2. right. exact Hy.
Qed.

Lemma peaks_pushes_minmax cap (p : peaks B64) hist xs :
  rep cap (p_cont p) (last_k cap hist) -> (forall y, In y (hist ++ xs) -> nan64 y = false) -> minmax_ok p (last_k cap hist) ->
  exists p', peaks_pushes p xs = Ret p' /\ rep cap (p_cont p') (last_k cap (hist ++ xs)) /\ minmax_ok p' (last_k cap (hist ++ xs)).
Proof.
  revert p hist; induction xs as [|x xs IH]; intros p hist R Hn M; cbn [peaks_pushes].
  - exists p. rewrite app_nil_r. auto.
  - pose proof R as (Hcap & _).
    destruct (peaks_push_minmax cap p _ x R) as (p' & E & R' & M'); auto.
    { intros y Hy. apply Hn, in_or_app. left. eapply lastn_incl; exact Hy. }
    { apply Hn, in_or_app. right. left. reflexivity. }
    rewrite E. cbn [bind]. rewrite last_k_lastn in R', M'. rewrite qpush_lastn in R', M' by lia.
    rewrite <- last_k_lastn in R', M'.
    replace (hist ++ x :: xs) with ((hist ++ [x]) ++ xs) in * by (rewrite <- app_assoc; reflexivity).
    apply IH; auto.
Qed.

Lemma C16_lemma cap blk (xs : list b64) :
  1 <= cap < 2 ^ 61 -> Z.of_nat (length blk) = cap -> (forall x, In x xs -> is_NaN x = false) ->
  exists p : peaks B64,
    peaks_pushes (N := B64) (fst (peaks_init (Some blk) cap)) xs = Ret p /\
    oldest_first (p_cont p) = map Some (last_k cap xs) /\
    (xs <> [] ->
       In (p_min p) (last_k cap xs) /\ In (p_max p) (last_k cap xs) /\
       forall y, In y (last_k cap xs) -> b64_leb (p_min p) y = true /\ b64_leb y (p_max p) = true).
Proof.
  intros H1 H2 Hn. pose proof (rep_init (N := B64) cap blk H1 H2) as R.
  destruct (peaks_pushes_minmax cap (fst (peaks_init (Some blk) cap)) [] xs) as (p & E & R' & M).
  - exact R.
  - intros y Hy. rewrite <- is_NaN_eq. apply Hn. exact Hy.
  - intros C. exfalso. apply C. reflexivity.
  - exists p. split; [exact E|]. cbn [app] in *. split; [exact (rep_oldest_first cap (p_cont p) _ R')|].
    intros Hne. destruct M as ((M1 & M2) & (M3 & M4)).
    + intros C. apply (f_equal (@length b64)) in C. rewrite last_k_lastn, lastn_length in C.
      destruct xs; [congruence|]. cbn [length] in C. lia.
    + auto.
Qed.

(** ** C19, C25, C26: what fit and step put in the window *)
Lemma excess_distance low (s : spot B64) t x : sided low s ->
  @nmul B64 (s_updown s) (nsub x t) = distance low t x.
Proof.
  intros S. unfold distance. destruct S as [(-> & ->)|(Hl & ->)].
  - apply mult_1_l.
  - destruct (Z.eqb_spec low 0); [contradiction|]. apply mult_m1_l.
Qed.

Lemma fit_excesses_eq low (s : spot B64) et data : sided low s ->
  fit_excesses s et data = excesses low et data.
Proof.
  intros S. unfold fit_excesses, excesses.
  induction data as [|x data IH]; [reflexivity|]. cbn [map filter].
  pose proof (excess_gt_0 low s et x S) as X.
  change (@nlt B64 (nofZ 0) (nmul (s_updown s) (nsub x et)))
    with (b64_ltb (b64_ofZ 0) (b64_mult (s_updown s) (b64_minus x et))).
  rewrite X. destruct (beyond low et x); cbn [map]; rewrite IH; [|reflexivity].
  f_equal. apply excess_distance. assumption.
Qed.

Lemma excesses_pos low et data v : In v (excesses low et data) -> b64_ltb (d 0) v = true.
Proof.
  unfold excesses. intros H. apply in_map_iff in H as (x & <- & H). apply filter_In in H as (_ & H).
  (* any sided state will do *)
  set (s := MkSpot (N := B64) (d 0) (d 0) 0 0 (if low =? 0 then b64_ofZ 1 else b64_ofZ (-1)) (d 0) (d 0) 0 0
         (MkTail (N:=B64) (d 0) (d 0) (MkPeaks (N:=B64) (d 0) (d 0) (d 0) (d 0) (MkUbend (N:=B64) 0 0 (d 0) 0 [])))).
  assert (S : sided low s).
  { unfold sided, s. cbn [s_updown]. destruct (Z.eqb_spec low 0); auto. }
  rewrite <- (excess_distance low s et x S). rewrite <- H. apply (excess_gt_0 low s et x S).
Qed.

Lemma C26_lemma mf q low discard level cap (s : spot B64) data s' r :
  detector mf q low discard level cap s -> spot_fit mf s data = Ret (s', r) ->
  (r = -1003 -> window s' = window s) /\
  (r <> -1003 ->
     oldest_first (window s') = last_k cap (oldest_first (window s) ++ map Some (excesses low (s_et s') data)) /\
     (cap <= Z.of_nat (length (excesses low (s_et s') data)) ->
      oldest_first (window s') = map Some (last_k cap (excesses low (s_et s') data)))).
Proof.
  intros D F. pose proof (detector_sided _ _ _ _ _ _ _ D) as S.
  apply detector_facts in D as (_ & _ & _ & _ & _ & l & W).
  pose proof (rep_oldest_first cap _ _ W) as OF.
  destruct (fit_wf mf cap s data l s' r W F) as [(-> & ->)|(Hr & Ne & W1 & _)].
  - split; [reflexivity|]. intros C. exfalso. apply C. reflexivity.
  - split. { intros C. exfalso. apply Hr. exact C. }
    intros _. rewrite (fit_excesses_eq low s _ data S) in W1.
    pose proof (rep_oldest_first cap _ _ W1) as OF1. fold (window s) in *. unfold win in OF, OF1. fold (window s) in OF. fold (window s') in OF1.
    rewrite OF, OF1. rewrite <- map_app. rewrite last_k_lastn, lastn_map. split; [reflexivity|].
    intros Hc. f_equal. rewrite last_k_lastn. apply lastn_app_r.
    apply Nat2Z.inj_le. rewrite Z2Nat.id; [exact Hc|]. destruct W as (Hcap & _). lia.
Qed.

Lemma p2_quantile_short {N} (p : num N) xs : (length xs < 5)%nat -> p2_quantile p xs = Ret (nofZ 0).
Proof. intros H. unfold p2_quantile, quantile. apply Nat.ltb_lt in H. rewrite H. reflexivity. Qed.

Lemma C23_lemma (p : b64) (xs : list b64) : exists r, p2_quantile (N := B64) p xs = Ret r.
Proof. apply p2_quantile_total. exact trunc_ok_b64. Qed.

Lemma C25_lemma mf q low discard level cap (s : spot B64) data s' r :
  detector mf q low discard level cap s -> (length data < 5)%nat -> spot_fit mf s data = Ret (s', r) ->
  s_et s' = d 0 /\ r <> -1003 /\ s_Nt s' = count (beyond low (d 0)) data /\ s_n s' = Z.of_nat (length data) /\
  oldest_first (window s') = last_k cap (oldest_first (window s) ++ map Some (excesses low (d 0) data)).
Proof.
  intros D HL F. pose proof (detector_sided _ _ _ _ _ _ _ D) as S.
  pose proof (C26_lemma _ _ _ _ _ _ _ _ _ _ D F) as (_ & C26).
  apply detector_facts in D as (_ & _ & _ & _ & _ & l & W).
  assert (E : r <> -1003 /\ s_et s' = d 0).
  { apply fit_inv in F.
    destruct F as [et E Ne _ _|et s1 t2 ll a E Ne E2 E3 E4 -> ->];
      rewrite p2_quantile_short in E by exact HL; injection E as <-; [discriminate|].
    split; [destruct (XMath.is_nan a); discriminate|].
    apply fit_fill_frame in E2 as (-> & _). reflexivity. }
  destruct E as (Hr & Eet). split; [assumption|]. split; [assumption|].
  destruct (fit_wf mf cap s data l s' r W F) as [(-> & _)|(_ & Ne & W1 & Cn & Ct & _)]; [exfalso; apply Hr; reflexivity|].
  rewrite Eet in *. split.
  { rewrite Ct, (fit_excess_count low s _ data S). apply u64_small.
    assert (HL' : (@length b64 data < 5)%nat) by exact HL.
    pose proof (@count_le b64 (beyond low (d 0)) data) as CL. change (num B64) with b64. lia. }
  split; [assumption|]. apply C26. assumption.
Qed.

Lemma session_invariant {N} (mf : MathFns N) (P : spot N -> Prop) :
  (forall s c s' a, P s -> do_call mf s c = Ret (s', a) -> P s') ->
  forall cs s s' l, P s -> session mf s cs = Ret (s', l) -> P s'.
Proof.
  intros H. induction cs as [|c cs IH]; intros s s' l Hs; cbn [session].
  - intros E; injection E as <- _. assumption.
  - destruct (do_call mf s c) as [[s1 a]|] eqn:E; cbn [bind]; [|discriminate].
    destruct (session mf s1 cs) as [[s2 l2]|] eqn:E2; cbn [bind]; [|discriminate].
    intros E3; injection E3 as <- _. eapply IH; [|exact E2]. eapply H; eauto.
Qed.

Definition nonneg_window (low cap : Z) (s : spot B64) : Prop :=
  sided low s /\ exists l, wf cap s l /\ forall v, In v l -> b64_leb (d 0) v = true.

Lemma nonneg_call mf low cap (s : spot B64) c s' a :
  nonneg_window low cap s -> do_call mf s c = Ret (s', a) -> nonneg_window low cap s'.
Proof.
  intros (S & l & W & Hl) H.
  assert (S' : sided low s').
  { destruct (do_call_wf mf cap s l c s' a W H) as ((_ & _ & _ & _ & C) & _). unfold sided in *. rewrite C. assumption. }
  split; [assumption|].
  destruct c as [data|x|q|z]; cbn [do_call] in H.
  - destruct (spot_fit mf s data) as [[s1 r]|] eqn:E; cbn [bind] in H; [|discriminate].
    injection H as <- <-.
    destruct (fit_wf mf cap s data l s1 r W E) as [(_ & ->)|(_ & _ & W' & _)].
    + exists l. auto.
    + eexists; split; [exact W'|]. intros v Hv. apply lastn_incl in Hv. apply in_app_or in Hv as [Hv|Hv]; auto.
      rewrite (fit_excesses_eq low s _ _ S) in Hv. apply ltb_leb. eapply excesses_pos; eauto.
  - destruct (spot_step mf s x) as [[s1 r]|] eqn:E; cbn [bind] in H; [|discriminate].
    injection H as <- <-.
    destruct (step_wf mf cap s x l s1 r W E) as (_ & _ & [(-> & W')|(_ & ET)]).
    + eexists; split; [exact W'|]. intros v Hv.
      assert (Hv' : In v l \/ v = nmul (s_updown s) (nsub x (s_et s))).
      { unfold qpush in Hv. destruct (_ <? _); apply in_app_or in Hv as [Hv|[Hv|[]]]; auto.
        left. destruct l; [destruct Hv|right; assumption]. }
      destruct Hv' as [Hv'| ->]; auto.
      apply step_inv in E. destruct E as [? ? E|? ? ? ? E|? ? ? ? E|? ? ? ? ? ? C ? ? ? ? E]; try discriminate. exact C.
    + exists l. split; [|assumption]. unfold wf, win in *. rewrite ET. exact W.
  - destruct (spot_quantile mf s q); cbn [bind] in H; [|discriminate]. injection H as <- _. eauto.
  - destruct (spot_probability mf s z); cbn [bind] in H; [|discriminate]. injection H as <- _. eauto.
Qed.

Lemma C19_lemma mf q low discard level cap (s : spot B64) :
  detector mf q low discard level cap s ->
  exists l, oldest_first (window s) = map Some l /\ (forall v, In v l -> is_NaN v = false /\ b64_leb (d 0) v = true).
Proof.
  intros D. assert (NW : nonneg_window low cap s).
  { pose proof D as (old & blk & s0 & calls & answers & H1 & H2 & H3 & H4).
    eapply (session_invariant mf (nonneg_window low cap)); [|clear H4|exact H4].
    - intros; eapply nonneg_call; eauto.
    - split.
      + eapply (detector_sided mf q low discard level cap). exists old, blk, s0, [], []. auto.
      + exists []. split; [eapply init_wf; eauto|intros v []]. }
  destruct NW as (_ & l & W & Hl). exists l. split; [apply (rep_oldest_first cap); exact W|].
  intros v Hv. specialize (Hl v Hv). split; [|assumption].
  rewrite is_NaN_eq. apply leb_true_iff in Hl. tauto.
Qed.

(** ** C21 *)
Lemma C21_lemma mf (s : spot B64) data s' r : spot_fit mf s data = Ret (s', r) ->
  (r = 0 \/ r = -1003 \/ r = -1004) /\
  (r = 0 -> is_NaN (s_et s') = false /\ is_NaN (s_at s') = false) /\
  (r = -1003 -> s' = with_counts s 0 (Z.of_nat (length data))) /\
  (r = -1004 -> is_NaN (s_et s') = false /\ is_NaN (s_at s') = true).
Proof.
  intros F. apply fit_inv in F. destruct F as [et E Ne -> ->|et s1 t2 ll a E Ne E2 E3 E4 -> ->].
  - split; [auto|]. split; [discriminate|]. split; [reflexivity|discriminate].
  - rewrite is_NaN_model in Ne. apply fit_fill_frame in E2 as (E2 & _).
    assert (Ee : s_et (with_at (with_tail s1 t2) a) = et) by (rewrite E2; reflexivity).
    rewrite Ee, Ne. rewrite (is_NaN_model a).
    change (s_at (with_at (with_tail s1 t2) a)) with a.
    destruct (is_NaN a); repeat split; auto; discriminate.
Qed.

Lemma mult_nan_r x : b64_mult x B754_nan = B754_nan.
Proof. destruct x; reflexivity. Qed.

(** ** C40 *)
Lemma C40_lemma mf q low discard level cap (s s' : spot B64) xs rs :
  detector mf q low discard level cap s -> is_NaN (s_at s) = true -> spot_steps mf s xs = Ret (s', rs) ->
  forall rs1 rs2, rs = rs1 ++ ANOMALY :: rs2 -> In EXCESS rs1.
Proof.
  intros _. revert s rs. induction xs as [|x xs IH]; intros s rs HN; cbn [spot_steps].
  - intros H; injection H as <- <-. intros [|] rs2 H; discriminate.
  - destruct (spot_step mf s x) as [[s1 r]|] eqn:E; cbn [bind]; [|discriminate].
    destruct (spot_steps mf s1 xs) as [[s2 l]|] eqn:E2; cbn [bind]; [|discriminate].
    intros H; injection H as <- <-. intros rs1 rs2 H.
    assert (AN : s_at s = B754_nan) by (destruct (s_at s); try discriminate; reflexivity).
    apply step_inv in E. destruct E as [Nx -> ->|? ? C -> ->|? ? ? -> ->|t1 t2 ll a ? ? ? E1 E2' E3 -> ->].
    + destruct rs1 as [|r1 rs1]; [discriminate|]. injection H as <- H. right. eapply IH; eauto.
    + exfalso. rewrite AN in C. change (@nsub B64) with b64_minus in C. change (@nmul B64) with b64_mult in C.
      rewrite minus_nan_r in C by reflexivity. rewrite mult_nan_r in C. discriminate.
    + destruct rs1 as [|r1 rs1]; [discriminate|]. injection H as <- H. right.
      eapply IH with (s := with_counts s (s_Nt s) (u64 (s_n s + 1))); eauto.
    + destruct rs1 as [|r1 rs1]; [discriminate|]. injection H as <- H. left. reflexivity.
Qed.

(** ** C14 *)
Lemma C14_lemma (fu : FloatUtils B64) q low discard level cap (s : spot B64) calls w :
  detector (c_math fu) q low discard level cap s -> session (c_math fu) s calls = Undef w -> w = CastRange.
Proof.
  intros D. apply detector_facts in D as (_ & _ & _ & _ & _ & l & W).
  apply (session_undef (c_math fu) trunc_ok_b64 (exp_safe_b64 fu) cap s l calls w W).
Qed.


(** ** C15 at the level of the detector *)
Lemma push_empty_block {N} (t : tail N) x : u_filled (p_cont (t_peaks t)) = 0 -> u_cursor (p_cont (t_peaks t)) = 0 ->
  u_data (p_cont (t_peaks t)) = [] -> tail_push t x = Undef OutOfBounds.
Proof.
  intros H1 H2 H3. unfold tail_push, peaks_push, ubend_push. rewrite H1, H2, H3. reflexivity.
Qed.

Lemma fit_fill_empty {N} et (s : spot N) data :
  u_filled (win s) = 0 -> u_cursor (win s) = 0 -> u_data (win s) = [] ->
  fit_excesses s et data <> [] -> fit_fill et s data = Undef OutOfBounds.
Proof.
  intros H1 H2 H3. unfold fit_excesses. induction data as [|x data IH]; cbn [map filter fit_fill]; [congruence|].
  destruct (nlt _ _).
  - intros _. rewrite push_empty_block; auto.
  - exact IH.
Qed.

Lemma C15_fit_lemma mf (old : spot B64) q low discard level cap s data et :
  (cap = 0 \/ 2 ^ 61 <= cap) -> cap < 2 ^ 64 -> ubend_bytes cap < 8 ->
  spot_init old q low discard level cap (fun bytes => Some (repeat None (Z.to_nat (bytes / 8)))) = (s, 0) ->
  p2_quantile (N := B64) (if low =? 0 then level else b64_minus (d 1) level) data = Ret et -> is_NaN et = false ->
  excesses low et data <> [] ->
  spot_fit mf s data = Undef OutOfBounds.
Proof.
  intros Hcap Hcap2 Hb I P Ne Hx.
  assert (B0 : 0 <= ubend_bytes cap) by (unfold ubend_bytes, u64; apply Z.mod_pos_bound; lia).
  assert (EB : Z.to_nat (ubend_bytes cap / 8) = 0%nat).
  { rewrite Z.div_small by lia. reflexivity. }
  unfold spot_init in I. destruct (spot_check q level) as [code|] eqn:EC.
  { exfalso. injection I as _ ->. unfold spot_check in EC.
    destruct (_ || _)%bool in EC; [discriminate|]. destruct (_ || _)%bool in EC; discriminate. }
  rewrite EB in I. cbn in I. injection I as <-.
  unfold spot_fit. cbv zeta. cbn [s_low s_level with_counts].
  set (pp := if Z.eqb (if low =? 0 then 0 else 1) 0 then level else nsub (nofZ 1) level).
  assert (EP : pp = (if low =? 0 then level else b64_minus (d 1) level)).
  { unfold pp. destruct (low =? 0); reflexivity. }
  rewrite EP. change (p2_quantile (N := B64)) with (@p2_quantile B64) in *. rewrite P. cbn [bind].
  rewrite is_NaN_model, Ne.
  rewrite fit_fill_empty; try reflexivity.
  set (s0 := with_et _ _).
  assert (Sd : sided low s0).
  { unfold sided, s0. cbn [s_updown with_et with_counts]. destruct (Z.eqb_spec low 0); auto. }
  rewrite (fit_excesses_eq low s0 et data Sd). exact Hx.
Qed.
