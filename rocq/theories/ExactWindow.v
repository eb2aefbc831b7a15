(** * ExactWindow: the window statistics in exact arithmetic (C17, C18) *)
From Coq Require Import ZArith List Bool Lia Reals Lra Permutation.
From Flocq Require Import Core.Core.
From Verif Require Import Num NumFacts XMath Ubend Session UbendFacts Peaks PeaksFacts Brent Estimator Tail P2 Spot B64 Spec RNum WindowLemmas.
Import ListNotations.
Open Scope Z_scope.

(** ** Vocabulary *)
Definition rsum (l : list R) : R := fold_right Rplus 0%R l.
Definition sumsq (l : list R) : R := rsum (map (fun v => v * v)%R l).
(** the k-th value that leaves a window of capacity cap is never an extreme of what remains *)
Definition no_extreme_evicted (cap : Z) (xs : list R) : Prop :=
  forall pre x post old, xs = pre ++ x :: post -> nth_error pre (length pre - Z.to_nat cap) = Some old ->
    cap <= Z.of_nat (length pre) ->
    exists a b, In a (last_k cap (pre ++ [x])) /\ In b (last_k cap (pre ++ [x])) /\ (a < old < b)%R.

(** ** Proofs *)
Lemma if_Some {A} (b : bool) (x y : A) : (if b then Some x else Some y) = Some (if b then x else y).
Proof. destruct b; reflexivity. Qed.
Lemma rsum_app a b : rsum (a ++ b) = (rsum a + rsum b)%R.
Proof.
  unfold rsum. rewrite fold_right_app. induction a as [|x a IH]; cbn [fold_right]; [lra|]. rewrite IH. lra.
Qed.
Lemma rsum_nil : rsum [] = 0%R.
Proof. reflexivity. Qed.
Lemma rsum_cons a l : rsum (a :: l) = (a + rsum l)%R.
Proof. reflexivity. Qed.
Lemma sumsq_nil : sumsq [] = 0%R.
Proof. reflexivity. Qed.
Lemma sumsq_cons a l : sumsq (a :: l) = (a * a + sumsq l)%R.
Proof. reflexivity. Qed.
Lemma sumsq_app a b : sumsq (a ++ b) = (sumsq a + sumsq b)%R.
Proof. unfold sumsq. rewrite map_app. apply rsum_app. Qed.
Lemma rsum_perm a b : Permutation a b -> rsum a = rsum b.
Proof. induction 1; cbn; unfold rsum in *; lra. Qed.
Lemma sumsq_perm a b : Permutation a b -> sumsq a = sumsq b.
Proof. intros P. apply rsum_perm, Permutation_map, P. Qed.

Lemma Req_bool_refl (x : R) : Req_bool x x = true.
Proof. apply Req_bool_true. reflexivity. Qed.
Lemma is_nan_R (x : R) : @XMath.is_nan RNum (Some x) = false.
Proof. unfold XMath.is_nan. cbn. rewrite Req_bool_refl. reflexivity. Qed.
Lemma is_nan_None : @XMath.is_nan RNum None = true.
Proof. reflexivity. Qed.
Lemma c_nan_R : @c_nan RNum = None.
Proof. unfold c_nan. cbn. rewrite Req_bool_refl. reflexivity. Qed.

Definition rmin (m : R) (l : list R) : Prop := In m l /\ forall y, In y l -> (m <= y)%R.
Definition rmax (m : R) (l : list R) : Prop := In m l /\ forall y, In y l -> (y <= m)%R.

Lemma rmin_snoc m l x : rmin m l -> rmin (if Rlt_bool x m then x else m) (l ++ [x]).
Proof.
  intros (H1 & H2). case Rlt_bool_spec; intros H; split.
  - apply in_or_app; right; left; reflexivity.
  - intros y Hy. apply in_app_or in Hy as [Hy|[<-|[]]]; [|lra]. specialize (H2 y Hy). lra.
  - apply in_or_app; left; assumption.
  - intros y Hy. apply in_app_or in Hy as [Hy|[<-|[]]]; auto.
Qed.
Lemma rmax_snoc m l x : rmax m l -> rmax (if Rlt_bool m x then x else m) (l ++ [x]).
Proof.
  intros (H1 & H2). case Rlt_bool_spec; intros H; split.
  - apply in_or_app; right; left; reflexivity.
  - intros y Hy. apply in_app_or in Hy as [Hy|[<-|[]]]; [|lra]. specialize (H2 y Hy). lra.
  - apply in_or_app; left; assumption.
  - intros y Hy. apply in_app_or in Hy as [Hy|[<-|[]]]; auto.
Qed.
Lemma rmin_perm m l l' : Permutation l l' -> rmin m l -> rmin m l'.
Proof. intros P (H1 & H2). split; [eapply Permutation_in; eauto|]. intros y Hy. apply H2. eapply Permutation_in; [apply Permutation_sym, P|assumption]. Qed.
Lemma rmax_perm m l l' : Permutation l l' -> rmax m l -> rmax m l'.
Proof. intros P (H1 & H2). split; [eapply Permutation_in; eauto|]. intros y Hy. apply H2. eapply Permutation_in; [apply Permutation_sym, P|assumption]. Qed.

(** The recomputation loop *)
Lemma stats_turn_R e e2 mn mx v :
  stats_turn (N := RNum) (Some e, e2, Some mn, Some mx) (Some v) =
  (Some (e + v)%R, Some (v * v)%R, Some (if Rlt_bool v mn then v else mn), Some (if Rlt_bool mx v then v else mx)).
Proof.
  unfold stats_turn. rewrite !is_nan_R. cbn. destruct (Rlt_bool v mn), (Rlt_bool mx v); reflexivity.
Qed.
Lemma stats_turn_R0 v :
  stats_turn (N := RNum) (nofZ 0, nofZ 0, c_nan, c_nan) (Some v) = (Some (v + 0)%R, Some (v * v)%R, Some v, Some v).
Proof. unfold stats_turn. rewrite c_nan_R, is_nan_None. cbn. do 4 f_equal. lra. Qed.

Lemma stats_of_R (w : list R) : w <> [] ->
  exists mn mx, stats_of (N := RNum) (map Some w) =
    (Some (rsum w), Some (last w 0 * last w 0)%R, Some mn, Some mx) /\ rmin mn w /\ rmax mx w.
Proof.
  assert (G : forall (w2 w1 : list R) e2 mn mx, rmin mn w1 -> rmax mx w1 ->
    exists mn' mx', fold_left (stats_turn (N := RNum)) (map Some w2) (Some (rsum w1), e2, Some mn, Some mx) =
     (Some (rsum (w1 ++ w2)), match w2 with [] => e2 | _ => Some (last w2 0 * last w2 0)%R end, Some mn', Some mx')
     /\ rmin mn' (w1 ++ w2) /\ rmax mx' (w1 ++ w2)).
  { induction w2 as [|v w2 IH]; intros w1 e2 mn mx Hmn Hmx.
    - rewrite app_nil_r. cbn. eauto.
    - cbn [map fold_left]. rewrite stats_turn_R.
      destruct (IH (w1 ++ [v]) (Some (v * v)%R) _ _ (rmin_snoc _ _ v Hmn) (rmax_snoc _ _ v Hmx)) as (mn' & mx' & E & H1 & H2).
      rewrite rsum_app in E. cbn [rsum fold_right] in E.
      rewrite <- app_assoc in *. cbn [app] in *.
      exists mn', mx'. split; [|auto].
      replace (rsum w1 + (v + 0))%R with (rsum w1 + v)%R in E by lra.
      etransitivity; [exact E|]. destruct w2; reflexivity. }
  intros Hne. destruct w as [|v w]; [congruence|].
  unfold stats_of. cbn [map fold_left]. rewrite stats_turn_R0.
  assert (A : rmin v [v]) by (split; [left; reflexivity|intros y [<-|[]]; lra]).
  assert (B : rmax v [v]) by (split; [left; reflexivity|intros y [<-|[]]; lra]).
  destruct (G w [v] (Some (v * v)%R) v v A B) as (mn & mx & E & H1 & H2).
  exists mn, mx. split; [|auto].
  cbn [rsum fold_right app] in E.
  etransitivity; [exact E|]. destruct w; reflexivity.
Qed.

Definition rinv (cap : Z) (p : peaks RNum) (l : list R) : Prop :=
  rep cap (p_cont p) (map Some l) /\ p_e p = Some (rsum l) /\
  (l <> [] -> exists mn mx, p_min p = Some mn /\ p_max p = Some mx /\ rmin mn l /\ rmax mx l).

(** an extreme of l ++ [x] is evicted, or not *)
Definition interior (old : R) (l : list R) : Prop := exists a b, In a l /\ In b l /\ (a < old < b)%R.

Lemma qpush_map {A B} (f : A -> B) cap l x : qpush cap (map f l) (f x) = map f (qpush cap l x).
Proof. unfold qpush. rewrite map_length. destruct (_ <? _); rewrite ?map_app; destruct l; reflexivity. Qed.

Lemma tl_snoc_len {A} (a : A) l x : length ((tl (a :: l)) ++ [x]) = length (a :: l).
Proof. cbn. rewrite app_length. cbn. lia. Qed.

Lemma last_map {A B} (f : A -> B) l dflt : last (map f l) (f dflt) = f (last l dflt).
Proof. induction l as [|a l IH]; [reflexivity|]. cbn. destruct l; [reflexivity|]. exact IH. Qed.

Lemma cells_prep {N} (u : ubend N) (w : list (num N)) :
  firstn (length w) (u_data u) = map Some w -> ubend_size u = Z.of_nat (length w) -> cells u = map Some w.
Proof. intros H1 H2. unfold cells. rewrite H2, Nat2Z.id. exact H1. Qed.

Lemma rpush cap (p : peaks RNum) (l : list R) (x : R) e2 : rinv cap p l -> p_e2 p = Some e2 ->
  exists p', peaks_push p (Some x : num RNum) = Ret p' /\ rinv cap p' (qpush cap l x) /\
    (Z.of_nat (length l) < cap -> p_e2 p' = Some (e2 + x * x)%R) /\
    (forall old rest, l = old :: rest -> cap <= Z.of_nat (length l) ->
      (interior old (rest ++ [x]) -> p_e2 p' = Some (e2 + x * x - old * old)%R) /\
      (~ interior old (rest ++ [x]) ->
         exists v, last (cells (p_cont p')) None = Some (Some v) /\ p_e2 p' = Some (v * v)%R)).
Proof.
  intros (Rp & He & Hm) He2.
  destruct (peaks_push_eq cap p (map Some l) (Some x : num RNum) Rp) as (c & w & _ & R' & H1 & H2 & H3 & E).
  eexists; split; [exact E|]. clear E.
  change (Some x) with ((fun v : R => Some v) x) in R', H2 at 1.
  rewrite (qpush_map (fun v : R => Some v)) in R', H2.
  assert (Ew : exists w', w = map Some w' /\ Permutation w' (qpush cap l x)).
  { apply Permutation_map_inv in H2 as (w' & -> & P). exists w'. split; [reflexivity|]. apply Permutation_sym. exact P. }
  destruct Ew as (w' & Ew & Pw).
  assert (Lww : length w = length w') by (rewrite Ew; apply map_length).
  rewrite Lww in *. clear Lww.
  pose proof (rep_length _ _ _ Rp) as Hlen. rewrite map_length in Hlen.
  pose proof Rp as (Hcap & _).
  unfold push_mn, push_mx.
  rewrite map_length.
  destruct (Z.ltb_spec (Z.of_nat (length l)) cap) as [Hc|Hc].
  - (* no eviction *)
    rewrite c_nan_R, is_nan_None. rewrite He, He2.
    cbn [nadd nmul nlt RNum xr2 xrb].
    assert (EQ : qpush cap l x = l ++ [x]).
    { unfold qpush. replace (Z.of_nat (length l) <? cap) with true; [reflexivity|]. symmetry. apply Z.ltb_lt. assumption. }
    rewrite EQ in *.
    split.
    + split; [exact R'|]. cbn [p_e p_min p_max]. split.
      { rewrite rsum_app. cbn. do 2 f_equal. lra. }
      intros _. apply Permutation_length in Pw. rewrite app_length in Pw. cbn [length] in Pw.
      destruct l as [|a l'].
      * cbn [length app] in *. rewrite Pw. cbn. exists x, x. repeat split; auto; try (left; reflexivity); intros y [<-|[]]; lra.
      * replace (Z.of_nat (length w') =? 1) with false by (symmetry; apply Z.eqb_neq; cbn [length] in Pw; lia).
        cbn [orb]. destruct Hm as (mn & mx & -> & -> & Hmn & Hmx); [discriminate|].
        cbn [xrb].
        exists (if Rlt_bool x mn then x else mn), (if Rlt_bool mx x then x else mx).
        split; [destruct (Rlt_bool x mn); reflexivity|]. split; [destruct (Rlt_bool mx x); reflexivity|].
        split; [apply rmin_snoc|apply rmax_snoc]; assumption.
    + split; [reflexivity|]. intros old rest -> HH. lia.
  - destruct l as [|a l']; [cbn in *; lia|]. cbn [map hd].
    assert (EQ : qpush cap (a :: l') x = l' ++ [x]).
    { unfold qpush. replace (Z.of_nat (length (a :: l')) <? cap) with false; [reflexivity|]. symmetry. apply Z.ltb_ge. assumption. }
    rewrite EQ in *.
    rewrite is_nan_R. rewrite He, He2.
    destruct Hm as (mn & mx & -> & -> & Hmn & Hmx); [discriminate|].
    cbn [nadd nsub nmul nlt nle RNum xr2 xrb].
    set (mn' := if (Z.of_nat (length w') =? 1) || Rlt_bool x mn then x else mn).
    set (mx' := if (Z.of_nat (length w') =? 1) || Rlt_bool mx x then x else mx).
    assert (I1 : (if (Z.of_nat (length w') =? 1) || Rlt_bool x mn then Some x else Some mn) = Some mn')
      by apply if_Some.
    assert (I2 : (if (Z.of_nat (length w') =? 1) || Rlt_bool mx x then Some x else Some mx) = Some mx')
      by apply if_Some.
    change (num RNum) with (option R). rewrite I1, I2. cbn [xrb].
    pose proof (Permutation_length Pw) as Lw. rewrite app_length in Lw. cbn [length] in Lw.
    assert (Hmn' : (Z.of_nat (length w') =? 1) = true /\ l' = [] /\ mn' = x /\ mx' = x \/
                   rmin mn' ((a :: l') ++ [x]) /\ rmax mx' ((a :: l') ++ [x])).
    { destruct (Z.eqb_spec (Z.of_nat (length w')) 1) as [E1|E1].
      - left. repeat split; auto. destruct l'; [reflexivity|cbn in *; lia].
      - right. unfold mn', mx'. cbn [orb]. split; [apply rmin_snoc|apply rmax_snoc]; assumption. }
    assert (Dec : (Rle_bool a mn' || Rle_bool mx' a)%bool = true <-> ~ interior a (l' ++ [x])).
    { rewrite orb_true_iff. split.
      - intros [B|B] (u & v & Hu & Hv & Huv);
          (destruct Hmn' as [(_ & -> & Em & EM)|(Hmn' & Hmx')];
           [cbn in Hu, Hv; destruct Hu as [<-|[]]; destruct Hv as [<-|[]]; lra|]).
        + destruct (Rle_bool_spec a mn'); [|discriminate]. destruct Hmn' as (_ & A).
          specialize (A u ltac:(right; exact Hu)). lra.
        + destruct (Rle_bool_spec mx' a); [|discriminate]. destruct Hmx' as (_ & A).
          specialize (A v ltac:(right; exact Hv)). lra.
      - intros NI. destruct (Rle_bool_spec a mn') as [|A]; [left; reflexivity|].
        destruct (Rle_bool_spec mx' a) as [|B]; [right; reflexivity|]. exfalso. apply NI.
        destruct Hmn' as [(_ & -> & Em & EM)|((I & _) & (J & _))]; [lra|].
        exists mn', mx'. destruct I as [I|I]; [lra|]. destruct J as [J|J]; [lra|]. auto. }
    destruct (Rle_bool a mn' || Rle_bool mx' a)%bool eqn:ER.
    + (* recomputation *)
      assert (Wne : w' <> []) by (intros ->; cbn in Lw; lia).
      destruct (stats_of_R w' Wne) as (m1 & m2 & ES & G1 & G2).
      replace (stats_of w) with (stats_of (N := RNum) (map Some w')) by (rewrite Ew; reflexivity). rewrite ES.
      unfold set_stats. split.
      * split; [exact R'|]. cbn [p_e p_min p_max]. split.
        { rewrite (rsum_perm _ _ Pw). reflexivity. }
        intros _. exists m1, m2. split; [reflexivity|]. split; [reflexivity|]. split; [eapply rmin_perm|eapply rmax_perm]; eassumption.
      * split; [intros; lia|]. intros old rest EE _. injection EE as <- <-. split.
        { intros HI. exfalso. apply Dec; auto. }
        intros _. exists (last w' 0%R). cbn [p_e2 p_cont]. split; [|reflexivity].
        rewrite (cells_prep c w) by (rewrite Ew, map_length; rewrite <- ?Ew; assumption). rewrite Ew.
        destruct w' as [|b w']; [congruence|].
        assert (Lm : forall (q : list R) z, q <> [] -> last (map (@Some (num RNum)) (map (@Some R) q)) None = Some (Some (last q z))).
        { induction q as [|u q IH]; intros z Hq; [congruence|]. cbn. destruct q as [|u' q]; [reflexivity|]. apply IH. discriminate. }
        apply Lm. discriminate.
    + split.
      * split; [exact R'|]. cbn [p_e p_min p_max]. split.
        { f_equal. rewrite rsum_app, !rsum_cons, rsum_nil. lra. }
        intros _. apply orb_false_iff in ER as (ER1 & ER2).
        destruct (Rle_bool_spec a mn') as [|A]; [discriminate|].
        destruct (Rle_bool_spec mx' a) as [|B]; [discriminate|].
        destruct Hmn' as [(_ & -> & Em & EM)|((I & AI) & (J & AJ))]; [lra|].
        exists mn', mx'. split; [reflexivity|]. split; [reflexivity|]. split; split.
        -- destruct I as [I|I]; [lra|exact I].
        -- intros y Hy. apply AI. right. exact Hy.
        -- destruct J as [J|J]; [lra|exact J].
        -- intros y Hy. apply AJ. right. exact Hy.
      * split; [intros; lia|]. intros old rest EE _. injection EE as <- <-. split; [reflexivity|].
        intros NI. apply Dec in NI. discriminate.
Qed.

Lemma rinv_init cap blk : 1 <= cap < 2 ^ 61 -> Z.of_nat (length blk) = cap ->
  rinv cap (fst (peaks_init (N := RNum) (Some blk) cap)) [].
Proof.
  intros H1 H2. split; [exact (rep_init (N := RNum) cap blk H1 H2)|]. split; [reflexivity|]. intros C. congruence.
Qed.

Lemma e2_defined cap (p : peaks RNum) l : rinv cap p l -> (exists e2, p_e2 p = Some e2) ->
  forall x, exists p' e2', peaks_push p (Some x : num RNum) = Ret p' /\ rinv cap p' (qpush cap l x) /\ p_e2 p' = Some e2'.
Proof.
  intros I (e2 & E2) x. destruct (rpush cap p l x e2 I E2) as (p' & E & I' & H1 & H2).
  exists p'. pose proof I as (Rp & _). pose proof (rep_length _ _ _ Rp) as HL. rewrite map_length in HL.
  destruct (Z_lt_le_dec (Z.of_nat (length l)) cap) as [Hc|Hc].
  - eauto.
  - destruct l as [|a l']. { pose proof Rp as (Hcap & _). cbn in Hc. lia. }
    specialize (H2 a l' eq_refl Hc) as (H2 & H3).
    destruct (Classical_Prop.classic (interior a (l' ++ [x]))) as [C|C].
    + eauto.
    + destruct (H3 C) as (v & _ & Hv). eauto.
Qed.

Lemma rpushes cap (p : peaks RNum) hist xs : rinv cap p (last_k cap hist) -> (exists e2, p_e2 p = Some e2) ->
  exists p', peaks_pushes p (map Some xs : list (num RNum)) = Ret p' /\ rinv cap p' (last_k cap (hist ++ xs)) /\ (exists e2, p_e2 p' = Some e2).
Proof.
  revert p hist; induction xs as [|x xs IH]; intros p hist I E2.
  - exists p. rewrite app_nil_r. auto.
  - destruct (e2_defined cap p _ I E2 x) as (p1 & e2' & E & I1 & E2').
    pose proof I as ((Hcap & _) & _).
    cbn [map peaks_pushes]. rewrite E. cbn [bind].
    rewrite last_k_lastn in I1. rewrite qpush_lastn in I1 by lia. rewrite <- last_k_lastn in I1.
    destruct (IH p1 (hist ++ [x]) I1) as (p' & E' & I' & E2''); [eauto|].
    rewrite <- app_assoc in I'. exists p'. auto.
Qed.

Lemma last_k_nonempty {A} cap (xs : list A) : 1 <= cap -> xs <> [] -> last_k cap xs <> [].
Proof.
  intros H1 H2 C. apply (f_equal (@length A)) in C. rewrite last_k_lastn, lastn_length in C.
  destruct xs; [congruence|]. cbn [length] in C. lia.
Qed.

Lemma C17_lemma cap blk (xs : list R) : 1 <= cap < 2 ^ 61 -> Z.of_nat (length blk) = cap ->
  exists p : peaks RNum, peaks_pushes (N := RNum) (fst (peaks_init (Some blk) cap)) (map Some xs) = Ret p /\
    p_e p = Some (rsum (last_k cap xs)) /\
    (xs <> [] -> peaks_mean p = Some (rsum (last_k cap xs) / INR (length (last_k cap xs)))%R).
Proof.
  intros H1 H2. destruct (rpushes cap _ [] xs (rinv_init cap blk H1 H2)) as (p & E & (Rp & He & _) & _).
  { exists 0%R. reflexivity. }
  exists p. cbn [app] in *. split; [exact E|]. split; [exact He|]. intros Hne.
  unfold peaks_mean, peaks_size. rewrite (rep_size _ _ _ Rp), map_length, He.
  cbn [ndiv nofZ RNum xr_div]. rewrite <- INR_IZR_INZ.
  rewrite Req_bool_false; [reflexivity|]. apply not_0_INR.
  intros C. apply (last_k_nonempty cap xs); [lia|assumption|]. destruct (last_k cap xs); [reflexivity|discriminate].
Qed.

Lemma var_of (p : peaks RNum) cap l e2 : rinv cap p l -> l <> [] -> p_e2 p = Some e2 ->
  peaks_var p = Some (e2 / INR (length l) - (rsum l / INR (length l)) * (rsum l / INR (length l)))%R.
Proof.
  intros (Rp & He & _) Hne E2. unfold peaks_var, peaks_size. rewrite (rep_size _ _ _ Rp), map_length, He, E2.
  cbn [ndiv nsub nmul nofZ RNum xr_div xr2]. rewrite <- INR_IZR_INZ.
  rewrite Req_bool_false; [reflexivity|]. apply not_0_INR. destruct l; [congruence|discriminate].
Qed.

Lemma lastn_full_head {A} (cap : Z) (l : list A) : 1 <= cap -> cap <= Z.of_nat (length l) ->
  exists old rest, last_k cap l = old :: rest /\ nth_error l (length l - Z.to_nat cap) = Some old.
Proof.
  intros H1 H2. unfold last_k. remember (length l - Z.to_nat cap)%nat as k.
  assert (Hk : (k < length l)%nat) by lia. clear Heqk H1 H2.
  revert k Hk; induction l as [|a l IH]; intros [|k] Hk; cbn in *; try lia; eauto.
  apply IH. lia.
Qed.

Lemma no_extreme_prefix cap xs ys : no_extreme_evicted cap (xs ++ ys) -> no_extreme_evicted cap xs.
Proof. intros H pre x post old E. apply (H pre x (post ++ ys) old). rewrite E, <- app_assoc. reflexivity. Qed.

Lemma C18_moment_lemma cap blk (xs : list R) : 1 <= cap < 2 ^ 61 -> Z.of_nat (length blk) = cap ->
  no_extreme_evicted cap xs -> xs <> [] ->
  exists p : peaks RNum, peaks_pushes (N := RNum) (fst (peaks_init (Some blk) cap)) (map Some xs) = Ret p /\
    p_e2 p = Some (sumsq (last_k cap xs)) /\
    peaks_var p = (let w := last_k cap xs in let n := INR (length w) in
                   Some (sumsq w / n - (rsum w / n) * (rsum w / n))%R).
Proof.
  intros H1 H2.
  assert (G : no_extreme_evicted cap xs ->
    exists p : peaks RNum, peaks_pushes (N := RNum) (fst (peaks_init (Some blk) cap)) (map Some xs) = Ret p /\
      rinv cap p (last_k cap xs) /\ p_e2 p = Some (sumsq (last_k cap xs))).
  { induction xs as [|x xs IH] using rev_ind; intros NE.
    - exists (fst (peaks_init (N := RNum) (Some blk) cap)). split; [reflexivity|]. split; [exact (rinv_init cap blk H1 H2)|reflexivity].
    - destruct IH as (p & E & I & E2); [eapply no_extreme_prefix; exact NE|].
      destruct (rpush cap p _ x _ I E2) as (p' & E' & I' & HA & HB).
      rewrite last_k_lastn in I'. rewrite qpush_lastn in I' by lia. rewrite <- last_k_lastn in I'.
      exists p'. split; [|split; [exact I'|]].
      + rewrite map_app. cbn [map].
        assert (App : forall (q : peaks RNum) l y, peaks_pushes q (l ++ [y]) = bind (peaks_pushes q l) (fun q' => peaks_push q' y)).
        { intros q l; revert q; induction l as [|b l IHl]; intros q y; cbn [app peaks_pushes bind].
          - destruct (peaks_push q y); reflexivity.
          - destruct (peaks_push q b); cbn [bind]; auto. }
        rewrite App, E. cbn [bind]. exact E'.
      + destruct (Z_lt_le_dec (Z.of_nat (length xs)) cap) as [Hc|Hc].
        * rewrite HA by (rewrite last_k_lastn, lastn_length; lia).
          rewrite !last_k_lastn, !lastn_all by (rewrite ?app_length; cbn [length]; lia).
          f_equal. rewrite sumsq_app, sumsq_cons, sumsq_nil. lra.
        * destruct (lastn_full_head cap xs) as (old & rest & EO & NO); [lia|lia|].
          assert (EN : last_k cap (xs ++ [x]) = rest ++ [x]).
          { rewrite last_k_lastn. rewrite <- qpush_lastn by lia. rewrite <- last_k_lastn, EO.
            unfold qpush. replace (Z.of_nat (length (old :: rest)) <? cap) with false; [reflexivity|].
            symmetry. apply Z.ltb_ge. rewrite <- EO, last_k_lastn, lastn_length. lia. }
          destruct (HB old rest EO) as (HB1 & _). { rewrite last_k_lastn, lastn_length. lia. }
          rewrite HB1.
          -- f_equal. rewrite EO, EN, sumsq_app, !sumsq_cons, sumsq_nil. lra.
          -- destruct (NE xs x [] old eq_refl NO Hc) as (a & b & Ha & Hb & Hab).
             rewrite EN in Ha, Hb. exists a, b. auto. }
  intros NE Hne. destruct (G NE) as (p & E & I & E2). exists p. split; [exact E|]. split; [exact E2|].
  apply (var_of p cap); auto. apply last_k_nonempty; [lia|assumption].
Qed.

Lemma C18_eviction_lemma cap blk (xs : list R) x old (p p' : peaks RNum) :
  1 <= cap < 2 ^ 61 -> Z.of_nat (length blk) = cap -> cap <= Z.of_nat (length xs) ->
  peaks_pushes (N := RNum) (fst (peaks_init (Some blk) cap)) (map Some xs) = Ret p ->
  peaks_push p (Some x : num RNum) = Ret p' ->
  nth_error xs (length xs - Z.to_nat cap) = Some old ->
  ~ (exists a b, In a (last_k cap (xs ++ [x])) /\ In b (last_k cap (xs ++ [x])) /\ (a < old < b)%R) ->
  exists v, last (cells (p_cont p')) None = Some (Some v) /\ p_e2 p' = Some (v * v)%R.
Proof.
  intros H1 H2 Hc E E' NO NI.
  destruct (rpushes cap _ [] xs (rinv_init cap blk H1 H2)) as (q & Eq & I & (e2 & E2)).
  { exists 0%R. reflexivity. }
  cbn [app] in *. assert (Some p = Some q) as EE by congruence. injection EE as <-.
  destruct (rpush cap p _ x _ I E2) as (q' & Eq' & I' & HA & HB).
  assert (Some p' = Some q') as EE by congruence. injection EE as <-.
  destruct (lastn_full_head cap xs) as (old' & rest & EO & NO'); [lia|lia|].
  assert (old' = old) by congruence. subst old'.
  assert (EN : last_k cap (xs ++ [x]) = rest ++ [x]).
  { rewrite last_k_lastn. rewrite <- qpush_lastn by lia. rewrite <- last_k_lastn, EO.
    unfold qpush. replace (Z.of_nat (length (old :: rest)) <? cap) with false; [reflexivity|].
    symmetry. apply Z.ltb_ge. rewrite <- EO, last_k_lastn, lastn_length. lia. }
  rewrite EN in NI.
  destruct (HB old rest EO) as (_ & HB2). { rewrite last_k_lastn, lastn_length. lia. }
  apply HB2. exact NI.
Qed.
