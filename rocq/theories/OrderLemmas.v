(** * OrderLemmas: in exact arithmetic the order of the observations is irrelevant (C67) *)
From Coq Require Import ZArith List Bool Reals Lra Lia Permutation FunctionalExtensionality.
From Flocq Require Import Core.Core.
From Verif Require Import Num NumFacts XMath Ubend UbendFacts Session Peaks PeaksFacts Brent Estimator Tail P2 P2Facts Spot SpotFacts RNum Spec
  DetectorLemmas HistoryLemmas RefitLemmas LikApi ExactWindow.
Import ListNotations.
Open Scope Z_scope.

(** ** Sums *)
Lemma xr_add_comm (a b : xr) : xr2 Rplus a b = xr2 Rplus b a.
Proof. destruct a, b; cbn; try reflexivity. f_equal. ring. Qed.
Lemma xr_add_swap (a b c : xr) : xr2 Rplus (xr2 Rplus a b) c = xr2 Rplus (xr2 Rplus a c) b.
Proof. destruct a, b, c; cbn; try reflexivity. f_equal. ring. Qed.

Lemma fold_left_perm {A B} (f : A -> B -> A) : (forall a x y, f (f a x) y = f (f a y) x) ->
  forall l l', Permutation l l' -> forall a, fold_left f l a = fold_left f l' a.
Proof.
  intros C l l' P. induction P as [|x l l' P IH|x y l|l1 l2 l3 P1 IH1 P2 IH2]; intros a; cbn [fold_left]; auto.
  - rewrite C. reflexivity.
  - rewrite IH1. apply IH2.
Qed.

Lemma bind_ext {A B} (x : res A) (f g : A -> res B) : (forall a, f a = g a) -> bind x f = bind x g.
Proof. intros H. destruct x; cbn [bind]; [apply H|reflexivity]. Qed.

(** ** Related windows: same statistics, same content up to the order *)
Definition same_window (cap : Z) (p1 p2 : peaks RNum) (l1 l2 : list xr) : Prop :=
  p_e p1 = p_e p2 /\ p_e2 p1 = p_e2 p2 /\ p_min p1 = p_min p2 /\ p_max p1 = p_max p2 /\
  rep (N := RNum) cap (p_cont p1) l1 /\ rep (N := RNum) cap (p_cont p2) l2 /\ Permutation l1 l2.

Lemma qpush_short {A} cap (l : list A) x : Z.of_nat (length l) < cap -> qpush cap l x = l ++ [x].
Proof. intros H. unfold qpush. destruct (Z.ltb_spec (Z.of_nat (length l)) cap); [reflexivity|lia]. Qed.

(** a push that evicts nothing *)
Lemma push_short cap (p : peaks RNum) (l : list xr) (x : xr) : rep (N := RNum) cap (p_cont p) l -> Z.of_nat (length l) < cap ->
  exists c, rep (N := RNum) cap c (l ++ [x]) /\
    peaks_push (N := RNum) p x = Ret (MkPeaks (N := RNum) (xr2 Rplus (p_e p) x) (xr2 Rplus (p_e2 p) (xr2 Rmult x x))
      (push_mn (N := RNum) p (Z.of_nat (length l) + 1) x) (push_mx (N := RNum) p (Z.of_nat (length l) + 1) x) c).
Proof.
  intros R L. destruct (peaks_push_eq (N := RNum) cap p l x R) as (c & w & _ & R' & _ & P & _ & E). cbv zeta in E.
  rewrite qpush_short in R', P by exact L. exists c. split; [exact R'|].
  replace (Z.of_nat (length l) + 1) with (Z.of_nat (length w)) by (pose proof (Permutation_length P) as PL; rewrite app_length in PL; cbn [length] in PL; change (num RNum) with xr in *; lia).
  assert (B : Z.ltb (Z.of_nat (@length (num RNum) l)) cap = true) by (apply Z.ltb_lt; exact L). rewrite B in E. rewrite c_nan_R, is_nan_None in E. exact E.
Qed.

Lemma same_push cap (p1 p2 : peaks RNum) l1 l2 (x : xr) : same_window cap p1 p2 l1 l2 -> Z.of_nat (length l1) < cap ->
  exists p1' p2', peaks_push (N := RNum) p1 x = Ret p1' /\ peaks_push (N := RNum) p2 x = Ret p2' /\ same_window cap p1' p2' (l1 ++ [x]) (l2 ++ [x]).
Proof.
  intros (E1 & E2 & E3 & E4 & R1 & R2 & P) L.
  destruct (push_short cap p1 l1 x R1 L) as (c1 & Q1 & H1).
  destruct (push_short cap p2 l2 x R2) as (c2 & Q2 & H2); [rewrite <- (Permutation_length P); exact L|].
  do 2 eexists. split; [exact H1|]. split; [exact H2|].
  unfold same_window. cbn [p_e p_e2 p_min p_max p_cont]. rewrite <- (Permutation_length P).
  unfold push_mn, push_mx. rewrite E1, E2, E3, E4. repeat (split; [reflexivity|]). split; [exact Q1|]. split; [exact Q2|]. apply Permutation_app_tail. exact P.
Qed.


(** two pushes commute *)
Lemma swap_push cap (p1 p2 : peaks RNum) l1 l2 (x y : R) : same_window cap p1 p2 l1 l2 -> Z.of_nat (length l1) + 1 < cap ->
  exists p1' p2', peaks_pushes (N := RNum) p1 [Some x; Some y] = Ret p1' /\ peaks_pushes (N := RNum) p2 [Some y; Some x] = Ret p2' /\
    same_window cap p1' p2' (l1 ++ [Some x; Some y]) (l2 ++ [Some y; Some x]).
Proof.
  intros (E1 & E2 & E3 & E4 & R1 & R2 & P) L. pose proof (Permutation_length P) as PL.
  destruct (push_short cap p1 l1 (Some x) R1 ltac:(lia)) as (c1 & Q1 & H1).
  destruct (push_short cap p2 l2 (Some y) R2 ltac:(lia)) as (c2 & Q2 & H2).
  cbn [peaks_pushes]. rewrite H1, H2. cbn [bind].
  match goal with |- context [bind (peaks_push ?a (Some y)) _] => set (a1 := a) end.
  match goal with |- context [bind (peaks_push ?a (Some x)) _] => set (a2 := a) end.
  destruct (push_short cap a1 (l1 ++ [Some x]) (Some y)) as (d1 & S1 & T1); [exact Q1|rewrite app_length; cbn [length]; lia|].
  destruct (push_short cap a2 (l2 ++ [Some y]) (Some x)) as (d2 & S2 & T2); [exact Q2|rewrite app_length; cbn [length]; lia|].
  rewrite T1, T2. cbn [bind]. do 2 eexists. split; [reflexivity|]. split; [reflexivity|].
  unfold same_window. cbn [p_e p_e2 p_min p_max p_cont].
  rewrite !app_length. cbn [length]. rewrite <- PL.
  split; [|split; [|split; [|split]]].
  - unfold a1, a2. cbn [p_e]. rewrite E1. apply xr_add_swap.
  - unfold a1, a2. cbn [p_e2]. rewrite E2. apply xr_add_swap.
  - unfold push_mn, a1, a2. cbn [p_min]. unfold push_mn. rewrite E3, <- ?PL.
    replace (Z.of_nat (length l1 + 1) + 1 =? 1) with false by (symmetry; apply Z.eqb_neq; lia). cbn [orb].
    destruct (Z.eqb_spec (Z.of_nat (length l1) + 1) 1); cbn [orb].
    + cbn. destruct (Rlt_bool_spec y x), (Rlt_bool_spec x y); try reflexivity; f_equal; lra.
    + destruct (p_min p2) as [m|]; cbn; [|reflexivity].
      destruct (Rlt_bool_spec x m), (Rlt_bool_spec y m); cbn; repeat (match goal with |- context [Rlt_bool ?a ?b] => destruct (Rlt_bool_spec a b) end); f_equal; lra.
  - unfold push_mx, a1, a2. cbn [p_max]. unfold push_mx. rewrite E4, <- ?PL.
    replace (Z.of_nat (length l1 + 1) + 1 =? 1) with false by (symmetry; apply Z.eqb_neq; lia). cbn [orb].
    destruct (Z.eqb_spec (Z.of_nat (length l1) + 1) 1); cbn [orb].
    + cbn. destruct (Rlt_bool_spec y x), (Rlt_bool_spec x y); try reflexivity; f_equal; lra.
    + destruct (p_max p2) as [m|]; cbn; [|reflexivity].
      destruct (Rlt_bool_spec m x), (Rlt_bool_spec m y); cbn; repeat (match goal with |- context [Rlt_bool ?a ?b] => destruct (Rlt_bool_spec a b) end); f_equal; lra.
  - rewrite <- app_assoc in S1, S2. cbn [app] in S1, S2. split; [exact S1|]. split; [exact S2|]. apply Permutation_app; [exact P|apply perm_swap].
Qed.

Lemma same_refl cap (p : peaks RNum) l : rep (N := RNum) cap (p_cont p) l -> same_window cap p p l l.
Proof. intros R. repeat split; try assumption; try apply R. apply Permutation_refl. Qed.

Lemma same_pushes cap (xs ys : list R) : Permutation xs ys -> forall (p1 p2 : peaks RNum) l1 l2, same_window cap p1 p2 l1 l2 ->
  Z.of_nat (length l1) + Z.of_nat (length xs) <= cap ->
  exists p1' p2', peaks_pushes (N := RNum) p1 (map Some xs) = Ret p1' /\ peaks_pushes (N := RNum) p2 (map Some ys) = Ret p2' /\
    same_window cap p1' p2' (l1 ++ map Some xs) (l2 ++ map Some ys).
Proof.
  intros P. induction P as [|x xs ys P IH|x y l|xs ys zs P1 IH1 P2 IH2]; intros p1 p2 l1 l2 S L.
  - exists p1, p2. cbn [map peaks_pushes]. rewrite !app_nil_r. auto.
  - cbn [length] in L. destruct (same_push cap p1 p2 l1 l2 (Some x) S ltac:(lia)) as (q1 & q2 & H1 & H2 & S').
    destruct (IH q1 q2 _ _ S') as (r1 & r2 & I1 & I2 & S''); [rewrite app_length; cbn [length]; lia|].
    exists r1, r2. cbn [map peaks_pushes]. rewrite H1, H2. cbn [bind]. rewrite <- !app_assoc in S''. auto.
  - cbn [length] in L. destruct (swap_push cap p1 p2 l1 l2 y x S ltac:(lia)) as (q1 & q2 & H1 & H2 & S').
    assert (K : forall (l : list R) q1 q2 m1 m2, same_window cap q1 q2 m1 m2 -> Z.of_nat (length m1) + Z.of_nat (length l) <= cap ->
      exists r1 r2, peaks_pushes (N := RNum) q1 (map Some l) = Ret r1 /\ peaks_pushes (N := RNum) q2 (map Some l) = Ret r2 /\
        same_window cap r1 r2 (m1 ++ map Some l) (m2 ++ map Some l)).
    { clear. induction l as [|z l IH]; intros q1 q2 m1 m2 S L.
      - exists q1, q2. cbn [map peaks_pushes]. rewrite !app_nil_r. auto.
      - cbn [length] in L. destruct (same_push cap q1 q2 m1 m2 (Some z) S ltac:(lia)) as (a1 & a2 & H1 & H2 & S').
        destruct (IH a1 a2 _ _ S') as (r1 & r2 & I1 & I2 & S''); [rewrite app_length; cbn [length]; lia|].
        exists r1, r2. cbn [map peaks_pushes]. rewrite H1, H2. cbn [bind]. rewrite <- !app_assoc in S''. auto. }
    destruct (K l q1 q2 _ _ S') as (r1 & r2 & I1 & I2 & S''); [rewrite app_length; cbn [length]; lia|].
    exists r1, r2. rewrite <- !app_assoc in S''. cbn [map] in *.
    split; [rewrite <- I1; apply (peaks_pushes_app (N := RNum) [Some y; Some x] (map Some l)); exact H1|].
    split; [rewrite <- I2; apply (peaks_pushes_app (N := RNum) [Some x; Some y] (map Some l)); exact H2|]. exact S''.
  - pose proof (Permutation_length P1) as PL.
    pose proof S as (_ & _ & _ & _ & Ra & _ & _).
    destruct (IH1 p1 p1 l1 l1 (same_refl _ _ _ Ra) L) as (a & b & Ha & Hb & Sab).
    destruct (IH2 p1 p2 l1 l2 S ltac:(lia)) as (b' & c & Hb' & Hc & Sbc).
    rewrite Hb in Hb'. injection Hb' as <-. exists a, c. split; [exact Ha|]. split; [exact Hc|].
    destruct Sab as (A1 & A2 & A3 & A4 & A5 & _ & A7), Sbc as (B1 & B2 & B3 & B4 & _ & B6 & B7).
    repeat split; try congruence; try apply A5; try apply B6. eapply Permutation_trans; [exact A7|exact B7].
Qed.

(** ** The fit depends on the window only through its statistics and its content up to the order *)
Section Fit.
Variable mf : MathFns RNum.

Lemma fold2 {A B C} (f : A -> C -> A) (g : B -> C -> B) (l : list C) a b :
  fold_left (fun uv y => (f (fst uv) y, g (snd uv) y)) l (a, b) = (fold_left f l a, fold_left g l b).
Proof. revert a b. induction l as [|x l IH]; intros a b; cbn [fold_left fst snd]; [reflexivity|apply IH]. Qed.

Lemma same_fit cap (p1 p2 : peaks RNum) l1 l2 g1 s1 g2 s2 : same_window cap p1 p2 l1 l2 ->
  match tail_fit mf (MkTail (N := RNum) g1 s1 p1), tail_fit mf (MkTail (N := RNum) g2 s2 p2) with
  | Ret (t1, ll1), Ret (t2, ll2) => t_gamma t1 = t_gamma t2 /\ t_sigma t1 = t_sigma t2 /\ ll1 = ll2
  | Undef w1, Undef w2 => w1 = w2
  | _, _ => False
  end.
Proof.
  intros (E1 & E2 & E3 & E4 & R1 & R2 & P).
  destruct (prep_exists (N := RNum) cap p1 l1 R1) as (w1 & W1). destruct (prep_exists (N := RNum) cap p2 l2 R2) as (w2 & W2).
  assert (PW : Permutation w1 w2).
  { destruct W1 as (_ & _ & Q1 & _), W2 as (_ & _ & Q2 & _). eapply Permutation_trans; [exact Q1|]. eapply Permutation_trans; [exact P|]. apply Permutation_sym. exact Q2. }
  assert (LL : length w1 = length w2) by (apply Permutation_length; exact PW).
  assert (SZ : ubend_size (p_cont p1) = ubend_size (p_cont p2)) by (destruct W1 as (_ & _ & _ & ->), W2 as (_ & _ & _ & ->); rewrite LL; reflexivity).
  assert (HL : log_likelihood mf p1 = log_likelihood mf p2).
  { apply functional_extensionality; intros g. apply functional_extensionality; intros s.
    rewrite (log_likelihood_eq mf _ _ _ _ g s W1), (log_likelihood_eq mf _ _ _ _ g s W2). f_equal. unfold log_likelihood_of. rewrite E1, LL.
    destruct (neq g _); [reflexivity|]. apply fold_left_perm; [|exact PW]. intros a x y. apply xr_add_swap. }
  assert (HW : grimshaw_w mf p1 = grimshaw_w mf p2).
  { apply functional_extensionality; intros x. rewrite (grimshaw_w_eq mf _ _ _ _ x W1), (grimshaw_w_eq mf _ _ _ _ x W2). f_equal. unfold grimshaw_w_of. cbv zeta.
    rewrite LL. match goal with |- context [fold_left ?f w1 ?a0] => rewrite (fold_left_perm f (fun a y z => f_equal2 pair (xr_add_swap _ _ _) (xr_add_swap _ _ _)) _ _ PW a0) end. reflexivity. }
  assert (HV : grimshaw_v mf p1 = grimshaw_v mf p2).
  { apply functional_extensionality; intros x. rewrite (grimshaw_v_eq mf _ _ _ _ x W1), (grimshaw_v_eq mf _ _ _ _ x W2). f_equal. unfold grimshaw_v_of.
    rewrite LL. match goal with |- context [fold_left ?f w1 ?a0] => rewrite (fold_left_perm f (fun a y z => xr_add_swap _ _ _) _ _ PW a0) end. reflexivity. }
  assert (HM : peaks_mean p1 = peaks_mean p2) by (unfold peaks_mean, peaks_size; rewrite SZ, E1; reflexivity).
  assert (HVar : peaks_var p1 = peaks_var p2) by (unfold peaks_var, peaks_size; rewrite SZ, E1, E2; reflexivity).
  assert (MOM : mom_estimator mf p1 = mom_estimator mf p2) by (unfold mom_estimator; rewrite HM, HVar, HL; reflexivity).
  assert (HS : forall r, grimshaw_simplified_log_likelihood mf r p1 = grimshaw_simplified_log_likelihood mf r p2).
  { intros r. unfold grimshaw_simplified_log_likelihood. rewrite HM, HV, HL. reflexivity. }
  assert (HB : forall b c, grimshaw_better mf p1 b c = grimshaw_better mf p2 b c).
  { intros b [f r]. unfold grimshaw_better. rewrite HS. reflexivity. }
  assert (GR : grimshaw_estimator mf p1 = grimshaw_estimator mf p2).
  { unfold grimshaw_estimator. rewrite E3, E4, HM, HW, HS. cbv zeta.
    apply bind_ext; intros a1. apply bind_ext; intros a2. apply bind_ext; intros a3. rewrite HB. apply bind_ext; intros a4. apply HB. }
  unfold tail_fit, ESTIMATORS. cbn [tail_fit_loop t_peaks]. rewrite MOM. destruct (mom_estimator mf p2) as [[[ll g] s]|]; cbn [bind]; [|reflexivity].
  rewrite c_nan_R, is_nan_None. cbn [orb t_peaks]. rewrite GR. destruct (grimshaw_estimator mf p2) as [[[ll' g'] s']|]; cbn [bind]; [|reflexivity].
  destruct (_ || _)%bool; cbn [t_gamma t_sigma]; auto.
Qed.
End Fit.
