(** * DriftB64: the running sum of the window in binary64 (C59) *)
From Coq Require Import ZArith List Bool Reals Lra Lia Psatz Permutation.
From Flocq Require Import Core.Core IEEE754.BinarySingleNaN.
From Flocq Require Plus_error Relative.
From Verif Require Import Num NumFacts XMath Ubend UbendFacts Session Peaks PeaksFacts Brent Estimator Tail P2 Spot B64 B64Facts RNum Spec
  WindowLemmas ExactWindow FloatErr LogAcc PowAcc PowAcc5.
Import ListNotations.
Open Scope R_scope.

Definition rvals (l : list b64) : list R := map B2R64 l.

Lemma plus_rel (a b : b64) : finite64 a = true -> finite64 b = true -> Rabs (B2R64 a + B2R64 b) <= 10 ^ 300 ->
  Nr (b64_plus a b) (B2R64 a + B2R64 b) eps.
Proof.
  intros Fa Fb H. destruct (plus_xval a b Fa Fb) as (N & V). destruct (op_abs _ _ N V H) as (F & E & _). split; [exact F|].
  destruct (Plus_error.FLT_plus_error_N_ex radix2 (-1074) 53 (fun z => negb (Z.even z)) (B2R64 a) (B2R64 b)) as (e & He & R).
  - apply generic_format_B2R.
  - apply generic_format_B2R.
  - rewrite E. change (rnd (B2R64 a + B2R64 b)) with (round radix2 (FLT_exp (-1074) 53) (Znearest (fun z => negb (Z.even z))) (B2R64 a + B2R64 b)).
    rewrite R. replace ((B2R64 a + B2R64 b) * (1 + e) - (B2R64 a + B2R64 b)) with (e * (B2R64 a + B2R64 b)) by lra. rewrite Rabs_mult.
    apply Rmult_le_compat_r; [apply Rabs_pos|]. eapply Rle_trans; [exact He|].
    unfold Relative.u_ro. replace (bpow radix2 (- (53) + 1)) with (/ 4503599627370496) by (simpl; lra). unfold eps.
    apply Rmult_le_reg_r with (1 + / 2 * / 4503599627370496); [lra|]. unfold Rdiv at 1. rewrite Rmult_assoc, Rinv_l by lra. lra.
Qed.

(** ** Sums of small non-negative numbers *)
Definition small (m : R) (l : list b64) : Prop := forall y, In y l -> finite64 y = true /\ 0 <= B2R64 y <= m.
Lemma rsum_bounds l m : small m l -> 0 <= rsum (rvals l) <= INR (length l) * m.
Proof.
  induction l as [|a l IH]; intros H.
  - cbn [rvals map length]. rewrite rsum_nil. simpl. lra.
  - cbn [rvals map]. fold (rvals l). rewrite rsum_cons. change (length (a :: l)) with (S (length l)). rewrite S_INR.
    destruct (H a (or_introl eq_refl)). destruct IH; [intros y Hy; apply H; right; exact Hy|]. lra.
Qed.
Lemma small_app m a b : small m (a ++ b) <-> small m a /\ small m b.
Proof.
  unfold small. split.
  - intros H. split; intros y Hy; apply H, in_or_app; auto.
  - intros (H1 & H2) y Hy. apply in_app_or in Hy as [Hy|Hy]; auto.
Qed.
Lemma small_perm m a b : Permutation a b -> small m a -> small m b.
Proof. intros P H y Hy. apply H. eapply Permutation_in; [apply Permutation_sym; exact P|exact Hy]. Qed.
Lemma rvals_app a b : rvals (a ++ b) = rvals a ++ rvals b.
Proof. apply map_app. Qed.
Lemma rsum_rvals_perm a b : Permutation a b -> rsum (rvals a) = rsum (rvals b).
Proof. intros P. apply rsum_perm. unfold rvals. apply Permutation_map. exact P. Qed.

(** one addition to the accumulator *)
Lemma add_step (e x : b64) S E T m : finite64 e = true -> finite64 x = true -> 0 <= S -> S + B2R64 x <= T -> 0 <= B2R64 x -> 0 <= m -> T <= 10 ^ 299 ->
  Rabs (B2R64 e - S) <= E -> E <= T / 2 ->
  finite64 (b64_plus e x) = true /\ Rabs (B2R64 (b64_plus e x) - (S + B2R64 x)) <= E + 3 / 2 * eps * T.
Proof.
  intros Fe Fx S0 ST X0 M0 T299 HE ET. pose proof (Rabs_pos (B2R64 e - S)) as P.
  assert (B : Rabs (B2R64 e + B2R64 x) <= 3 / 2 * T).
  { replace (B2R64 e + B2R64 x) with ((B2R64 e - S) + (S + B2R64 x)) by lra. eapply Rle_trans; [apply Rabs_triang|].
    rewrite (Rabs_pos_eq (S + B2R64 x)) by lra. lra. }
  destruct (plus_rel e x Fe Fx) as (F & R).
  { replace (10 ^ 300) with (10 * 10 ^ 299) by (simpl; ring). assert (0 <= 10 ^ 299) by (apply pow_le; lra). lra. }
  split; [exact F|].
  replace (B2R64 (b64_plus e x) - (S + B2R64 x)) with ((B2R64 (b64_plus e x) - (B2R64 e + B2R64 x)) + (B2R64 e - S)) by lra.
  eapply Rle_trans; [apply Rabs_triang|]. pose proof eps_pos. nra.
Qed.
Lemma sub_step (f a : b64) S' E T : finite64 f = true -> finite64 a = true -> 0 <= S' <= T -> T <= 10 ^ 299 ->
  Rabs (B2R64 f - B2R64 a - S') <= E -> E <= T ->
  finite64 (b64_minus f a) = true /\ Rabs (B2R64 (b64_minus f a) - S') <= E + 2 * eps * T.
Proof.
  intros Ff Fa S0 T299 HE ET. pose proof (Rabs_pos (B2R64 f - B2R64 a - S')) as P.
  assert (B : Rabs (B2R64 f - B2R64 a) <= 2 * T).
  { replace (B2R64 f - B2R64 a) with ((B2R64 f - B2R64 a - S') + S') by lra. eapply Rle_trans; [apply Rabs_triang|].
    rewrite (Rabs_pos_eq S') by lra. lra. }
  destruct (minus_rel f a Ff Fa) as (F & R).
  { replace (10 ^ 300) with (10 * 10 ^ 299) by (simpl; ring). assert (0 <= 10 ^ 299) by (apply pow_le; lra). lra. }
  split; [exact F|].
  replace (B2R64 (b64_minus f a) - S') with ((B2R64 (b64_minus f a) - (B2R64 f - B2R64 a)) + (B2R64 f - B2R64 a - S')) by lra.
  eapply Rle_trans; [apply Rabs_triang|]. pose proof eps_pos. nra.
Qed.

(** ** The recomputation *)
Lemma stats_e (w : list b64) : forall e e2 mn mx,
  fst (fst (fst (fold_left (stats_turn (N := B64)) w (e, e2, mn, mx)))) = fold_left b64_plus w e.
Proof. induction w as [|v w IH]; intros e e2 mn mx; [reflexivity|]. cbn [fold_left]. unfold stats_turn at 2. rewrite IH. reflexivity. Qed.
Definition K50 : R := 1125899906842624.
Lemma fresh_sum_aux m n : 0 <= m <= 10 ^ 280 -> n <= K50 -> forall w e S j, small m w -> finite64 e = true -> 0 <= S -> 0 <= j ->
  S + INR (length w) * m <= n * m -> j + INR (length w) <= n ->
  Rabs (B2R64 e - S) <= 2 * j * eps * (n * m) ->
  finite64 (fold_left b64_plus w e) = true /\
  Rabs (B2R64 (fold_left b64_plus w e) - (S + rsum (rvals w))) <= 2 * (j + INR (length w)) * eps * (n * m).
Proof.
  intros Hm Hn. assert (E280 : K50 * 10 ^ 280 <= 10 ^ 299).
  { unfold K50. rewrite !pow_IZR, <- mult_IZR. apply IZR_le. vm_compute. discriminate. }
  induction w as [|v w IH]; intros e S j Sm Fe S0 J0 ST JN HE.
  - cbn [fold_left rvals map length]. rewrite rsum_nil. simpl INR. split; [exact Fe|]. rewrite !Rplus_0_r. exact HE.
  - cbn [fold_left rvals map]. fold (rvals w). rewrite rsum_cons. change (length (v :: w)) with (Datatypes.S (length w)) in *. rewrite S_INR in *.
    destruct (Sm v (or_introl eq_refl)) as (Fv & V0 & V1). pose proof (pos_INR (length w)) as L.
    assert (Lm : 0 <= INR (length w) * m) by (apply Rmult_le_pos; lra).
    assert (T299 : n * m <= 10 ^ 299). { eapply Rle_trans; [|exact E280]. apply Rmult_le_compat; try lra. }
    assert (T0 : 0 <= n * m) by (apply Rmult_le_pos; lra).
    assert (EJ : 2 * j * eps <= 1 / 4). { unfold eps, K50 in *. lra. }
    destruct (add_step e v S (2 * j * eps * (n * m)) (n * m) m) as (F & R); auto; try lra; try nra.
    destruct (IH (b64_plus e v) (S + B2R64 v) (j + 1)) as (F' & R'); auto; try lra.
    + intros y Hy. apply Sm. right. exact Hy.
    + pose proof eps_pos. assert (0 <= eps * (n * m)) by nra. lra.
    + split; [exact F'|]. replace (S + (B2R64 v + rsum (rvals w))) with (S + B2R64 v + rsum (rvals w)) by lra.
      replace (j + (INR (length w) + 1)) with (j + 1 + INR (length w)) by lra. exact R'.
Qed.
Lemma fresh_sum m (w : list b64) : 0 <= m <= 10 ^ 280 -> INR (length w) <= K50 -> small m w ->
  finite64 (fold_left b64_plus w (b64_ofZ 0)) = true /\
  Rabs (B2R64 (fold_left b64_plus w (b64_ofZ 0)) - rsum (rvals w)) <= 2 * INR (length w) * eps * (INR (length w) * m).
Proof.
  intros Hm Hn Sm. pose proof (pos_INR (length w)).
  destruct (fresh_sum_aux m (INR (length w)) Hm Hn w (b64_ofZ 0) 0 0) as (F & R); auto; try lra.
  - change (B2R64 (b64_ofZ 0)) with 0. rewrite Rminus_0_r, Rabs_R0. lra.
  - split; [exact F|]. rewrite !Rplus_0_l in R. exact R.
Qed.

(** ** The invariant: [k] pushes so far *)
Definition drift (cap : Z) (p : peaks B64) (l : list b64) (k : nat) : Prop :=
  rep cap (p_cont p) l /\ minmax_ok p l /\ small (10 ^ 280) l /\ (length l <= k)%nat /\ finite64 (p_e p) = true /\
  forall m, 0 <= m -> small m l -> Rabs (B2R64 (p_e p) - rsum (rvals l)) <= 4 * INR k * eps * (INR (length l + 1) * m).

Lemma small_nan m l y : small m l -> In y l -> nan64 y = false.
Proof. intros H Hy. apply finite_not_nan. apply (H y Hy). Qed.
Lemma qpush_small cap (l : list b64) x m : small m l -> small m [x] -> small m (qpush cap l x).
Proof.
  intros H1 H2. unfold qpush. destruct (_ <? _)%Z; apply small_app; split; auto.
  destruct l as [|a l]; [exact H1|]. intros y Hy. apply H1. right. exact Hy.
Qed.
Lemma small_le m m' l : small m l -> m <= m' -> small m' l.
Proof. intros H L y Hy. destruct (H y Hy) as (F & A & B). split; [exact F|]. lra. Qed.

Lemma drift_push cap (p : peaks B64) l k (x : b64) : drift cap p l k -> (Z.of_nat k < 2 ^ 50)%Z -> small (10 ^ 280) [x] ->
  exists p', peaks_push p x = Ret p' /\ drift cap p' (qpush cap l x) (S k).
Proof.
  intros (R & M & Sm & Lk & Fe & D) Hk Sx. destruct (Sx x (or_introl eq_refl)) as (Fx & X0 & X1).
  assert (Nl : forall y, In y l -> nan64 y = false) by (intros y; apply (small_nan _ _ _ Sm)).
  destruct (peaks_push_minmax cap p l x R Nl (finite_not_nan x Fx) M) as (p' & E & R' & M').
  exists p'. split; [exact E|].
  pose proof (qpush_small cap l x _ Sm Sx) as Sm'.
  destruct (peaks_push_eq cap p l x R) as (c & w & _ & _ & H1 & H2 & H3 & E2).
  pose proof (rep_length _ _ _ R) as Hlen. pose proof (rep_length _ _ _ R') as Hlen'.
  assert (Lk' : (length (qpush cap l x) <= S k)%nat).
  { unfold qpush. destruct (_ <? _)%Z; rewrite app_length; cbn [length]; [lia|]. destruct l; cbn [tl length] in *; lia. }
  split; [exact R'|]. split; [exact M'|]. split; [exact Sm'|]. split; [exact Lk'|].
  assert (Ik : INR k + 1 <= K50).
  { rewrite <- S_INR, INR_IZR_INZ. unfold K50. apply IZR_le. change 1125899906842624%Z with (2 ^ 50)%Z. lia. }
  pose proof (pos_INR k) as Ik0. pose proof eps_pos as Ep.
  assert (E280 : (K50 + 1) * 10 ^ 280 <= 10 ^ 299).
  { unfold K50. rewrite <- plus_IZR, !pow_IZR, <- mult_IZR. apply IZR_le. vm_compute. discriminate. }
  rewrite E2 in E. injection E as E. clear E2.
  assert (MX : forall m, small m (qpush cap l x) -> 0 <= m).
  { intros m Hm. assert (I : In x (qpush cap l x)) by (unfold qpush; destruct (_ <? _)%Z; apply in_or_app; right; left; reflexivity).
    destruct (Hm x I). lra. }
  assert (P280 : 0 <= 10 ^ 280) by (apply pow_le; lra).
  (* it is enough to bound the error for the bounds below 10^280 *)
  assert (Enough : (forall m, m <= 10 ^ 280 -> small m (qpush cap l x) -> finite64 (p_e p') = true /\
      Rabs (B2R64 (p_e p') - rsum (rvals (qpush cap l x))) <= 4 * INR (S k) * eps * (INR (length (qpush cap l x) + 1) * m)) ->
    finite64 (p_e p') = true /\
    (forall m, 0 <= m -> small m (qpush cap l x) -> Rabs (B2R64 (p_e p') - rsum (rvals (qpush cap l x))) <= 4 * INR (S k) * eps * (INR (length (qpush cap l x) + 1) * m))).
  { intros G. split; [apply (G (10 ^ 280)); [lra|exact Sm']|]. intros m M0 Hm.
    destruct (Rle_dec m (10 ^ 280)) as [C|C]; [apply (G m C Hm)|].
    destruct (G (10 ^ 280)) as (_ & G2); [lra|exact Sm'|]. eapply Rle_trans; [exact G2|].
    apply Rmult_le_compat_l; [pose proof (pos_INR (S k)); nra|]. apply Rmult_le_compat_l; [apply pos_INR|lra]. }
  apply Enough. clear Enough. intros m M280 Hm. pose proof (MX m Hm) as M0.
  rewrite S_INR.
  destruct (Z.ltb_spec (Z.of_nat (length l)) cap) as [Hc|Hc].
  - (* no eviction *)
    change (XMath.is_nan (@c_nan B64)) with true in E. cbv iota in E. subst p'. cbn [p_e].
    unfold qpush in Hm |- *. replace (Z.of_nat (length l) <? cap)%Z with true in Hm |- * by (symmetry; apply Z.ltb_lt; exact Hc).
    apply small_app in Hm as (Hl & Hx). destruct (Hx x (or_introl eq_refl)) as (_ & _ & Xm).
    pose proof (rsum_bounds l m Hl) as (B0 & B1). pose proof (D m M0 Hl) as DE.
    rewrite rvals_app, rsum_app. cbn [rvals map]. rewrite rsum_cons, rsum_nil, Rplus_0_r.
    rewrite app_length. cbn [length]. rewrite plus_INR. rewrite plus_INR in DE |- *. simpl INR. simpl INR in DE.
    set (n := INR (length l)) in *. assert (N0 : 0 <= n) by apply pos_INR.
    assert (NK : n + 1 <= K50). { unfold n. pose proof (le_INR _ _ Lk). lra. }
    assert (T0 : 0 <= (n + 1) * m) by (apply Rmult_le_pos; lra).
    assert (T299 : (n + 1) * m <= 10 ^ 299). { eapply Rle_trans; [|exact E280]. apply Rmult_le_compat; lra. }
    assert (EK : 4 * INR k * eps <= 1 / 2). { unfold eps, K50 in *. lra. }
    destruct (add_step (p_e p) x (rsum (rvals l)) (4 * INR k * eps * ((n + 1) * m)) ((n + 1) * m) m) as (F & RR); auto; try lra; try nra.
    split; [exact F|]. change (@nadd B64) with b64_plus. eapply Rle_trans; [exact RR|].
    assert (Q0 : 0 <= eps * ((n + 1) * m)) by nra. assert (Q1 : 0 <= INR k * (eps * m)) by (apply Rmult_le_pos; [lra|]; nra).
    assert (Q2 : 0 <= eps * m) by nra. lra.
  - (* eviction *)
    destruct R as (Hcap & _). destruct l as [|a l']; [cbn in *; lia|]. cbn [hd] in E.
    destruct (Sm a (or_introl eq_refl)) as (Fa & A0 & _). assert (Na : nan64 a = false) by (apply finite_not_nan; exact Fa).
    rewrite is_nan_b64, Na in E. cbv iota in E.
    assert (Q : qpush cap (a :: l') x = l' ++ [x]).
    { unfold qpush. replace (Z.of_nat (length (a :: l')) <? cap)%Z with false by (symmetry; apply Z.ltb_ge; exact Hc). reflexivity. }
    rewrite Q in *. rewrite !app_length in *. cbn [length] in *.
    set (n := INR (length l' + 1)) in *. assert (N0 : 0 <= n) by apply pos_INR.
    assert (NK : n <= INR k). { apply le_INR. lia. }
    replace (INR (length l' + 1 + 1)) with (n + 1) by (unfold n; rewrite (plus_INR (length l' + 1)); simpl INR; lra).
    replace (INR (S (length l') + 1)) with (n + 1) in D by (unfold n; rewrite (plus_INR (S (length l'))), S_INR, plus_INR; simpl INR; lra).
    assert (T0 : 0 <= (n + 1) * m) by (apply Rmult_le_pos; lra).
    assert (T299 : (n + 1) * m <= 10 ^ 299). { eapply Rle_trans; [|exact E280]. apply Rmult_le_compat; lra. }
    match type of E with (if ?b then _ else _) = _ => destruct b eqn:ER end.
    + (* recomputation *)
      assert (EE : p_e p' = fold_left b64_plus w (b64_ofZ 0)).
      { rewrite <- E. unfold set_stats. rewrite <- (stats_e w (b64_ofZ 0) (b64_ofZ 0) c_nan c_nan).
        change (b64_ofZ 0, b64_ofZ 0, @c_nan B64, @c_nan B64) with (@nofZ B64 0, @nofZ B64 0, @c_nan B64, @c_nan B64).
        fold (stats_of (N := B64) w). destruct (stats_of w) as [[[e e2] mn] mx]. reflexivity. }
      assert (H2' : Permutation (w : list b64) (l' ++ [x])) by (rewrite <- Q; exact H2).
      assert (Lw : INR (length (w : list b64)) = n). { rewrite (Permutation_length H2'), app_length. reflexivity. }
      destruct (fresh_sum m w) as (F & RR); [lra|rewrite Lw; lra|apply (small_perm _ _ _ (Permutation_sym H2') Hm)|].
      rewrite EE. split; [exact F|]. rewrite <- (rsum_rvals_perm _ _ H2'). eapply Rle_trans; [exact RR|]. rewrite Lw.
      assert (Q0 : 0 <= eps * (n * m)) by (apply Rmult_le_pos; [lra|]; apply Rmult_le_pos; lra).
      assert (Q1 : n * (eps * (n * m)) <= INR k * (eps * (n * m))) by (apply Rmult_le_compat_r; lra).
      assert (Q2 : 0 <= eps * m) by nra. assert (Q3 : 0 <= INR k * (eps * m)) by (apply Rmult_le_pos; lra).
      assert (Q4 : 0 <= INR k * (eps * (n * m))) by (apply Rmult_le_pos; lra). lra.
    + (* incremental update: what leaves is below the maximum of what stays *)
      assert (Am : B2R64 a <= m).
      { apply orb_false_iff in ER as (_ & ER2).
        assert (EM : p_max p' = push_mx p (Z.of_nat (length w)) x) by (rewrite <- E; reflexivity).
        assert (MM' : minmax_ok p' (l' ++ [x])) by (rewrite <- Q; exact M'). unfold minmax_ok in MM'.
        assert (NE : l' ++ [x] <> []) by (intros C; apply app_eq_nil in C as (_ & C); discriminate C).
        destruct (MM' NE) as (_ & (I & _)).
        destruct (Hm _ I) as (FM & _ & MM).
        change (b64_leb (push_mx p (Z.of_nat (length w)) x) a = false) in ER2. rewrite <- EM in ER2.
        rewrite leb_xval in ER2; [|apply finite_not_nan; exact FM|exact Na]. rewrite !xval_finite in ER2 by assumption.
        destruct (Rle_bool_spec (B2R64 (p_max p')) (B2R64 a)); [discriminate|]. lra. }
      assert (Hl : small m (a :: l')).
      { intros y [<-|Hy]; [split; [exact Fa|lra]|]. apply Hm, in_or_app. left. exact Hy. }
      assert (Hl' : small m l') by (intros y Hy; apply Hl; right; exact Hy).
      assert (Xm : B2R64 x <= m) by (apply Hm; apply in_or_app; right; left; reflexivity).
      pose proof (D m M0 Hl) as DE. pose proof (rsum_bounds (a :: l') m Hl) as (B0 & B1). pose proof (rsum_bounds (l' ++ [x]) m Hm) as (C0 & C1).
      rewrite app_length in C1. cbn [length] in C1. fold n in C1.
      change (length (a :: l')) with (S (length l')) in B1. replace (INR (S (length l'))) with n in B1 by (unfold n; f_equal; lia).
      rewrite rvals_app, rsum_app in C0, C1 |- *. cbn [rvals map] in C0, C1, B0, B1, DE |- *. rewrite rsum_cons, rsum_nil, Rplus_0_r in C0, C1 |- *.
      fold (rvals l') in *. rewrite rsum_cons in B0, B1, DE.
      assert (EK : 4 * INR k * eps <= 1 / 2). { unfold eps, K50 in *. lra. }
      set (T := (n + 1) * m) in *. assert (nm : n * m <= T) by (unfold T; lra).
      destruct (add_step (p_e p) x (B2R64 a + rsum (rvals l')) (4 * INR k * eps * T) T m) as (F & RR); auto; try lra; try nra.
      { unfold T in *. lra. }
      destruct (sub_step (b64_plus (p_e p) x) a (rsum (rvals l') + B2R64 x) (4 * INR k * eps * T + 3 / 2 * eps * T) T) as (F' & RR'); auto; try lra.
      { replace (B2R64 (b64_plus (p_e p) x) - B2R64 a - (rsum (rvals l') + B2R64 x)) with (B2R64 (b64_plus (p_e p) x) - (B2R64 a + rsum (rvals l') + B2R64 x)) by lra.
        exact RR. }
      { assert (3 / 2 * eps <= 1 / 4) by (unfold eps; lra). nra. }
      subst p'. cbn [p_e]. change (@nadd B64) with b64_plus. change (@nsub B64) with b64_minus. split; [exact F'|].
      eapply Rle_trans; [exact RR'|]. assert (0 <= eps * T) by nra. lra.
Qed.

Lemma drift_pushes cap xs : forall (p : peaks B64) hist k, drift cap p (last_k cap hist) k -> small (10 ^ 280) xs -> (Z.of_nat (k + length xs) <= 2 ^ 50)%Z ->
  exists p', peaks_pushes p xs = Ret p' /\ drift cap p' (last_k cap (hist ++ xs)) (k + length xs).
Proof.
  induction xs as [|x xs IH]; intros p hist k D Sm Hk; cbn [peaks_pushes].
  - exists p. rewrite app_nil_r. cbn [length]. rewrite Nat.add_0_r. auto.
  - pose proof D as ((Hcap & _) & _). cbn [length] in Hk.
    destruct (drift_push cap p _ k x D) as (p' & E & D'); [lia|intros y [<-|[]]; apply Sm; left; reflexivity|].
    rewrite E. cbn [bind]. rewrite last_k_lastn, qpush_lastn in D' by lia. rewrite <- last_k_lastn in D'.
    replace (hist ++ x :: xs) with ((hist ++ [x]) ++ xs) by (rewrite <- app_assoc; reflexivity).
    replace (k + length (x :: xs))%nat with (S k + length xs)%nat by (cbn [length]; lia).
    apply IH; auto; [intros y Hy; apply Sm; right; exact Hy|lia].
Qed.
Lemma drift_init cap blk : (1 <= cap < 2 ^ 61)%Z -> Z.of_nat (length blk) = cap -> drift cap (fst (peaks_init (N := B64) (Some blk) cap)) [] 0.
Proof.
  intros H1 H2. split; [exact (rep_init (N := B64) cap blk H1 H2)|]. split; [intros C; congruence|]. split; [intros y []|].
  split; [cbn; lia|]. split; [reflexivity|]. intros m M0 _. cbn [peaks_init fst p_e rvals map length]. rewrite rsum_nil.
  change (fst (peaks_init (N := B64) (Some blk) cap)) with (fst (peaks_init (N := B64) (Some blk) cap)).
  change (B2R64 (p_e (fst (peaks_init (N := B64) (Some blk) cap)))) with 0. rewrite Rminus_0_r, Rabs_R0. simpl. lra.
Qed.

(** a quotient, underflow included *)
Lemma quotient_error (a b : b64) : finite64 a = true -> finite64 b = true -> B2R64 b <> 0 -> Rabs (B2R64 a / B2R64 b) <= 10 ^ 300 ->
  finite64 (b64_div a b) = true /\ Rabs (B2R64 (b64_div a b) - B2R64 a / B2R64 b) <= eps * Rabs (B2R64 a / B2R64 b) + bpow radix2 (-1075).
Proof.
  intros Fa Fb B0 H. destruct (div_xval a b Fa Fb B0) as (N & V). destruct (op_abs _ _ N V H) as (F & E & _). split; [exact F|].
  set (t := B2R64 a / B2R64 b) in *.
  destruct (Relative.error_N_FLT radix2 (-1074) 53 ltac:(lia) (fun z => negb (Z.even z)) t) as (e & eta & He & Heta & _ & R).
  rewrite E. change (rnd t) with (round radix2 (FLT_exp (-1074) 53) (Znearest (fun z => negb (Z.even z))) t). rewrite R.
  replace (t * (1 + e) + eta - t) with (e * t + eta) by lra. eapply Rle_trans; [apply Rabs_triang|]. rewrite Rabs_mult.
  apply Rplus_le_compat.
  - apply Rmult_le_compat_r; [apply Rabs_pos|]. eapply Rle_trans; [exact He|]. unfold eps. simpl. lra.
  - eapply Rle_trans; [exact Heta|]. replace (bpow radix2 (-1075)) with (bpow radix2 (-1) * bpow radix2 (-1074)) by (rewrite <- bpow_plus; reflexivity).
    simpl (bpow radix2 (-1)). lra.
Qed.

Lemma C59_lemma cap blk (xs : list b64) : (1 <= cap < 2 ^ 61)%Z -> Z.of_nat (length blk) = cap ->
  (forall x, In x xs -> is_finite x = true /\ 0 <= B2R64 x <= 10 ^ 280) -> xs <> [] -> (Z.of_nat (length xs) <= 2 ^ 50)%Z ->
  exists p : peaks B64, peaks_pushes (N := B64) (fst (peaks_init (Some blk) cap)) xs = Ret p /\
    let w := last_k cap xs in
    In (p_max p) w /\ is_finite (p_e p) = true /\
    Rabs (B2R64 (p_e p) - rsum (map B2R64 w)) <= 4 * INR (length xs) * / 2 ^ 53 * (INR (length w + 1) * B2R64 (p_max p)) /\
    is_finite (peaks_mean p) = true /\
    Rabs (B2R64 (peaks_mean p) - rsum (map B2R64 w) / INR (length w)) <= 10 * INR (length xs) * / 2 ^ 53 * B2R64 (p_max p) + / 2 ^ 1074.
Proof.
  intros H1 H2 Hx Hne Hk.
  assert (FF : forall y : b64, is_finite y = finite64 y) by (intros []; reflexivity).
  assert (Sm : small (10 ^ 280) xs). { intros y Hy. rewrite <- FF. apply Hx. exact Hy. }
  destruct (drift_pushes cap xs (fst (peaks_init (Some blk) cap)) [] 0) as (p & E & R & M & Sw & Lk & Fe & D); auto.
  { apply drift_init; auto. }
  cbn [app] in R, M, Sw, Lk, D. rewrite Nat.add_0_l in Lk, D.
  exists p. split; [exact E|]. cbv zeta. set (w := last_k cap xs) in *. rewrite !FF.
  assert (NE : w <> []) by (apply last_k_nonempty; [lia|exact Hne]).
  destruct (M NE) as (_ & (Imx & Amx)). set (m := B2R64 (p_max p)) in *.
  destruct (Sw _ Imx) as (Fmx & M0 & M280). fold m in M0, M280.
  assert (Smw : small m w).
  { intros y Hy. destruct (Sw y Hy) as (Fy & Y0 & _). split; [exact Fy|]. split; [exact Y0|].
    specialize (Amx y Hy). apply leb_true_iff in Amx as (_ & _ & L). rewrite !xval_finite in L by assumption. exact L. }
  pose proof (D m M0 Smw) as DE. pose proof (rsum_bounds w m Smw) as (B0 & B1). change (rvals w) with (map B2R64 w) in *.
  split; [exact Imx|]. split; [exact Fe|].
  assert (EP : eps = / 2 ^ 53) by (unfold eps; f_equal; simpl; lra). rewrite EP in DE.
  split; [exact DE|]. rewrite <- EP in DE |- *.
  unfold peaks_mean, peaks_size. rewrite (rep_size _ _ _ R).
  assert (Ln : (1 <= length w)%nat) by (destruct w; [congruence|cbn; lia]).
  set (n := INR (length w)) in *. assert (N1 : 1 <= n) by (unfold n; apply (le_INR 1); exact Ln).
  rewrite plus_INR in DE. fold n in DE. simpl (INR 1) in DE.
  assert (K1 : INR (length xs) <= K50). { rewrite INR_IZR_INZ. unfold K50. apply IZR_le. exact Hk. }
  pose proof (pos_INR (length xs)) as K0.
  assert (NK : n <= INR (length xs)) by (apply le_INR; exact Lk).
  destruct (ofZ_exact (Z.of_nat (length w))) as (Fn & Vn). { rewrite Z.abs_eq by lia. lia. }
  rewrite <- INR_IZR_INZ in Vn. fold n in Vn.
  set (S := rsum (map B2R64 w)) in *. set (k := INR (length xs)) in *.
  assert (KE : 4 * k * eps <= 1 / 2) by (unfold eps, K50 in *; lra).
  assert (DN : Rabs (B2R64 (p_e p) / n - S / n) <= 8 * k * eps * m).
  { replace (B2R64 (p_e p) / n - S / n) with ((B2R64 (p_e p) - S) * / n) by (field; lra).
    rewrite Rabs_mult, (Rabs_pos_eq (/ n)) by (left; apply Rinv_0_lt_compat; lra).
    apply Rmult_le_reg_r with n; [lra|]. rewrite Rmult_assoc, Rinv_l, Rmult_1_r by lra. eapply Rle_trans; [exact DE|].
    assert (0 <= eps * m) by (pose proof eps_pos; nra). assert (0 <= k * (eps * m)) by (apply Rmult_le_pos; lra).
    assert (k * (eps * m) <= n * (k * (eps * m))) by nra. lra. }
  assert (SN : 0 <= S / n <= m).
  { split; [apply Rmult_le_pos; [lra|left; apply Rinv_0_lt_compat; lra]|]. apply Rmult_le_reg_r with n; [lra|]. unfold Rdiv. rewrite Rmult_assoc, Rinv_l by lra. lra. }
  assert (QB : Rabs (B2R64 (p_e p) / n) <= m + 8 * k * eps * m).
  { replace (B2R64 (p_e p) / n) with ((B2R64 (p_e p) / n - S / n) + S / n) by lra. eapply Rle_trans; [apply Rabs_triang|].
    rewrite (Rabs_pos_eq (S / n)) by lra. lra. }
  assert (QB' : Rabs (B2R64 (p_e p) / n) <= 2 * m) by nra.
  destruct (quotient_error (p_e p) (b64_ofZ (Z.of_nat (length w))) Fe Fn) as (F & R1).
  { rewrite Vn. lra. }
  { rewrite Vn. eapply Rle_trans; [exact QB'|]. apply Rle_trans with (2 * 10 ^ 280); [lra|].
    apply Rle_trans with (10 ^ 20 * 10 ^ 280); [apply Rmult_le_compat_r; [apply pow_le; lra|simpl; lra]|]. rewrite <- pow_add. apply Rle_refl. }
  change (@ndiv B64) with b64_div. change (@nofZ B64) with b64_ofZ. split; [exact F|]. rewrite Vn in R1.
  change (Rabs (B2R64 (b64_div (p_e p) (b64_ofZ (Z.of_nat (length w)))) - S / n) <= 10 * k * eps * m + / 2 ^ 1074).
  set (x := B2R64 (b64_div (p_e p) (b64_ofZ (Z.of_nat (length w))))) in *.
  replace (x - S / n) with ((x - B2R64 (p_e p) / n) + (B2R64 (p_e p) / n - S / n)) by ring.
  eapply Rle_trans; [apply Rabs_triang|].
  assert (U : bpow radix2 (-1075) <= / 2 ^ 1074).
  { apply Rle_trans with (bpow radix2 (-1074)); [apply bpow_le; lia|]. change (-1074)%Z with (- (1074))%Z. rewrite bpow_opp.
    rewrite <- IZR_Zpower by lia. rewrite pow_IZR. apply Rle_refl. }
  assert (EM : eps * (2 * m) <= 2 * k * eps * m). { assert (0 <= eps * m) by (pose proof eps_pos; nra). assert (1 * (eps * m) <= k * (eps * m)) by (apply Rmult_le_compat_r; lra). lra. }
  assert (eps * Rabs (B2R64 (p_e p) / n) <= eps * (2 * m)) by (apply Rmult_le_compat_l; [left; apply eps_pos|lra]). lra.
Qed.
