(** * Lemmas: a lower-tail detector is the mirror image of an upper-tail one (C39) *)
From Coq Require Import ZArith List Bool Lia Reals Lra.
From Flocq Require Import Core.Core IEEE754.BinarySingleNaN.
From Verif Require Import Num XMath Ubend Session Peaks Brent Estimator Tail P2 Spot B64 Spec
  NumFacts B64Facts SpotFacts SpotB64 MirrorSpec.
Import ListNotations.
Open Scope R_scope.

(** same status, opposite value *)
Definition Op (a b : b64) : Prop := nan64 a = nan64 b /\ (nan64 b = false -> xval a = - xval b).

Lemma Op_opp x : Op (b64_opp x) x.
Proof. split; [apply nan_opp|]. intros _. apply xval_opp. Qed.

Lemma Op_inf a b s : Op a b -> b = B754_infinity s -> a = B754_infinity (negb s).
Proof.
  intros (H1 & H2) ->. specialize (H2 eq_refl).
  destruct (finite64 a) eqn:F.
  - rewrite xval_finite in H2 by assumption. pose proof (B2R_bounds a). destruct s; simpl in H2; lra.
  - pose proof TOP_pos. destruct a as [t|t| |t m e X]; try discriminate; simpl in H2.
    destruct s, t; simpl; try reflexivity; exfalso; lra.
Qed.
Lemma Op_nan a b : Op a b -> b = B754_nan -> a = B754_nan.
Proof. intros (H1 & H2) ->. destruct a; try discriminate. reflexivity. Qed.
Lemma Op_fin a b : Op a b -> finite64 b = true -> finite64 a = true /\ B2R64 a = - B2R64 b.
Proof.
  intros (H1 & H2) F. pose proof (finite_not_nan _ F) as Nb. rewrite Nb in H1. specialize (H2 Nb).
  assert (Fa : finite64 a = true).
  { apply finite_of_xval; [assumption|]. rewrite H2, Rabs_Ropp, xval_finite by assumption. apply abs_B2R_TOP. }
  split; [assumption|]. rewrite !xval_finite in H2 by assumption. exact H2.
Qed.

Lemma cases x : x = B754_nan \/ (exists s, x = B754_infinity s) \/ finite64 x = true.
Proof. destruct x as [s|s| |s m e X]; eauto. Qed.

Lemma Op_minus x' x y' y : Op x' x -> Op y' y -> Op (b64_minus x' y') (b64_minus x y).
Proof.
  intros Hx Hy.
  destruct (cases x) as [Ex|[(sx & Ex)|Fx]].
  { rewrite (Op_nan _ _ Hx Ex), Ex. split; [reflexivity|discriminate]. }
  - rewrite (Op_inf _ _ _ Hx Ex), Ex.
    destruct (cases y) as [Ey|[(sy & Ey)|Fy]].
    + rewrite (Op_nan _ _ Hy Ey), Ey. split; [reflexivity|discriminate].
    + rewrite (Op_inf _ _ _ Hy Ey), Ey. destruct sx, sy; (split; [reflexivity|]); simpl; try discriminate; intros _; lra.
    + destruct (Op_fin _ _ Hy Fy) as (Fy' & _).
      destruct y as [t|t| |t m e X]; try discriminate; destruct y' as [t'|t'| |t' m' e' X']; try discriminate;
        destruct sx; (split; [reflexivity|]); simpl; intros _; lra.
  - destruct (Op_fin _ _ Hx Fx) as (Fx' & Rx).
    destruct (cases y) as [Ey|[(sy & Ey)|Fy]].
    + rewrite (Op_nan _ _ Hy Ey), Ey.
      destruct x as [t|t| |t m e X]; try discriminate; destruct x' as [t'|t'| |t' m' e' X']; try discriminate;
        (split; [reflexivity|]); simpl; discriminate.
    + rewrite (Op_inf _ _ _ Hy Ey), Ey.
      destruct x as [t|t| |t m e X]; try discriminate; destruct x' as [t'|t'| |t' m' e' X']; try discriminate;
        destruct sy; (split; [reflexivity|]); simpl; intros _; lra.
    + destruct (Op_fin _ _ Hy Fy) as (Fy' & Ry).
      destruct (minus_xval x y Fx Fy) as (N1 & E1). destruct (minus_xval x' y' Fx' Fy') as (N2 & E2).
      split; [congruence|]. intros _. rewrite E1, E2, Rx, Ry, <- rndc_opp. f_equal. lra.
Qed.

Lemma Op_plus x' x y' y : Op x' x -> Op y' y -> Op (b64_plus x' y') (b64_plus x y).
Proof.
  intros Hx Hy.
  destruct (cases x) as [Ex|[(sx & Ex)|Fx]].
  { rewrite (Op_nan _ _ Hx Ex), Ex. split; [reflexivity|discriminate]. }
  - rewrite (Op_inf _ _ _ Hx Ex), Ex.
    destruct (cases y) as [Ey|[(sy & Ey)|Fy]].
    + rewrite (Op_nan _ _ Hy Ey), Ey. split; [reflexivity|discriminate].
    + rewrite (Op_inf _ _ _ Hy Ey), Ey. destruct sx, sy; (split; [reflexivity|]); simpl; try discriminate; intros _; lra.
    + destruct (Op_fin _ _ Hy Fy) as (Fy' & _).
      destruct y as [t|t| |t m e X]; try discriminate; destruct y' as [t'|t'| |t' m' e' X']; try discriminate;
        destruct sx; (split; [reflexivity|]); simpl; intros _; lra.
  - destruct (Op_fin _ _ Hx Fx) as (Fx' & Rx).
    destruct (cases y) as [Ey|[(sy & Ey)|Fy]].
    + rewrite (Op_nan _ _ Hy Ey), Ey.
      destruct x as [t|t| |t m e X]; try discriminate; destruct x' as [t'|t'| |t' m' e' X']; try discriminate;
        (split; [reflexivity|]); simpl; discriminate.
    + rewrite (Op_inf _ _ _ Hy Ey), Ey.
      destruct x as [t|t| |t m e X]; try discriminate; destruct x' as [t'|t'| |t' m' e' X']; try discriminate;
        destruct sy; (split; [reflexivity|]); simpl; intros _; lra.
    + destruct (Op_fin _ _ Hy Fy) as (Fy' & Ry).
      destruct (plus_xval x y Fx Fy) as (N1 & E1). destruct (plus_xval x' y' Fx' Fy') as (N2 & E2).
      split; [congruence|]. intros _. rewrite E1, E2, Rx, Ry, <- rndc_opp. f_equal. lra.
Qed.

(** away from zero there is one opposite *)
Lemma Op_exact a b : Op a b -> (nan64 b = false -> xval b <> 0) -> a = b64_opp b.
Proof.
  intros H Nz. destruct (cases b) as [E|[(s & E)|F]].
  - rewrite (Op_nan _ _ H E), E. reflexivity.
  - rewrite (Op_inf _ _ _ H E), E. reflexivity.
  - destruct (Op_fin _ _ H F) as (Fa & Ra). specialize (Nz (finite_not_nan _ F)). rewrite xval_finite in Nz by assumption.
    apply B2R_inj.
    + apply is_finite_strict_B2R. rewrite Ra. lra.
    + apply is_finite_strict_B2R. unfold b64_opp. rewrite B2R_Bopp. lra.
    + unfold b64_opp. rewrite B2R_Bopp. exact Ra.
Qed.

Lemma minus_nonzero x y : nan64 x = false -> b64_eqb x y = false -> nan64 (b64_minus x y) = false -> xval (b64_minus x y) <> 0.
Proof.
  intros Nx E Nm Z.
  destruct (nan64 y) eqn:Ny.
  { rewrite minus_nan_r in Nm by assumption. discriminate. }
  destruct (minus_cmp x y Nx Ny) as (M1 & M2 & M3 & _).
  rewrite eqb_xval in E by assumption.
  assert (N0 : nan64 (b64_ofZ 0) = false) by reflexivity.
  rewrite (ltb_xval _ _ N0 Nm), (ltb_xval _ _ Ny Nx), Z, xval_zero in M2.
  rewrite (ltb_xval _ _ Nm N0), (ltb_xval _ _ Nx Ny), Z, xval_zero in M3.
  rewrite Rlt_bool_false in M2 by lra. rewrite Rlt_bool_false in M3 by lra.
  symmetry in M2, M3. apply Rlt_bool_false_inv in M2, M3.
  assert (X : xval x = xval y) by lra. rewrite X in E.
  rewrite Req_bool_true in E by reflexivity. discriminate.
Qed.

(** the excess of the mirrored observation *)
Lemma excess_mirror x e' e : nan64 x = false -> Op e' e -> b64_eqb x e = false ->
  b64_mult (b64_ofZ (-1)) (b64_minus (b64_opp x) e') = b64_mult (b64_ofZ 1) (b64_minus x e).
Proof.
  intros Nx He E. rewrite mult_m1_l, mult_1_l.
  rewrite (Op_exact _ _ (Op_minus _ _ _ _ (Op_opp x) He)).
  - unfold b64_opp. apply Bopp_involutive.
  - apply minus_nonzero; assumption.
Qed.

(** the anomaly test of the mirrored observation *)
Lemma anomaly_mirror x a' a : Op a' a ->
  b64_ltb (b64_ofZ 0) (b64_mult (b64_ofZ (-1)) (b64_minus (b64_opp x) a')) = b64_ltb (b64_ofZ 0) (b64_mult (b64_ofZ 1) (b64_minus x a)).
Proof.
  intros Ha. rewrite mult_m1_l, mult_1_l.
  destruct (Op_minus _ _ _ _ (Op_opp x) Ha) as (H1 & H2).
  assert (N0 : nan64 (b64_ofZ 0) = false) by reflexivity.
  destruct (nan64 (b64_minus x a)) eqn:Nm.
  - destruct (cmp_nan_r (b64_ofZ 0) (b64_minus x a) Nm) as (-> & _).
    destruct (cmp_nan_r (b64_ofZ 0) (b64_opp (b64_minus (b64_opp x) a'))) as (-> & _); [rewrite nan_opp; assumption|]. reflexivity.
  - rewrite !ltb_xval; try assumption; [|rewrite nan_opp; assumption].
    rewrite xval_opp, H2 by reflexivity. rewrite Ropp_involutive. reflexivity.
Qed.

Lemma opposite_Op a b : opposite a b <-> Op a b.
Proof.
  unfold opposite, Op. split.
  - intros [(H1 & H2)|H].
    + rewrite is_NaN_eq in H1, H2. rewrite H1, H2. split; [reflexivity|discriminate].
    + apply eqb_true_iff in H as (H1 & H2 & H3). rewrite nan_opp in H2. rewrite xval_opp in H3. rewrite H1, H2. auto.
  - intros (H1 & H2). destruct (nan64 b) eqn:E.
    + left. rewrite !is_NaN_eq. auto.
    + right. apply eqb_true_iff. rewrite nan_opp, xval_opp. auto.
Qed.

Lemma quantile_mirror mf (s t : spot B64) q : mirror s t ->
  match spot_quantile mf s q, spot_quantile mf t q with
  | Ret a, Ret b => opposite b a
  | Undef v, Undef w => v = w
  | _, _ => False
  end.
Proof.
  intros (H1 & H2 & Het & Hat & H3 & H4 & H5 & H6 & H7). unfold spot_quantile. rewrite H1, H2, H5, H6, H7.
  destruct (tail_quantile _ _ _ _) as [tq|]; cbn [bind]; [|reflexivity].
  apply opposite_Op. apply opposite_Op in Het. change (num B64) with b64 in *.
  change (Op (b64_plus (s_et t) (b64_mult (b64_ofZ (-1)) tq)) (b64_plus (s_et s) (b64_mult (b64_ofZ 1) tq))).
  rewrite mult_m1_l, mult_1_l. apply Op_plus; [assumption|apply Op_opp].
Qed.

Lemma probability_mirror mf (s t : spot B64) (z : b64) : mirror s t -> b64_eqb z (s_et s) = false ->
  spot_probability mf t (b64_opp z) = spot_probability mf s z.
Proof.
  intros (H1 & H2 & Het & Hat & H3 & H4 & H5 & H6 & H7) E. unfold spot_probability. rewrite H1, H2, H5, H6, H7.
  change (num B64) with b64 in *. f_equal. apply opposite_Op in Het.
  change (b64_mult (b64_ofZ (-1)) (b64_minus (b64_opp z) (s_et t)) = b64_mult (b64_ofZ 1) (b64_minus z (s_et s))).
  destruct (nan64 z) eqn:Nz.
  - rewrite !minus_nan_l; [|assumption|rewrite nan_opp; assumption]. reflexivity.
  - apply excess_mirror; assumption.
Qed.

Lemma step_mirror mf (s t : spot B64) (x : b64) : mirror s t -> b64_eqb x (s_et s) = false ->
  match spot_step mf s x, spot_step mf t (b64_opp x) with
  | Ret (s', r), Ret (t', r') => r = r' /\ mirror s' t' /\ s_et s' = s_et s
  | Undef v, Undef w => v = w
  | _, _ => False
  end.
Proof.
  intros M E. pose proof M as (H1 & H2 & Het & Hat & H3 & H4 & H5 & H6 & H7).
  unfold spot_step. rewrite !is_nan_b64, nan_opp.
  destruct (nan64 x) eqn:Nx. { auto. }
  apply opposite_Op in Hat.
  assert (EA : nlt (n := B64) (nofZ 0) (nmul (s_updown t) (nsub (b64_opp x : num B64) (s_at t))) =
               nlt (n := B64) (nofZ 0) (nmul (s_updown s) (nsub (x : num B64) (s_at s)))).
  { rewrite H1, H2. apply (anomaly_mirror x (s_at t) (s_at s) Hat). }
  rewrite EA, H4. destruct (negb _ && _)%bool. { auto. }
  cbn [s_updown s_et s_Nt s_n s_tail s_q with_counts].
  apply opposite_Op in Het.
  assert (EE : nmul (s_updown t) (nsub (b64_opp x : num B64) (s_et t)) = nmul (s_updown s) (nsub (x : num B64) (s_et s))).
  { rewrite H1, H2. apply (excess_mirror x (s_et t) (s_et s) Nx Het E). }
  rewrite EE, H5, H6, H7.
  destruct (nle _ _).
  2:{ split; [reflexivity|]. split; [|reflexivity]. 
      unfold mirror. cbn [s_updown s_et s_at s_Nt s_n s_tail s_q s_discard s_level with_counts]. repeat split; try assumption; try apply opposite_Op; assumption. }
  destruct (tail_push _ _) as [t1|]; cbn [bind]; [|reflexivity].
  destruct (tail_fit _ _) as [[t2 ll]|]; cbn [bind]; [|reflexivity].
  cbn [s_q with_tail with_counts]. rewrite H3.
  set (s1 := with_tail (with_counts (with_counts s _ _) _ _) _).
  set (s2 := with_tail (with_counts (with_counts t _ _) _ _) _).
  assert (M' : mirror s1 s2).
  { apply opposite_Op in Het. apply opposite_Op in Hat. unfold mirror, s1, s2.
    cbn [s_updown s_et s_at s_Nt s_n s_tail s_q s_discard s_level with_counts with_tail]. tauto. }
  pose proof (quantile_mirror mf s1 s2 (s_q s) M') as Q.
  destruct (spot_quantile mf s1 _) as [a|] eqn:Q1; destruct (spot_quantile mf s2 _) as [b|] eqn:Q2; try contradiction.
  - cbn [bind]. split; [reflexivity|]. split; [|reflexivity].
    destruct M' as (M1 & M2 & M3 & M4 & M5 & M6 & M7 & M8 & M9). unfold mirror. repeat split; assumption.
  - cbn [bind]. assumption.
Qed.

Lemma steps_mirror mf (xs : list (num B64)) : forall (ys : list (num B64)) (s t : spot B64), ys = map b64_opp xs ->
  mirror s t -> (forall x, In x xs -> b64_eqb x (s_et s) = false) ->
  match spot_steps mf s xs, spot_steps mf t ys with
  | Ret (s', l), Ret (t', l') => l = l' /\ mirror s' t'
  | Undef v, Undef w => v = w
  | _, _ => False
  end.
Proof.
  induction xs as [|x xs IH]; intros ys s t E M H; destruct ys as [|y ys]; try discriminate; cbn [spot_steps map]. { auto. }
  injection E as E1 Eys. subst y.
  pose proof (step_mirror mf s t x M (H x (or_introl eq_refl))) as S.
  destruct (spot_step mf s x) as [[s1 r]|]; destruct (spot_step mf t (b64_opp x)) as [[t1 r']|]; try contradiction; cbn [bind]; [|assumption].
  destruct S as (<- & M1 & Ee).
  assert (H1 : forall y, In y xs -> b64_eqb y (s_et s1) = false).
  { intros y Hy. rewrite Ee. apply H. right. assumption. }
  specialize (IH ys s1 t1 Eys M1 H1).
  destruct (spot_steps mf s1 xs) as [[s2 l]|]; destruct (spot_steps mf t1 ys) as [[t2 l']|]; try contradiction; cbn [bind]; [|assumption].
  destruct IH as (<- & M2). auto.
Qed.
