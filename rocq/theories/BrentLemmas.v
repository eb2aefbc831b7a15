(** * BrentLemmas: the root finder (C33) *)
From Coq Require Import ZArith List Bool Lia Reals Lra.
From Flocq Require Import Core.Core.
From Verif Require Import Num NumFacts XMath Brent PeaksFacts RNum ExactWindow.
Import ListNotations.
Open Scope Z_scope.
Open Scope num_scope.

Section Generic.
Context {N : NumOps}.
Hypothesis asym : forall x : num N, (x >? #0) = true -> (x <? #0) = false.
Variable func : num N -> res (num N).

Lemma same_sign_sym (x y : num N) : same_sign x y = same_sign y x.
Proof. unfold same_sign. f_equal; apply andb_comm. Qed.
Lemma same_sign_trans_neg (x y z : num N) : same_sign x z = true -> same_sign y z = false -> same_sign x y = false.
Proof.
  unfold same_sign. intros H1 H2. apply orb_prop in H1 as [H1|H1]; apply andb_prop in H1 as (A & B).
  - rewrite A, B in *. rewrite (asym _ A). rewrite andb_true_r in H2. apply orb_false_iff in H2 as (H2 & _). rewrite H2. reflexivity.
  - rewrite A, B in *. rewrite andb_true_r in H2. apply orb_false_iff in H2 as (_ & H2). rewrite H2.
    destruct (x >? #0) eqn:C; [apply asym in C; congruence|]. reflexivity.
Qed.

(** the three current points have been evaluated; c brackets b, or a does *)
Definition binv (s : bst N) : Prop :=
  func (b_a s) = Ret (b_fa s) /\ func (b_b s) = Ret (b_fb s) /\ func (b_c s) = Ret (b_fc s) /\
  (same_sign (b_fb s) (b_fc s) = true -> same_sign (b_fb s) (b_fa s) = false).
Definition bracketed (s : bst N) : Prop :=
  func (b_a s) = Ret (b_fa s) /\ func (b_b s) = Ret (b_fb s) /\ func (b_c s) = Ret (b_fc s) /\
  same_sign (b_fb s) (b_fc s) = false.

Lemma rename_bracketed s : binv s -> bracketed (brent_rename s).
Proof.
  destruct s as [a b c d e fa fb fc]. unfold binv, bracketed, brent_rename. cbn [b_a b_b b_c b_d b_e b_fa b_fb b_fc].
  intros (A & B & C & I). destruct (same_sign fb fc) eqn:Sg; cbn [b_a b_b b_c b_d b_e b_fa b_fb b_fc].
  - specialize (I eq_refl). destruct (_ <? _); cbn [b_a b_b b_c b_d b_e b_fa b_fb b_fc]; repeat split; auto. rewrite same_sign_sym. assumption.
  - destruct (_ <? _); cbn [b_a b_b b_c b_d b_e b_fa b_fb b_fc]; repeat split; auto. rewrite same_sign_sym. assumption.
Qed.

Lemma next_binv s b' d e fb' : bracketed s -> func b' = Ret fb' ->
  binv (MkBst (b_b s) b' (b_c s) d e (b_fb s) fb' (b_fc s)).
Proof.
  intros (A & B & C & I) F. unfold binv. cbn [b_a b_b b_c b_d b_e b_fa b_fb b_fc]. repeat split; auto.
  intros Sg. apply (same_sign_trans_neg _ _ (b_fc s)); assumption.
Qed.

Lemma loop_contract fuel tol s r : binv s -> brent_loop func fuel tol s = Ret (Some r) ->
  exists fr, func r = Ret fr /\
    ((fr ==? #0) = true \/
     exists c fc, func c = Ret fc /\ same_sign fr fc = false /\ (c_fabs (c_half * (c - r)) <=? brent_tol1 tol r) = true).
Proof.
  revert s. induction fuel as [|fuel IH]; intros s I E; [discriminate|].
  cbn [brent_loop] in E. pose proof (rename_bracketed s I) as Br. set (t := brent_rename s) in *. clearbody t.
  destruct (_ || _)%bool eqn:Stop in E.
  - injection E as <-. destruct Br as (A & B & C & J). exists (b_fb t). split; [assumption|].
    apply orb_prop in Stop as [Stop|Stop]; [right|left; assumption]. exists (b_c t), (b_fc t). auto.
  - destruct (brent_de _ _ t) as [d e]. destruct (func _) as [fb'|] eqn:F in E; [|discriminate]. cbn [bind] in E.
    apply (IH _ (next_binv t _ d e fb' Br F) E).
Qed.

Lemma contract x1 x2 tol b : brent func x1 x2 tol = Ret (true, b) ->
  exists fb, func b = Ret fb /\
    ((fb ==? #0) = true \/
     exists c fc, func c = Ret fc /\ same_sign fb fc = false /\ (c_fabs (c_half * (c - b)) <=? brent_tol1 tol b) = true).
Proof.
  unfold brent. destruct (func x1) as [fa|] eqn:F1; [|discriminate]. cbn [bind].
  destruct (func x2) as [fb|] eqn:F2; [|discriminate]. cbn [bind].
  destruct (same_sign fa fb) eqn:Sg; [discriminate|].
  destruct (brent_loop _ _ _ _) as [[r|]|] eqn:L; cbn [bind]; try discriminate.
  intros E. injection E as <-. apply (loop_contract BRENT_ITMAX tol _ r) in L; [assumption|].
  unfold binv. cbn [b_a b_b b_c b_d b_e b_fa b_fb b_fc]. repeat split; auto. intros _. rewrite same_sign_sym. assumption.
Qed.

End Generic.

Section Counting.
Context {N : NumOps}.
Variable func : num N -> res (num N).

Lemma same_strict_sign_fails x1 x2 tol fa fb : func x1 = Ret fa -> func x2 = Ret fb -> same_sign fa fb = true ->
  brent func x1 x2 tol = Ret (false, #0).
Proof. intros A B H. unfold brent. rewrite A, B. cbn [bind]. rewrite H. reflexivity. Qed.

Lemma loop_depends fuel tol s : exists pts, (length pts <= fuel)%nat /\
  forall func', (forall x, In x pts -> func' x = func x) -> brent_loop func' fuel tol s = brent_loop func fuel tol s.
Proof.
  revert s. induction fuel as [|fuel IH]; intros s.
  - exists []. split; [apply le_n|]. reflexivity.
  - cbn [brent_loop]. set (t := brent_rename s). destruct (_ || _)%bool eqn:Stop.
    { exists []. split; [cbn; lia|]. reflexivity. }
    destruct (brent_de _ _ t) as [d e] eqn:DE. set (b' := brent_next _ _ _ _).
    destruct (func b') as [fb'|why] eqn:F.
    + destruct (IH (MkBst (b_b t) b' (b_c t) d e (b_fb t) fb' (b_fc t))) as (pts & L & Hp). exists (b' :: pts). split; [cbn; lia|].
      intros func' Hf. rewrite (Hf b') by (left; reflexivity). rewrite F. cbn [bind]. apply Hp. intros; apply Hf; right; assumption.
    + exists [b']. split; [cbn; lia|]. intros func' Hf. rewrite (Hf b') by (left; reflexivity). rewrite F. reflexivity.
Qed.

Lemma depends x1 x2 tol : exists pts, (length pts <= 202)%nat /\
  forall func', (forall x, In x pts -> func' x = func x) -> brent func' x1 x2 tol = brent func x1 x2 tol.
Proof.
  unfold brent. destruct (func x1) as [fa|] eqn:F1.
  2:{ exists [x1]. split; [cbn; lia|]. intros f H. rewrite (H x1) by (left; reflexivity). rewrite F1. cbn [bind]. reflexivity. }
  destruct (func x2) as [fb|] eqn:F2.
  2:{ exists [x1; x2]. split; [cbn; lia|]. intros f H. rewrite (H x1), (H x2) by (cbn; auto). rewrite F1, F2. cbn [bind]. reflexivity. }
  destruct (loop_depends BRENT_ITMAX tol (MkBst x1 x2 x2 #0 #0 fa fb fb)) as (pts & L & Hp).
  exists (x1 :: x2 :: pts). split; [unfold BRENT_ITMAX in L; cbn [length]; lia|].
  intros f H. rewrite (H x1), (H x2) by (cbn; auto). rewrite F1, F2. cbn [bind]. destruct (same_sign fa fb); [reflexivity|].
  rewrite Hp by (intros; apply H; cbn; auto). reflexivity.
Qed.

Lemma loop_stop fuel tol s r : brent_rename s = r ->
  (c_fabs (c_half * (b_c r - b_b r)) <=? brent_tol1 tol (b_b r)) = true -> brent_loop func (S fuel) tol s = Ret (Some (b_b r)).
Proof. intros E H. cbn [brent_loop]. rewrite E, H. reflexivity. Qed.

(** a value at the right end which is neither positive nor negative ends the search there *)
Lemma right_end x1 x2 tol fa fb : func x1 = Ret fa -> func x2 = Ret fb -> same_sign fa fb = false -> same_sign fb fb = false ->
  (c_fabs fb <? c_fabs fb) = false -> (c_fabs (c_half * (x2 - x2)) <=? brent_tol1 tol x2) = true ->
  brent func x1 x2 tol = Ret (true, x2).
Proof.
  intros A B H1 H2 H3 H4. unfold brent. rewrite A, B. cbn [bind]. rewrite H1.
  assert (E : brent_rename (MkBst x1 x2 x2 #0 #0 fa fb fb) = MkBst x1 x2 x2 #0 #0 fa fb fb).
  { unfold brent_rename. cbn [b_a b_b b_c b_d b_e b_fa b_fb b_fc]. rewrite H2. cbn [b_a b_b b_c b_d b_e b_fa b_fb b_fc]. rewrite H3. reflexivity. }
  change BRENT_ITMAX with (S 199). rewrite (loop_stop 199 tol _ _ E H4). cbn [bind b_b]. reflexivity.
Qed.
End Counting.

(** ** Exact arithmetic *)
Section Exact.
Open Scope R_scope.

Lemma fabs_R (x : R) : c_fabs (N := RNum) (Some x) = Some (Rabs x).
Proof.
  unfold c_fabs. cbn [nlt nofZ nopp RNum xrb xr_opp]. case Rlt_bool_spec; intros H.
  - rewrite Rabs_left by assumption. reflexivity.
  - rewrite Rabs_pos_eq by assumption. reflexivity.
Qed.
Lemma half_R : c_half (N := RNum) = Some (1 / 2).
Proof. unfold c_half. cbn [ndiv nofZ RNum xr_div]. rewrite Req_bool_false by lra. reflexivity. Qed.
Lemma eps_R : BRENT_DEFAULT_EPSILON (N := RNum) = Some (2 / 100000000).
Proof. unfold BRENT_DEFAULT_EPSILON. cbn [ndiv nofZ RNum xr_div]. rewrite Req_bool_false by lra. reflexivity. Qed.
Definition tolR (tol b : R) : R := 4 / 100000000 * Rabs b + tol / 2.
Lemma tol1_R tol b : brent_tol1 (N := RNum) (Some tol) (Some b) = Some (tolR tol b).
Proof.
  unfold brent_tol1. rewrite fabs_R, half_R, eps_R. cbn [nadd nmul nofZ RNum xr2]. f_equal. unfold tolR. field.
Qed.
Lemma ss_R (x y : R) : same_sign (N := RNum) (Some x) (Some y) = false <-> x * y <= 0.
Proof.
  unfold same_sign. cbn [nlt nofZ RNum xrb].
  case (Rlt_bool_spec 0 x); case (Rlt_bool_spec 0 y); case (Rlt_bool_spec x 0); case (Rlt_bool_spec y 0); cbn [andb orb]; intros A B C D; split; intros E; try discriminate; try reflexivity; try (exfalso; nra); try nra.
Qed.

Lemma de_R tol1 xm a b c d e fa fb fc : fb <> 0 -> Rabs fb <= Rabs fc -> 0 <= tol1 ->
  exists d' e', brent_de (N := RNum) (Some tol1) (Some xm) (MkBst (N := RNum) (Some a) (Some b) (Some c) (Some d) (Some e) (Some fa) (Some fb) (Some fc))
     = (Some d', Some e') /\ (d' = xm \/ (0 <= d' * xm /\ Rabs d' < 3 / 2 * Rabs xm)).
Proof.
  intros Hfb Hfc Ht. assert (Ffc : fc <> 0). { intros ->. rewrite Rabs_R0 in Hfc. pose proof (Rabs_pos_lt fb Hfb). lra. }
  unfold brent_de. rewrite !fabs_R. cbn [nle nlt RNum xrb].
  destruct (Rle_bool tol1 (Rabs e) && Rlt_bool (Rabs fb) (Rabs fa))%bool eqn:Cond.
  2:{ exists xm, xm. split; [reflexivity|left; reflexivity]. }
  apply andb_prop in Cond as (_ & Cond). revert Cond. case Rlt_bool_spec; [intros Cond _|discriminate].
  assert (Ffa : fa <> 0). { intros ->. rewrite Rabs_R0 in Cond. pose proof (Rabs_pos fb). lra. }
  cbn [neq ndiv RNum xrb].
  match goal with |- context [let '(p, q) := ?X in _] => assert (PQ : exists p q, X = (Some p : num RNum, Some q : num RNum)) end.
  { unfold xr_div. rewrite (Req_bool_false fa 0), (Req_bool_false fc 0) by assumption. cbn [nmul nsub nadd nofZ RNum xr2].
    destruct (Req_bool a c); eexists; eexists; reflexivity. }
  destruct PQ as (p & q & ->). cbn [nlt nofZ RNum xrb nopp xr_opp].
  rewrite if_Some. generalize (if Rlt_bool 0 p then (- q) else q). intros q'.
  rewrite fabs_R. cbn [nmul nsub nofZ RNum xr2]. rewrite !fabs_R.
  cbn [nsub nlt RNum xr2 xrb].
  match goal with |- context [if Rlt_bool ?m1 ?m2 then Some ?m1' else Some ?m2'] => set (M1 := m1); set (M2 := m2) end.
  rewrite if_Some. cbn [xrb].
  case Rlt_bool_spec; intros H.
  2:{ exists xm, xm. split; [reflexivity|left; reflexivity]. }
  assert (H1 : 2 * Rabs p < M1). { revert H. case (Rlt_bool_spec M1 M2); intros; lra. }
  unfold M1 in H1. pose proof (Rabs_pos p) as Pp. pose proof (Rabs_pos (tol1 * q')) as Pt.
  assert (X : 0 < xm * q') by lra.
  assert (Nq : q' <> 0) by (intros ->; rewrite Rmult_0_r in X; lra).
  cbn [ndiv RNum xr_div]. rewrite Req_bool_false by assumption.
  exists (Rabs p / q'), d. split; [reflexivity|]. right.
  assert (Nx : xm <> 0) by (intros ->; rewrite Rmult_0_l in X; lra).
  split.
  - replace (Rabs p / q' * xm) with (Rabs p * (xm * q') / (q' * q')) by (field; assumption).
    apply Rmult_le_pos; [apply Rmult_le_pos; lra|]. left. apply Rinv_0_lt_compat. nra.
  - unfold Rdiv at 1. rewrite Rabs_mult, Rabs_Rabsolu, Rabs_inv.
    pose proof (Rabs_pos_lt q' Nq) as Pq. apply (Rmult_lt_reg_r (Rabs q')); [assumption|].
    replace (Rabs p * / Rabs q' * Rabs q') with (Rabs p) by (field; lra).
    rewrite Rmult_assoc, <- Rabs_mult, (Rabs_pos_eq (xm * q')) by lra. lra.
Qed.

Lemma next_R tol1 b c d : let xm := 1 / 2 * (c - b) in 0 <= tol1 < Rabs xm ->
  (d = xm \/ (0 <= d * xm /\ Rabs d < 3 / 2 * Rabs xm)) ->
  exists t, 0 <= t <= 1 /\ brent_next (N := RNum) (Some tol1) (Some xm) (Some b) (Some d) = Some (b + t * (c - b)).
Proof.
  intros xm [Ht Hx] Hd. unfold brent_next. rewrite !fabs_R. cbn [nlt nle nadd nofZ nopp RNum xrb].
  assert (Nx : xm <> 0) by (intros E; rewrite E, Rabs_R0 in Hx; lra).
  assert (Nc : c - b <> 0) by (unfold xm in Nx; intros E; rewrite E in Nx; lra).
  case Rlt_bool_spec; intros H.
  - exists (d / (c - b)). split.
    2:{ cbn [xr2]. f_equal. field. assumption. }
    assert (E : d / (c - b) = d * xm / (2 * (xm * xm))) by (unfold xm; field; lra). rewrite E.
    assert (P2 : 0 < xm * xm) by nra.
    destruct Hd as [-> | [H1 H2]].
    + replace (xm * xm / (2 * (xm * xm))) with (1 / 2) by (field; assumption). lra.
    + split.
      * apply Rmult_le_pos; [assumption|]. left. apply Rinv_0_lt_compat. lra.
      * apply (Rmult_le_reg_r (2 * (xm * xm))); [lra|]. replace (d * xm / (2 * (xm * xm)) * (2 * (xm * xm))) with (d * xm) by (field; assumption).
        assert (d * xm <= 3 / 2 * (xm * xm)); [|lra].
        replace (d * xm) with (Rabs d * Rabs xm) by (rewrite <- Rabs_mult; apply Rabs_pos_eq; assumption).
        replace (xm * xm) with (Rabs xm * Rabs xm) by (rewrite <- Rabs_mult; apply Rabs_pos_eq; lra).
        rewrite <- Rmult_assoc. apply Rmult_le_compat_r; [apply Rabs_pos|]. lra.
  - case Rle_bool_spec; intros Sg; cbn [xr_opp xr2]; rewrite (Rabs_pos_eq tol1) by assumption.
    + rewrite Rabs_pos_eq in Hx by assumption. exists (tol1 / (c - b)).
      assert (0 < c - b) by (unfold xm in *; lra). split; [|f_equal; field; assumption].
      split; [apply Rmult_le_pos; [assumption|left; apply Rinv_0_lt_compat; assumption]|].
      apply (Rmult_le_reg_r (c - b)); [assumption|]. unfold Rdiv. rewrite Rmult_assoc, Rinv_l by assumption. unfold xm in *. lra.
    + rewrite Rabs_left in Hx by assumption. exists (tol1 / (b - c)).
      assert (0 < b - c) by (unfold xm in *; lra). split; [|f_equal; field; lra].
      split; [apply Rmult_le_pos; [assumption|left; apply Rinv_0_lt_compat; assumption]|].
      apply (Rmult_le_reg_r (b - c)); [assumption|]. unfold Rdiv. rewrite Rmult_assoc, Rinv_l by lra. unfold xm in *. lra.
Qed.

Variables (f : R -> R) (lo hi : R).
Variables (func func' : num RNum -> res (num RNum)).
Hypothesis Hf : forall r, lo <= r <= hi -> func (Some r) = Ret (Some (f r)).
Hypothesis Hf' : forall r, lo <= r <= hi -> func' (Some r) = Ret (Some (f r)).

Definition rst (a b c d e : R) : bst RNum :=
  MkBst (N := RNum) (Some a) (Some b) (Some c) (Some d) (Some e) (Some (f a)) (Some (f b)) (Some (f c)).
Definition inside (x : R) : Prop := lo <= x <= hi.

Lemma rename_R a b c d e : inside a -> inside b -> inside c ->
  exists a' b' c' d' e', brent_rename (rst a b c d e) = rst a' b' c' d' e' /\ inside a' /\ inside b' /\ inside c' /\ Rabs (f b') <= Rabs (f c').
Proof.
  intros Ia Ib Ic. unfold brent_rename, rst. cbn [b_a b_b b_c b_d b_e b_fa b_fb b_fc].
  destruct (same_sign _ _); cbn [b_a b_b b_c b_d b_e b_fa b_fb b_fc nsub RNum xr2]; rewrite !fabs_R; cbn [nlt RNum xrb]; case Rlt_bool_spec; intros H.
  - exists b, a, b, (b - a), (b - a). repeat split; try apply Ia; try apply Ib. lra.
  - exists a, b, a, (b - a), (b - a). repeat split; try apply Ia; try apply Ib. lra.
  - exists b, c, b, d, e. repeat split; try apply Ic; try apply Ib. lra.
  - exists a, b, c, d, e. repeat split; try apply Ia; try apply Ib; try apply Ic. lra.
Qed.

Lemma asym_R (x : num RNum) : (x >? #0)%num = true -> (x <? #0)%num = false.
Proof.
  destruct x as [x|]; [|discriminate]. cbn [nlt nofZ RNum xrb]. case Rlt_bool_spec; [|discriminate].
  intros H _. apply Rlt_bool_false. lra.
Qed.

(** b is a root, or an evaluated point c close to b has a value of opposite sign or zero *)
Definition good (tol x : R) : Prop :=
  inside x /\ (f x = 0 \/ exists c, inside c /\ f x * f c <= 0 /\ Rabs (c - x) <= 2 * tolR tol x).

Lemma loop_R fuel tol a b c d e : 0 <= tol -> inside a -> inside b -> inside c -> binv func (rst a b c d e) ->
  exists r, brent_loop func fuel (Some tol : num RNum) (rst a b c d e) = Ret r /\
    brent_loop func' fuel (Some tol : num RNum) (rst a b c d e) = Ret r /\
    match r with Some (Some x) => good tol x | Some None => False | None => True end.
Proof.
  intros Ht. revert a b c d e. induction fuel as [|fuel IH]; intros a b c d e Ia Ib Ic Hi.
  { exists None. repeat split. }
  apply rename_bracketed in Hi.
  cbn [brent_loop]. destruct (rename_R a b c d e Ia Ib Ic) as (a' & b' & c' & d' & e' & Er & Ia' & Ib' & Ic' & Hfc).
  rewrite Er in *. assert (Sg : f b' * f c' <= 0) by (apply ss_R; apply Hi).
  unfold rst. cbn [b_a b_b b_c b_d b_e b_fa b_fb b_fc].
  rewrite tol1_R, half_R. cbn [nsub nmul RNum xr2]. rewrite fabs_R. cbn [nle neq nofZ RNum xrb].
  set (xm := 1 / 2 * (c' - b')).
  case Rle_bool_spec; intros H; cbn [orb].
  { exists (Some (Some b')). split; [reflexivity|]. split; [reflexivity|]. split; [exact Ib'|]. right. exists c'. split; [exact Ic'|]. split; [exact Sg|].
    replace (c' - b') with (2 * xm) by (unfold xm; field). rewrite Rabs_mult, (Rabs_pos_eq 2) by lra. lra. }
  case Req_bool_spec; intros Hz.
  { exists (Some (Some b')). split; [reflexivity|]. split; [reflexivity|]. split; [exact Ib'|]. left. exact Hz. }
  assert (T0 : 0 <= tolR tol b') by (unfold tolR; pose proof (Rabs_pos b'); lra).
  destruct (de_R (tolR tol b') xm a' b' c' d' e' (f a') (f b') (f c') Hz Hfc T0) as (d2 & e2 & E & Hd).
  rewrite E.
  destruct (next_R (tolR tol b') b' c' d2 (conj T0 H) Hd) as (t & Ht1 & En). fold xm in En. rewrite En.
  assert (In' : inside (b' + t * (c' - b'))).
  { unfold inside in *. replace (b' + t * (c' - b')) with ((1 - t) * b' + t * c') by ring.
    split; nra. }
  rewrite Hf, Hf' by assumption. cbn [bind].
  apply (IH b' (b' + t * (c' - b')) c' d2 e2); try assumption.
  apply (next_binv asym_R func (rst a' b' c' d' e')); [exact Hi|]. apply Hf. assumption.
Qed.

Lemma brent_R x1 x2 tol : 0 <= tol -> inside x1 -> inside x2 ->
  exists found x, brent func (Some x1 : num RNum) (Some x2 : num RNum) (Some tol : num RNum) = Ret (found, Some x) /\
    brent func' (Some x1 : num RNum) (Some x2 : num RNum) (Some tol : num RNum) = Ret (found, Some x) /\
    (found = true -> good tol x).
Proof.
  intros Ht I1 I2. unfold brent. rewrite !Hf, !Hf' by assumption. cbn [bind].
  destruct (same_sign _ _) eqn:Sg. { exists false, 0. split; [reflexivity|]. split; [reflexivity|]. discriminate. }
  destruct (loop_R BRENT_ITMAX tol x1 x2 x2 0 0 Ht I1 I2 I2) as (r & E1 & E2 & Hr).
  { unfold binv, rst. cbn [b_a b_b b_c b_d b_e b_fa b_fb b_fc]. rewrite !Hf by assumption. repeat split. intros _. rewrite same_sign_sym. exact Sg. }
  unfold rst in E1, E2.
  change (nofZ (n := RNum) 0) with (Some 0 : num RNum). rewrite E1, E2. cbn [bind].
  destruct r as [[x|]|]; [|contradiction|].
  - exists true, x. split; [reflexivity|]. split; [reflexivity|]. intros _. exact Hr.
  - exists false, 0. split; [reflexivity|]. split; [reflexivity|]. discriminate.
Qed.

Lemma ivt_le a b : a <= b -> (forall x, a <= x <= b -> continuity_pt f x) -> f a * f b <= 0 -> exists z, a <= z <= b /\ f z = 0.
Proof.
  intros Hab Hc Hs. destruct (Req_dec (f a) 0) as [Za|Za]; [exists a; lra|]. destruct (Req_dec (f b) 0) as [Zb|Zb]; [exists b; lra|].
  assert (Hlt : a < b). { destruct Hab as [Hab|Hab]; [assumption|]. subst b. exfalso. nra. }
  destruct (Rtotal_order (f a) 0) as [C|[C|C]]; [|contradiction|].
  - destruct (Ranalysis5.IVT_interv f a b Hc Hlt C) as (z & Hz & Ez); [nra|]. exists z. auto.
  - destruct (Ranalysis5.IVT_interv (fun x => - f x) a b) as (z & Hz & Ez); [|assumption|lra|nra|exists z; split; [assumption|lra]].
    intros x Hx. apply (continuity_pt_opp f x). apply Hc. assumption.
Qed.

Lemma good_root tol x : (forall y, lo <= y <= hi -> continuity_pt f y) -> good tol x ->
  exists z, lo <= z <= hi /\ f z = 0 /\ Rabs (z - x) <= 2 * tolR tol x \/ f x = 0.
Proof.
  intros Hc (Ix & [Z|(c & Ic & Sg & D)]); [exists x; right; assumption|].
  unfold inside in *. destruct (Rle_lt_dec x c) as [C|C].
  - destruct (ivt_le x c C) as (z & Hz & Ez); [intros y Hy; apply Hc; lra|assumption|].
    exists z. left. split; [lra|]. split; [assumption|]. rewrite Rabs_pos_eq in * by lra. lra.
  - destruct (ivt_le c x) as (z & Hz & Ez); [lra|intros y Hy; apply Hc; lra|rewrite Rmult_comm; assumption|].
    exists z. left. split; [lra|]. split; [assumption|]. rewrite Rabs_minus_sym, Rabs_pos_eq by lra. rewrite Rabs_minus_sym, Rabs_pos_eq in D by lra. lra.
Qed.
End Exact.

Lemma C33_exact_lemma (f : R -> R) (func : num RNum -> res (num RNum)) x1 x2 tol :
  (0 <= tol -> (forall r, Rmin x1 x2 <= r <= Rmax x1 x2 -> func (Some r) = Ret (Some (f r))) ->
  exists found b, brent func (Some x1 : num RNum) (Some x2 : num RNum) (Some tol : num RNum) = Ret (found, Some b) /\
    (forall func' : num RNum -> res (num RNum), (forall r, Rmin x1 x2 <= r <= Rmax x1 x2 -> func' (Some r) = func (Some r)) ->
       brent func' (Some x1 : num RNum) (Some x2 : num RNum) (Some tol : num RNum) = Ret (found, Some b)) /\
    (found = true -> Rmin x1 x2 <= b <= Rmax x1 x2 /\
       ((forall y, Rmin x1 x2 <= y <= Rmax x1 x2 -> continuity_pt f y) ->
        exists z, Rmin x1 x2 <= z <= Rmax x1 x2 /\ f z = 0 /\ Rabs (z - b) <= 8 / 100000000 * Rabs b + tol)))%R.
Proof.
  intros Ht Hf.
  assert (I1 : (Rmin x1 x2 <= x1 <= Rmax x1 x2)%R) by (split; [apply Rmin_l|apply Rmax_l]).
  assert (I2 : (Rmin x1 x2 <= x2 <= Rmax x1 x2)%R) by (split; [apply Rmin_r|apply Rmax_r]).
  destruct (brent_R f _ _ func func Hf Hf x1 x2 tol Ht I1 I2) as (found & b & E & _ & G). exists found, b.
  split; [exact E|]. split.
  - intros func' Hf'. destruct (brent_R f _ _ func func' Hf (fun r Hr => eq_trans (Hf' r Hr) (Hf r Hr)) x1 x2 tol Ht I1 I2) as (fd & b2 & E1 & E2 & _).
    congruence.
  - intros T. specialize (G T). split; [apply G|]. intros Hc.
    destruct (good_root f _ _ tol b Hc G) as (z & [(Hz & Ez & Dz)|Z]).
    + exists z. split; [assumption|]. split; [assumption|]. unfold tolR in Dz. lra.
    + exists b. split; [apply G|]. split; [assumption|]. rewrite Rminus_eq_0, Rabs_R0. pose proof (Rabs_pos b). lra.
Qed.
