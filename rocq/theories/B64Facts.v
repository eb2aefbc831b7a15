(** * B64Facts: order and rounding facts about the binary64 instance *)
From Coq Require Import ZArith List Bool Reals Lra Lia.
From Flocq Require Import Core.Core Plus_error IEEE754.BinarySingleNaN.
From Verif Require Import Num XMath B64.
Open Scope R_scope.

Notation fexp64 := (SpecFloat.fexp 53 1024).
Notation rnd := (round radix2 fexp64 ZnearestE).
Notation B2R64 := (@B2R 53 1024).
Notation finite64 := (@BinarySingleNaN.is_finite 53 1024).
Notation nan64 := (@BinarySingleNaN.is_nan 53 1024).
(** 2^1024: the first power of two above every finite double *)
Definition TOP : R := bpow radix2 1024.

#[global] Instance valid_exp64 : Valid_exp fexp64.
Proof. apply fexp_correct; reflexivity. Qed.
#[global] Instance monotone_exp64 : Monotone_exp fexp64.
Proof. apply fexp_monotone. Qed.
#[global] Instance valid_rnd_NE : Valid_rnd ZnearestE := valid_rnd_N _.

Lemma TOP_pos : 0 < TOP.
Proof. apply bpow_gt_0. Qed.

(** ** Value with infinities at the two ends: order embedding of the non-NaN doubles *)
Definition xval (x : b64) : R :=
  match x with
  | B754_infinity s => if s then - TOP else TOP
  | _ => B2R64 x
  end.

Lemma xval_finite x : finite64 x = true -> xval x = B2R64 x.
Proof. destruct x; simpl; try discriminate; reflexivity. Qed.

Lemma finite_not_nan x : finite64 x = true -> nan64 x = false.
Proof. destruct x; simpl; congruence. Qed.

Lemma abs_B2R_TOP x : Rabs (B2R64 x) < TOP.
Proof. apply abs_B2R_lt_emax. Qed.

Lemma B2R_bounds x : - TOP < B2R64 x < TOP.
Proof. pose proof (abs_B2R_TOP x) as H. apply Rabs_def2 in H. lra. Qed.

Lemma xval_bounds x : - TOP <= xval x <= TOP.
Proof.
  pose proof TOP_pos. destruct (finite64 x) eqn:F.
  - rewrite xval_finite by assumption. pose proof (B2R_bounds x). lra.
  - destruct x as [s|s| |s m e H1]; try discriminate; unfold xval; try destruct s; try lra.
    change (B2R64 B754_nan) with 0. lra.
Qed.

Lemma xval_finite_iff x : nan64 x = false -> (finite64 x = true <-> - TOP < xval x < TOP).
Proof.
  intros Hn. split.
  - intros F. rewrite xval_finite by assumption. apply B2R_bounds.
  - destruct x as [s|s| |s m e H1]; simpl; try reflexivity; try discriminate.
    destruct s; lra.
Qed.

Lemma is_nan_b64 (x : b64) : @XMath.is_nan B64 x = nan64 x.
Proof.
  unfold XMath.is_nan; simpl. unfold b64_eqb. rewrite Beqb_refl. destruct (nan64 x); reflexivity.
Qed.

Lemma c_nan_b64 : @c_nan B64 = B754_nan.
Proof. reflexivity. Qed.

Lemma cmp_xval x y : nan64 x = false -> nan64 y = false ->
  Bcompare x y = Some (Rcompare (xval x) (xval y)).
Proof.
  intros Nx Ny. pose proof TOP_pos as HT.
  destruct (finite64 x) eqn:Fx; destruct (finite64 y) eqn:Fy.
  - rewrite !xval_finite by assumption. apply Bcompare_correct; assumption.
  - pose proof (B2R_bounds x). rewrite (xval_finite x) by assumption.
    destruct x as [sx|sx| |sx mx ex Hx]; try discriminate;
    destruct y as [sy|sy| |sy my ey Hy]; try discriminate; unfold xval;
    destruct sy; cbn -[Rcompare TOP B2R];
    first [rewrite Rcompare_Lt by lra|rewrite Rcompare_Gt by lra]; reflexivity.
  - pose proof (B2R_bounds y). rewrite (xval_finite y) by assumption.
    destruct x as [sx|sx| |sx mx ex Hx]; try discriminate;
    destruct y as [sy|sy| |sy my ey Hy]; try discriminate; unfold xval;
    destruct sx; cbn -[Rcompare TOP B2R];
    first [rewrite Rcompare_Lt by lra|rewrite Rcompare_Gt by lra]; reflexivity.
  - destruct x as [sx|sx| |sx mx ex Hx]; try discriminate;
    destruct y as [sy|sy| |sy my ey Hy]; try discriminate; unfold xval;
    destruct sx, sy; cbn -[Rcompare TOP B2R];
    first [rewrite Rcompare_Lt by lra|rewrite Rcompare_Gt by lra|rewrite Rcompare_Eq by lra]; reflexivity.
Qed.

Lemma ltb_xval x y : nan64 x = false -> nan64 y = false -> b64_ltb x y = Rlt_bool (xval x) (xval y).
Proof.
  intros Nx Ny. pose proof (cmp_xval x y Nx Ny) as H.
  unfold b64_ltb, Bltb, SpecFloat.SFltb. unfold Bcompare in H. rewrite H.
  unfold Rlt_bool. destruct (Rcompare _ _); reflexivity.
Qed.

Lemma leb_xval x y : nan64 x = false -> nan64 y = false -> b64_leb x y = Rle_bool (xval x) (xval y).
Proof.
  intros Nx Ny. pose proof (cmp_xval x y Nx Ny) as H.
  unfold b64_leb, Bleb, SpecFloat.SFleb. unfold Bcompare in H. rewrite H.
  unfold Rle_bool. destruct (Rcompare _ _); reflexivity.
Qed.

Lemma eqb_xval x y : nan64 x = false -> nan64 y = false -> b64_eqb x y = Req_bool (xval x) (xval y).
Proof.
  intros Nx Ny. pose proof (cmp_xval x y Nx Ny) as H.
  unfold b64_eqb, Beqb, SpecFloat.SFeqb. unfold Bcompare in H. rewrite H.
  unfold Req_bool. destruct (Rcompare _ _); reflexivity.
Qed.

Lemma cmp_nan_l x y : nan64 x = true ->
  b64_ltb x y = false /\ b64_leb x y = false /\ b64_eqb x y = false.
Proof. destruct x; try discriminate. intros _. destruct y; repeat split; reflexivity. Qed.

Lemma cmp_nan_r x y : nan64 y = true ->
  b64_ltb x y = false /\ b64_leb x y = false /\ b64_eqb x y = false.
Proof. destruct y; try discriminate. intros _. destruct x; repeat split; reflexivity. Qed.

Lemma ltb_true_iff x y : b64_ltb x y = true <-> nan64 x = false /\ nan64 y = false /\ xval x < xval y.
Proof.
  destruct (nan64 x) eqn:Nx.
  { destruct (cmp_nan_l x y Nx) as (-> & _). split; [discriminate|intros (H & _); discriminate]. }
  destruct (nan64 y) eqn:Ny.
  { destruct (cmp_nan_r x y Ny) as (-> & _). split; [discriminate|intros (_ & H & _); discriminate]. }
  rewrite ltb_xval by assumption. case Rlt_bool_spec; intros H.
  - repeat split; auto.
  - split; [discriminate|]. intros (_ & _ & H'). lra.
Qed.

Lemma leb_true_iff x y : b64_leb x y = true <-> nan64 x = false /\ nan64 y = false /\ xval x <= xval y.
Proof.
  destruct (nan64 x) eqn:Nx.
  { destruct (cmp_nan_l x y Nx) as (_ & -> & _). split; [discriminate|intros (H & _); discriminate]. }
  destruct (nan64 y) eqn:Ny.
  { destruct (cmp_nan_r x y Ny) as (_ & -> & _). split; [discriminate|intros (_ & H & _); discriminate]. }
  rewrite leb_xval by assumption. case Rle_bool_spec; intros H.
  - repeat split; auto.
  - split; [discriminate|]. intros (_ & _ & H'). lra.
Qed.

Lemma eqb_true_iff x y : b64_eqb x y = true <-> nan64 x = false /\ nan64 y = false /\ xval x = xval y.
Proof.
  destruct (nan64 x) eqn:Nx.
  { destruct (cmp_nan_l x y Nx) as (_ & _ & ->). split; [discriminate|intros (H & _); discriminate]. }
  destruct (nan64 y) eqn:Ny.
  { destruct (cmp_nan_r x y Ny) as (_ & _ & ->). split; [discriminate|intros (_ & H & _); discriminate]. }
  rewrite eqb_xval by assumption. case Req_bool_spec; intros H.
  - repeat split; auto.
  - split; [discriminate|]. intros (_ & _ & H'). lra.
Qed.

(** ** Rounded operations, overflow included *)
Definition clamp (r : R) : R := Rmax (- TOP) (Rmin TOP r).
Definition rndc (r : R) : R := clamp (rnd r).

Lemma clamp_mono a b : a <= b -> clamp a <= clamp b.
Proof.
  intros H. unfold clamp. apply Rmax_lub; [apply Rmax_l|].
  eapply Rle_trans; [|apply Rmax_r].
  apply Rmin_glb; [apply Rmin_l|]. eapply Rle_trans; [apply Rmin_r|assumption].
Qed.

Lemma clamp_id r : Rabs r <= TOP -> clamp r = r.
Proof.
  intros H. apply Rabs_le_inv in H. unfold clamp.
  rewrite Rmin_right by lra. rewrite Rmax_right by lra. reflexivity.
Qed.

Lemma clamp_hi r : TOP <= r -> clamp r = TOP.
Proof. intros H. pose proof TOP_pos. unfold clamp. rewrite Rmin_left by lra. rewrite Rmax_right by lra. reflexivity. Qed.
Lemma clamp_lo r : r <= - TOP -> clamp r = - TOP.
Proof. intros H. pose proof TOP_pos. unfold clamp. rewrite Rmin_right by lra. rewrite Rmax_left by lra. reflexivity. Qed.

Lemma rndc_mono a b : a <= b -> rndc a <= rndc b.
Proof. intros H. apply clamp_mono. apply round_le; auto with typeclass_instances. Qed.

Lemma B2SF_inf x s : @B2SF 53 1024 x = SpecFloat.S754_infinity s -> x = B754_infinity s.
Proof. destruct x; simpl; congruence. Qed.

Lemma rnd_0 : rnd 0 = 0.
Proof. apply round_0; auto with typeclass_instances. Qed.
Lemma rnd_opp x : rnd (- x) = - rnd x.
Proof. apply round_NE_opp. Qed.

Lemma rnd_format x : rnd (B2R64 x) = B2R64 x.
Proof. apply round_generic; auto with typeclass_instances. apply generic_format_B2R. Qed.

Lemma rndc_format x : rndc (B2R64 x) = B2R64 x.
Proof. unfold rndc. rewrite rnd_format. apply clamp_id. left. apply abs_B2R_TOP. Qed.

Lemma Rlt_bool_false_inv a b : Rlt_bool a b = false -> b <= a.
Proof. case Rlt_bool_spec; [discriminate|auto]. Qed.
Lemma Rlt_bool_true_inv a b : Rlt_bool a b = true -> a < b.
Proof. case Rlt_bool_spec; [auto|discriminate]. Qed.

Lemma Bsign_neg x : finite64 x = true -> Bsign x = true -> B2R64 x <= 0.
Proof.
  destruct x as [s|s| |s m e H]; simpl; try discriminate; intros _ ->; simpl; try lra.
  apply Rlt_le. apply F2R_lt_0. reflexivity.
Qed.
Lemma Bsign_pos x : finite64 x = true -> Bsign x = false -> 0 <= B2R64 x.
Proof.
  destruct x as [s|s| |s m e H]; simpl; try discriminate; intros _ ->; simpl; try lra.
  apply Rlt_le. apply F2R_gt_0. reflexivity.
Qed.

Lemma rnd_nonneg r : 0 <= r -> 0 <= rnd r.
Proof. intros H. rewrite <- rnd_0. apply round_le; auto with typeclass_instances. Qed.
Lemma rnd_nonpos r : r <= 0 -> rnd r <= 0.
Proof. intros H. rewrite <- rnd_0. apply round_le; auto with typeclass_instances. Qed.

Lemma plus_xval x y : finite64 x = true -> finite64 y = true ->
  nan64 (b64_plus x y) = false /\ xval (b64_plus x y) = rndc (B2R64 x + B2R64 y).
Proof.
  intros Fx Fy. unfold b64_plus.
  pose proof (Bplus_correct 53 1024 _ _ mode_NE x y Fx Fy) as H. simpl round_mode in H. fold TOP in H.
  destruct (Rlt_bool _ _) eqn:E.
  - destruct H as (H1 & H2 & _). split; [apply finite_not_nan; assumption|].
    rewrite xval_finite by assumption. rewrite H1. symmetry. apply clamp_id.
    left. apply Rlt_bool_true_inv. assumption.
  - destruct H as (H1 & H2). apply Rlt_bool_false_inv in E.
    unfold binary_overflow in H1. simpl in H1. apply B2SF_inf in H1. rewrite H1. split; [reflexivity|].
    unfold rndc. simpl xval. destruct (Bsign x) eqn:S.
    + assert (B2R64 x + B2R64 y <= 0).
      { pose proof (Bsign_neg x Fx S). pose proof (Bsign_neg y Fy (eq_sym H2)). lra. }
      pose proof (rnd_nonpos _ H). rewrite Rabs_left1 in E by assumption.
      rewrite clamp_lo by lra. reflexivity.
    + assert (0 <= B2R64 x + B2R64 y).
      { pose proof (Bsign_pos x Fx S). pose proof (Bsign_pos y Fy (eq_sym H2)). lra. }
      pose proof (rnd_nonneg _ H). rewrite Rabs_right in E by lra.
      rewrite clamp_hi by lra. reflexivity.
Qed.

Lemma minus_xval x y : finite64 x = true -> finite64 y = true ->
  nan64 (b64_minus x y) = false /\ xval (b64_minus x y) = rndc (B2R64 x - B2R64 y).
Proof.
  intros Fx Fy. unfold b64_minus.
  pose proof (Bminus_correct 53 1024 _ _ mode_NE x y Fx Fy) as H. simpl round_mode in H. fold TOP in H.
  destruct (Rlt_bool _ _) eqn:E.
  - destruct H as (H1 & H2 & _). split; [apply finite_not_nan; assumption|].
    rewrite xval_finite by assumption. rewrite H1. symmetry. apply clamp_id.
    left. apply Rlt_bool_true_inv. assumption.
  - destruct H as (H1 & H2). apply Rlt_bool_false_inv in E.
    unfold binary_overflow in H1. simpl in H1. apply B2SF_inf in H1. rewrite H1. split; [reflexivity|].
    unfold rndc. simpl xval. destruct (Bsign x) eqn:S.
    + assert (B2R64 x - B2R64 y <= 0).
      { pose proof (Bsign_neg x Fx S). destruct (Bsign y) eqn:S2; [discriminate|].
        pose proof (Bsign_pos y Fy S2). lra. }
      pose proof (rnd_nonpos _ H). rewrite Rabs_left1 in E by assumption.
      rewrite clamp_lo by lra. reflexivity.
    + assert (0 <= B2R64 x - B2R64 y).
      { pose proof (Bsign_pos x Fx S). destruct (Bsign y) eqn:S2; [|discriminate].
        pose proof (Bsign_neg y Fy S2). lra. }
      pose proof (rnd_nonneg _ H). rewrite Rabs_right in E by lra.
      rewrite clamp_hi by lra. reflexivity.
Qed.

Lemma sign_prod x y : finite64 x = true -> finite64 y = true ->
  if xorb (Bsign x) (Bsign y) then B2R64 x * B2R64 y <= 0 else 0 <= B2R64 x * B2R64 y.
Proof.
  intros Fx Fy.
  destruct (Bsign x) eqn:Sx, (Bsign y) eqn:Sy; simpl;
  try pose proof (Bsign_neg x Fx Sx); try pose proof (Bsign_pos x Fx Sx);
  try pose proof (Bsign_neg y Fy Sy); try pose proof (Bsign_pos y Fy Sy); nra.
Qed.

Lemma mult_xval x y : finite64 x = true -> finite64 y = true ->
  nan64 (b64_mult x y) = false /\ xval (b64_mult x y) = rndc (B2R64 x * B2R64 y).
Proof.
  intros Fx Fy. unfold b64_mult.
  pose proof (Bmult_correct 53 1024 _ _ mode_NE x y) as H. simpl round_mode in H. fold TOP in H.
  destruct (Rlt_bool _ _) eqn:E.
  - destruct H as (H1 & H2 & _). rewrite Fx, Fy in H2. simpl in H2.
    split; [apply finite_not_nan; assumption|].
    rewrite xval_finite by assumption. rewrite H1. symmetry. apply clamp_id.
    left. apply Rlt_bool_true_inv. assumption.
  - apply Rlt_bool_false_inv in E.
    unfold binary_overflow in H. simpl in H. apply B2SF_inf in H. rewrite H. split; [reflexivity|].
    unfold rndc. simpl xval. pose proof (sign_prod x y Fx Fy) as HS.
    destruct (xorb _ _).
    + pose proof (rnd_nonpos _ HS). rewrite Rabs_left1 in E by assumption.
      rewrite clamp_lo by lra. reflexivity.
    + pose proof (rnd_nonneg _ HS). rewrite Rabs_right in E by lra.
      rewrite clamp_hi by lra. reflexivity.
Qed.

Lemma div_xval x y : finite64 x = true -> finite64 y = true -> B2R64 y <> 0 ->
  nan64 (b64_div x y) = false /\ xval (b64_div x y) = rndc (B2R64 x / B2R64 y).
Proof.
  intros Fx Fy Zy. unfold b64_div.
  pose proof (Bdiv_correct 53 1024 _ _ mode_NE x y Zy) as H. simpl round_mode in H. fold TOP in H.
  destruct (Rlt_bool _ _) eqn:E.
  - destruct H as (H1 & H2 & _). rewrite Fx in H2. simpl in H2.
    split; [apply finite_not_nan; assumption|].
    rewrite xval_finite by assumption. rewrite H1. symmetry. apply clamp_id.
    left. apply Rlt_bool_true_inv. assumption.
  - apply Rlt_bool_false_inv in E.
    unfold binary_overflow in H. simpl in H. apply B2SF_inf in H. rewrite H. split; [reflexivity|].
    unfold rndc. simpl xval.
    assert (HS : if xorb (Bsign x) (Bsign y) then B2R64 x / B2R64 y <= 0 else 0 <= B2R64 x / B2R64 y).
    { pose proof (sign_prod x y Fx Fy) as HS.
      assert (E2 : B2R64 x / B2R64 y = (B2R64 x * B2R64 y) * / (B2R64 y * B2R64 y)) by (field; assumption).
      assert (0 < / (B2R64 y * B2R64 y)) by (apply Rinv_0_lt_compat; nra).
      rewrite E2. destruct (xorb _ _); nra. }
    destruct (xorb _ _).
    + pose proof (rnd_nonpos _ HS). rewrite Rabs_left1 in E by assumption.
      rewrite clamp_lo by lra. reflexivity.
    + pose proof (rnd_nonneg _ HS). rewrite Rabs_right in E by lra.
      rewrite clamp_hi by lra. reflexivity.
Qed.

Lemma nan_opp x : nan64 (b64_opp x) = nan64 x.
Proof. destruct x; reflexivity. Qed.
Lemma finite_opp x : finite64 (b64_opp x) = finite64 x.
Proof. destruct x; reflexivity. Qed.
Lemma xval_opp x : xval (b64_opp x) = - xval x.
Proof.
  destruct (finite64 x) eqn:F.
  - rewrite !xval_finite by (rewrite ?finite_opp; assumption). apply B2R_Bopp.
  - destruct x as [s|s| |s m e H]; try discriminate; simpl; try destruct s; simpl; lra.
Qed.

(** When the rounded result does not overflow the operation is finite. *)
Lemma finite_of_xval x : nan64 x = false -> Rabs (xval x) < TOP -> finite64 x = true.
Proof. intros Hn H. apply xval_finite_iff; [assumption|]. apply Rabs_def2 in H. lra. Qed.

(** ** Sign of a rounded difference *)
Lemma rnd_minus_pos x y : B2R64 y < B2R64 x -> 0 < rnd (B2R64 x - B2R64 y).
Proof.
  intros H. destruct (Rle_lt_or_eq_dec 0 (rnd (B2R64 x - B2R64 y))) as [|E]; [|assumption|].
  - apply rnd_nonneg. lra.
  - exfalso. symmetry in E. unfold Rminus in E.
    apply round_plus_eq_0 in E; auto with typeclass_instances.
    + lra.
    + apply generic_format_B2R.
    + apply generic_format_opp, generic_format_B2R.
Qed.

Lemma clamp_pos r : 0 < r -> 0 < clamp r.
Proof. intros H. pose proof TOP_pos. unfold clamp. apply Rlt_le_trans with (Rmin TOP r); [|apply Rmax_r].
  apply Rmin_glb_lt; assumption. Qed.
Lemma clamp_opp r : clamp (- r) = - clamp r.
Proof.
  unfold clamp. pose proof TOP_pos.
  destruct (Rle_dec TOP r); [|destruct (Rle_dec r (- TOP))].
  - rewrite (Rmin_right TOP (- r)), (Rmin_left TOP r), Rmax_left, Rmax_right by lra. lra.
  - rewrite (Rmin_left TOP (- r)), (Rmin_right TOP r), Rmax_right, Rmax_left by lra. lra.
  - rewrite !Rmin_right by lra. rewrite !Rmax_right by lra. lra.
Qed.
Lemma rndc_opp r : rndc (- r) = - rndc r.
Proof. unfold rndc. rewrite rnd_opp. apply clamp_opp. Qed.
Lemma rndc_0 : rndc 0 = 0.
Proof. unfold rndc. rewrite rnd_0. apply clamp_id. rewrite Rabs_R0. apply Rlt_le, TOP_pos. Qed.

(** For finite operands the rounded difference has the sign of the comparison. *)
Lemma minus_sign x y : finite64 x = true -> finite64 y = true ->
  (0 < xval (b64_minus x y) <-> B2R64 y < B2R64 x) /\
  (xval (b64_minus x y) < 0 <-> B2R64 x < B2R64 y) /\
  (xval (b64_minus x y) = 0 <-> B2R64 x = B2R64 y).
Proof.
  intros Fx Fy. destruct (minus_xval x y Fx Fy) as (_ & ->).
  assert (P : forall x y, B2R64 y < B2R64 x -> 0 < rndc (B2R64 x - B2R64 y)).
  { intros; apply clamp_pos, rnd_minus_pos; assumption. }
  destruct (Rtotal_order (B2R64 x) (B2R64 y)) as [H|[H|H]].
  - specialize (P y x H).
    replace (B2R64 x - B2R64 y) with (- (B2R64 y - B2R64 x)) by ring. rewrite rndc_opp.
    repeat split; intros; lra.
  - rewrite H. replace (B2R64 y - B2R64 y) with 0 by ring. rewrite rndc_0. repeat split; intros; lra.
  - specialize (P x y H). repeat split; intros; lra.
Qed.

Definition zero64 : b64 := b64_ofZ 0.
Lemma xval_zero : xval (b64_ofZ 0) = 0.
Proof. reflexivity. Qed.

Definition same_inf (x y : b64) : bool :=
  match x, y with B754_infinity s, B754_infinity t => Bool.eqb s t | _, _ => false end.

Lemma Rlt_bool_iff a b c d : (a < b <-> c < d) -> Rlt_bool a b = Rlt_bool c d.
Proof. intros H. do 2 case Rlt_bool_spec; intros; try reflexivity; exfalso; [apply H in H1|apply H in H0]; lra. Qed.
Lemma Rle_bool_iff a b c d : (a <= b <-> c <= d) -> Rle_bool a b = Rle_bool c d.
Proof. intros H. do 2 case Rle_bool_spec; intros; try reflexivity; exfalso; [apply H in H1|apply H in H0]; lra. Qed.

(** x - t compared with 0 (both non-NaN; equal infinities give NaN). *)
Lemma minus_cmp x t : nan64 x = false -> nan64 t = false ->
  nan64 (b64_minus x t) = same_inf x t /\
  b64_ltb (b64_ofZ 0) (b64_minus x t) = b64_ltb t x /\
  b64_ltb (b64_minus x t) (b64_ofZ 0) = b64_ltb x t /\
  (same_inf x t = false ->
     b64_leb (b64_ofZ 0) (b64_minus x t) = b64_leb t x /\
     b64_leb (b64_minus x t) (b64_ofZ 0) = b64_leb x t).
Proof.
  intros Nx Nt.
  destruct (finite64 x) eqn:Fx; destruct (finite64 t) eqn:Ft.
  - destruct (minus_xval x t Fx Ft) as (Nm & _).
    pose proof (minus_sign x t Fx Ft) as (H1 & H2 & H3).
    assert (SI : same_inf x t = false) by (destruct x, t; try discriminate; reflexivity).
    rewrite Nm, SI. split; [reflexivity|].
    rewrite !ltb_xval, !leb_xval by (auto; reflexivity).
    rewrite xval_zero. rewrite (xval_finite x), (xval_finite t) by assumption.
    set (m := xval (b64_minus x t)) in *.
    assert (H4 : 0 <= m <-> B2R64 t <= B2R64 x).
    { split; intros; [|].
      - destruct (Rtotal_order m 0) as [Hm|[Hm|Hm]]; [lra|apply H3 in Hm; lra|apply H1 in Hm; lra].
      - destruct (Rtotal_order m 0) as [Hm|[Hm|Hm]]; [apply H2 in Hm; lra|lra|lra]. }
    assert (H5 : m <= 0 <-> B2R64 x <= B2R64 t).
    { split; intros; [|].
      - destruct (Rtotal_order m 0) as [Hm|[Hm|Hm]]; [apply H2 in Hm; lra|apply H3 in Hm; lra|lra].
      - destruct (Rtotal_order m 0) as [Hm|[Hm|Hm]]; [lra|lra|apply H1 in Hm; lra]. }
    split; [apply Rlt_bool_iff; assumption|]. split; [apply Rlt_bool_iff; assumption|].
    intros _. split; apply Rle_bool_iff; assumption.
  - destruct x as [sx|sx| |sx mx ex Hx], t as [st|st| |st mt et Ht]; try discriminate;
      destruct st; try destruct sx; repeat split; reflexivity.
  - destruct x as [sx|sx| |sx mx ex Hx], t as [st|st| |st mt et Ht]; try discriminate;
      destruct sx; try destruct st; repeat split; reflexivity.
  - destruct x as [sx|sx| |sx mx ex Hx], t as [st|st| |st mt et Ht]; try discriminate;
      destruct sx, st; repeat split; try reflexivity; simpl; intros; try discriminate; auto.
Qed.

(** ** Conversion of integers *)
Lemma fexp64_eq e : fexp64 e = Z.max (e - 53) (-1074).
Proof. reflexivity. Qed.

Lemma format_IZR z : (Z.abs z <= 2 ^ 53)%Z -> generic_format radix2 fexp64 (IZR z).
Proof.
  intros H. destruct (Z.eq_dec (Z.abs z) (2 ^ 53)) as [E|E].
  - assert (E2 : IZR z = bpow radix2 53 \/ IZR z = - bpow radix2 53).
    { destruct (Z.abs_spec z) as [[H1 H2]|[H1 H2]]; rewrite E in H2.
      - left. rewrite <- H2. reflexivity.
      - right. replace z with (- 2 ^ 53)%Z by lia. rewrite opp_IZR. reflexivity. }
    assert (G : generic_format radix2 fexp64 (bpow radix2 53)) by (apply generic_format_bpow; rewrite fexp64_eq; lia).
    destruct E2 as [-> | ->]; [assumption|apply generic_format_opp; assumption].
  - replace (IZR z) with (F2R (Float radix2 z 0)) by (unfold F2R; simpl; ring).
    apply generic_format_F2R. intros Hz. unfold cexp. rewrite fexp64_eq.
    assert (M : (mag radix2 (F2R (Float radix2 z 0)) <= 53)%Z).
    { apply mag_le_bpow.
      - unfold F2R; simpl. rewrite Rmult_1_r. apply IZR_neq. assumption.
      - unfold F2R; simpl. rewrite Rmult_1_r. rewrite <- abs_IZR.
        change 9007199254740992 with (IZR (2 ^ 53)). apply IZR_lt. lia. }
    lia.
Qed.

Lemma ofZ_exact z : (Z.abs z <= 2 ^ 53)%Z -> finite64 (b64_ofZ z) = true /\ B2R64 (b64_ofZ z) = IZR z.
Proof.
  intros H. unfold b64_ofZ.
  pose proof (binary_normalize_correct 53 1024 Hprec64 Hmax64 mode_NE z 0 false) as HC.
  cbv zeta in HC. simpl round_mode in HC.
  replace (F2R (Float radix2 z 0)) with (IZR z) in HC by (unfold F2R; simpl; ring).
  rewrite round_generic in HC; auto with typeclass_instances. 2: apply format_IZR; assumption.
  rewrite Rlt_bool_true in HC.
  - destruct HC as (H1 & H2 & _). auto.
  - apply Rle_lt_trans with (bpow radix2 53).
    + rewrite <- abs_IZR. change (bpow radix2 53) with (IZR (2 ^ 53)). apply IZR_le. assumption.
    + apply bpow_lt. reflexivity.
Qed.

(** ** Multiplication by 1 and -1 is exact *)
Lemma mult_1_l v : b64_mult (b64_ofZ 1) v = v.
Proof.
  destruct (nan64 v) eqn:Nv. { destruct v; try discriminate; reflexivity. }
  destruct (finite64 v) eqn:Fv.
  2:{ destruct v as [s|s| |]; try discriminate. destruct s; reflexivity. }
  assert (E1 : B2R64 (b64_ofZ 1) = 1).
  { apply ofZ_exact. simpl. lia. }
  pose proof (Bmult_correct 53 1024 _ _ mode_NE (b64_ofZ 1) v) as H. simpl round_mode in H. fold TOP in H.
  rewrite E1, Rmult_1_l in H. rewrite rnd_format in H.
  rewrite Rlt_bool_true in H by apply abs_B2R_TOP.
  destruct H as (H1 & H2 & H3). fold (b64_mult (b64_ofZ 1) v) in *.
  rewrite Fv, andb_true_r in H2.
  apply B2R_Bsign_inj; auto.
  rewrite H3. 2:{ apply finite_not_nan. rewrite H2. reflexivity. }
  destruct (Bsign v); reflexivity.
Qed.

Lemma mult_m1_l v : b64_mult (b64_ofZ (-1)) v = b64_opp v.
Proof.
  destruct (nan64 v) eqn:Nv. { destruct v; try discriminate; reflexivity. }
  destruct (finite64 v) eqn:Fv.
  2:{ destruct v as [s|s| |]; try discriminate. destruct s; reflexivity. }
  assert (E1 : B2R64 (b64_ofZ (-1)) = -1).
  { apply ofZ_exact. simpl. lia. }
  pose proof (Bmult_correct 53 1024 _ _ mode_NE (b64_ofZ (-1)) v) as H. simpl round_mode in H. fold TOP in H.
  rewrite E1 in H. replace (-1 * B2R64 v) with (B2R64 (b64_opp v)) in H
    by (unfold b64_opp; rewrite B2R_Bopp; ring).
  rewrite rnd_format in H.
  rewrite Rlt_bool_true in H by apply abs_B2R_TOP.
  destruct H as (H1 & H2 & H3). fold (b64_mult (b64_ofZ (-1)) v) in *.
  rewrite Fv, andb_true_r in H2.
  apply B2R_Bsign_inj; auto.
  - rewrite finite_opp. assumption.
  - rewrite H3. 2:{ apply finite_not_nan. rewrite H2. reflexivity. }
    unfold b64_opp. rewrite Bsign_Bopp by assumption. destruct (Bsign v); reflexivity.
Qed.
