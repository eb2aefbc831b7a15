(** * SpotB64: the detector over binary64 *)
From Coq Require Import ZArith List Bool Lia Reals Lra Permutation.
From Flocq Require Import Core.Core IEEE754.BinarySingleNaN.
From Verif Require Import Num NumFacts XMath Ubend UbendFacts Peaks PeaksFacts Brent Estimator Tail P2 P2Facts
  Spot Session SpotFacts B64 B64Facts Spec.
Import ListNotations.
Open Scope Z_scope.

Lemma trunc_ok_b64 : trunc_ok (N := B64).
Proof. repeat split; vm_compute; reflexivity. Qed.

Lemma is_NaN_eq x : is_NaN x = nan64 x.
Proof. destruct x; reflexivity. Qed.
Lemma is_NaN_model x : @XMath.is_nan B64 x = is_NaN x.
Proof. rewrite is_nan_b64. destruct x; reflexivity. Qed.
Lemma same_infinity_eq x y : same_infinity x y = same_inf x y.
Proof. destruct x, y; reflexivity. Qed.

(** ** The exponential: only the conversion can be undefined *)
Lemma to_uint32_undef (x : b64) w : @to_uint32 B64 x = Undef w -> w = CastRange.
Proof.
  unfold to_uint32. destruct (ntrunc (n := B64) x); [|congruence]. destruct (_ && _)%bool; congruence.
Qed.

Lemma xexp_body_undef (fu : FloatUtils B64) rec (x : b64) w :
  (forall y, b64_ltb x (b64_ofZ 0) = true -> y = b64_opp x -> rec y = Undef w -> w = CastRange) ->
  @xexp_body B64 fu rec x = Undef w -> w = CastRange.
Proof.
  intros Hrec. unfold xexp_body. destruct (@XMath.is_nan B64 x); [discriminate|].
  change (@nlt B64) with b64_ltb. change (@nofZ B64) with b64_ofZ. change (@nopp B64) with b64_opp.
  destruct (b64_ltb x (b64_ofZ 0)) eqn:E.
  - destruct (rec (b64_opp x)) eqn:E2; cbn [bind]; [discriminate|]. intros H; injection H as <-. eauto.
  - destruct (b64_ltb (@LOG2 B64) x); [|discriminate].
    destruct (to_uint32 _) eqn:E2; cbn [bind]; [discriminate|]. intros H; injection H as <-.
    eapply to_uint32_undef; eauto.
Qed.

Lemma opp_not_neg x : b64_ltb x (b64_ofZ 0) = true -> b64_ltb (b64_opp x) (b64_ofZ 0) = false.
Proof.
  intros H. apply ltb_true_iff in H as (H1 & H2 & H3).
  rewrite ltb_xval by (rewrite ?nan_opp; assumption). rewrite xval_opp. rewrite xval_zero in *.
  apply Rlt_bool_false. lra.
Qed.

Lemma xexp_undef (fu : FloatUtils B64) (x : b64) w : @xexp B64 fu x = Undef w -> w = CastRange.
Proof.
  unfold xexp. apply xexp_body_undef. intros y H1 ->.
  apply xexp_body_undef. intros y' H2 _. rewrite (opp_not_neg x H1) in H2. discriminate.
Qed.

Lemma exp_safe_b64 fu : exp_safe (c_math (N := B64) fu).
Proof.
  split; cbn; [apply xexp_undef|]. intros a x w. unfold xpow. apply xexp_undef.
Qed.

(** ** Sides *)
Definition sided (low : Z) (s : spot B64) : Prop :=
  (low = 0 /\ s_updown s = b64_ofZ 1) \/ (low <> 0 /\ s_updown s = b64_ofZ (-1)).

Lemma init_fields {N} old q low discard level cap alloc (s : spot N) :
  spot_init old q low discard level cap alloc = (s, 0) ->
  s_q s = q /\ s_level s = level /\ s_discard s = (if Z.eqb discard 0 then 0 else 1) /\
  s_low s = (if Z.eqb low 0 then 0 else 1) /\ s_updown s = (if Z.eqb low 0 then nofZ 1 else nofZ (-1)) /\
  s_at s = c_nan /\ s_et s = c_nan /\ s_Nt s = 0 /\ s_n s = 0 /\
  exists blk, alloc (ubend_bytes cap) = Some blk /\
  s_tail s = MkTail c_nan c_nan (MkPeaks (nofZ 0) (nofZ 0) c_nan c_nan (MkUbend 0 cap c_nan 0 blk)).
Proof.
  unfold spot_init. destruct (spot_check q level) as [code|] eqn:E.
  - intros H; injection H as _ ->. unfold spot_check in E.
    destruct (_ || _)%bool in E; [discriminate|]. destruct (_ || _)%bool in E; discriminate.
  - destruct (alloc (ubend_bytes cap)) as [blk|] eqn:A; cbn.
    + intros H; injection H as <-. cbn. repeat split; auto. eauto.
    + intros H; injection H as _ H. discriminate.
Qed.

Lemma detector_facts {N} (mf : MathFns N) q low discard level cap s :
  detector mf q low discard level cap s ->
  s_q s = q /\ s_level s = level /\ s_discard s = (if Z.eqb discard 0 then 0 else 1) /\
  s_low s = (if Z.eqb low 0 then 0 else 1) /\ s_updown s = (if Z.eqb low 0 then nofZ 1 else nofZ (-1)) /\
  (exists l, wf cap s l).
Proof.
  intros (old & blk & s0 & calls & answers & H1 & H2 & H3 & H4).
  pose proof (init_wf _ _ _ _ _ _ _ _ H1 H2 H3) as W.
  apply init_fields in H3 as (F1 & F2 & F3 & F4 & F5 & _).
  apply (session_wf mf cap s0 [] _ _ _ W) in H4 as ((C1 & C2 & C3 & C4 & C5) & W').
  repeat (split; [congruence|]). assumption.
Qed.

Lemma detector_sided (mf : MathFns B64) q low discard level cap s :
  detector mf q low discard level cap s -> sided low s.
Proof.
  intros H. apply detector_facts in H as (_ & _ & _ & _ & H & _). unfold sided. rewrite H.
  destruct (Z.eqb_spec low 0); [left|right]; auto.
Qed.

(** Sign tests of the code = comparisons. *)
Lemma minus_nan_r x t : nan64 t = true -> b64_minus x t = B754_nan.
Proof. destruct t; try discriminate. destruct x; reflexivity. Qed.
Lemma minus_nan_l x t : nan64 x = true -> b64_minus x t = B754_nan.
Proof. destruct x; try discriminate. destruct t; reflexivity. Qed.
Lemma opp_nan : b64_opp B754_nan = B754_nan.
Proof. reflexivity. Qed.

Lemma zero_ltb_opp y : b64_ltb (b64_ofZ 0) (b64_opp y) = b64_ltb y (b64_ofZ 0).
Proof.
  destruct (nan64 y) eqn:Ny. { destruct y; try discriminate. reflexivity. }
  rewrite !ltb_xval by (rewrite ?nan_opp; auto). rewrite xval_opp, xval_zero.
  apply Rlt_bool_iff. lra.
Qed.
Lemma zero_leb_opp y : b64_leb (b64_ofZ 0) (b64_opp y) = b64_leb y (b64_ofZ 0).
Proof.
  destruct (nan64 y) eqn:Ny. { destruct y; try discriminate. reflexivity. }
  rewrite !leb_xval by (rewrite ?nan_opp; auto). rewrite xval_opp, xval_zero.
  apply Rle_bool_iff. lra.
Qed.

Lemma excess_gt_0 low s t x : sided low s ->
  b64_ltb (b64_ofZ 0) (b64_mult (s_updown s) (b64_minus x t)) = beyond low t x.
Proof.
  intros S. unfold beyond.
  destruct (nan64 t) eqn:Nt.
  { rewrite minus_nan_r by assumption.
    destruct S as [(-> & ->)|(H & ->)]; [|destruct (Z.eqb_spec low 0); [contradiction|]].
    - rewrite mult_1_l. cbn. destruct t, x; try discriminate; reflexivity.
    - rewrite mult_m1_l. cbn. destruct t, x; try discriminate; reflexivity. }
  destruct (nan64 x) eqn:Nx.
  { rewrite minus_nan_l by assumption.
    destruct S as [(-> & ->)|(H & ->)]; [|destruct (Z.eqb_spec low 0); [contradiction|]].
    - rewrite mult_1_l. cbn. destruct t, x; try discriminate; reflexivity.
    - rewrite mult_m1_l. cbn. destruct t, x; try discriminate; reflexivity. }
  pose proof (minus_cmp x t Nx Nt) as (_ & H1 & H2 & _).
  destruct S as [(-> & ->)|(H & ->)].
  - rewrite mult_1_l. exact H1.
  - destruct (Z.eqb_spec low 0); [contradiction|].
    rewrite mult_m1_l, zero_ltb_opp. exact H2.
Qed.

Lemma excess_ge_0 low s t x : sided low s -> nan64 x = false ->
  b64_leb (b64_ofZ 0) (b64_mult (s_updown s) (b64_minus x t)) =
  (at_or_beyond low t x && negb (same_inf x t))%bool.
Proof.
  intros S Nx. unfold at_or_beyond.
  destruct (nan64 t) eqn:Nt.
  { rewrite minus_nan_r by assumption.
    destruct S as [(-> & ->)|(H & ->)]; [|destruct (Z.eqb_spec low 0); [contradiction|]].
    - rewrite mult_1_l. cbn. destruct t, x; try discriminate; reflexivity.
    - rewrite mult_m1_l. cbn. destruct t, x; try discriminate; reflexivity. }
  pose proof (minus_cmp x t Nx Nt) as (H0 & _ & _ & H).
  destruct (same_inf x t).
  { assert (E : b64_minus x t = B754_nan) by (destruct (b64_minus x t); try discriminate; reflexivity).
    rewrite E. rewrite andb_false_r.
    destruct S as [(-> & ->)|(Hl & ->)]; rewrite ?mult_1_l, ?mult_m1_l; reflexivity. }
  rewrite andb_true_r. destruct (H eq_refl) as (H1 & H2).
  destruct S as [(-> & ->)|(Hl & ->)].
  - rewrite mult_1_l. exact H1.
  - destruct (Z.eqb_spec low 0); [contradiction|].
    rewrite mult_m1_l, zero_leb_opp. exact H2.
Qed.
