(** * FloatUtilsLemmas: musl_ldexp and musl_frexp (C27, C28) *)
From Coq Require Import ZArith List Bool Lia Reals Lra.
From Flocq Require Import Core.Core Mult_error IEEE754.BinarySingleNaN IEEE754.Bits.
From Flocq Require IEEE754.Binary.
From Verif Require Import Num NumFacts XMath B64 B64Facts Spec SpotB64 P2B64.
Import ListNotations.
Open Scope Z_scope.

(** ** Correct rounding *)
(** [v] is [r] rounded once to nearest even, with sign [s] when it is a zero or an infinity *)
Definition CR (r : R) (s : bool) (v : b64) : Prop :=
  if Rlt_bool (Rabs (rnd r)) TOP then B2R64 v = rnd r /\ finite64 v = true /\ Bsign v = s
  else v = B754_infinity s.

Lemma CR_unique r s v w : CR r s v -> CR r s w -> v = w.
Proof.
  unfold CR. destruct (Rlt_bool _ _).
  - intros (A1 & A2 & A3) (B1 & B2 & B3). apply B2R_Bsign_inj; congruence.
  - congruence.
Qed.

Lemma CR_mult x p : finite64 x = true -> finite64 p = true -> Bsign p = false -> CR (B2R64 x * B2R64 p) (Bsign x) (b64_mult x p).
Proof.
  intros Fx Fp Sp. unfold CR. pose proof (Bmult_correct 53 1024 _ _ mode_NE x p) as H. fold TOP in H.
  change (round radix2 fexp64 (round_mode mode_NE)) with rnd in H.
  destruct (Rlt_bool _ _).
  - destruct H as (H1 & H2 & H3). rewrite Fx, Fp in H2. cbn [andb] in H2.
    split; [exact H1|]. split; [exact H2|]. unfold b64_mult. rewrite H3. { rewrite Sp. apply xorb_false_r. }
    apply finite_not_nan. exact H2.
  - apply B2SF_inf. unfold b64_mult. rewrite H, Sp, xorb_false_r. reflexivity.
Qed.

Lemma CR_ldexp x n : finite64 x = true -> CR (B2R64 x * bpow radix2 n) (Bsign x) (Bldexp mode_NE x n).
Proof.
  intros Fx. unfold CR. pose proof (Bldexp_correct 53 1024 _ _ mode_NE x n) as H. fold TOP in H.
  change (round radix2 fexp64 (round_mode mode_NE)) with rnd in H.
  destruct (Rlt_bool _ _).
  - rewrite Fx in H. exact H.
  - apply B2SF_inf. exact H.
Qed.

Definition pow2 (n : Z) (p : b64) : Prop := B2R64 p = bpow radix2 n /\ finite64 p = true /\ Bsign p = false.

Lemma CR_pow x n p : finite64 x = true -> pow2 n p -> CR (B2R64 x * bpow radix2 n) (Bsign x) (b64_mult x p).
Proof. intros Fx (E & F & S). rewrite <- E. apply CR_mult; assumption. Qed.

Lemma inf_pow s n p : pow2 n p -> b64_mult (B754_infinity s) p = B754_infinity s.
Proof.
  intros (E & F & S). destruct p as [t|t| |t m e H]; cbn in *; try discriminate.
  - exfalso. pose proof (bpow_gt_0 radix2 n). lra.
  - subst t. rewrite xorb_false_r. reflexivity.
Qed.

(** scaling up is exact *)
Lemma format_scale x e : (-1074 + 53 - mag radix2 (B2R64 x) <= e)%Z -> rnd (B2R64 x * bpow radix2 e) = (B2R64 x * bpow radix2 e)%R.
Proof.
  intros H. apply round_generic; auto with typeclass_instances.
  change fexp64 with (FLT_exp (-1074) 53). apply mult_bpow_exact_FLT; [|exact H].
  change (FLT_exp (-1074) 53) with fexp64. apply generic_format_B2R.
Qed.

Lemma format_scale_up x e : (0 <= e)%Z -> rnd (B2R64 x * bpow radix2 e) = (B2R64 x * bpow radix2 e)%R.
Proof.
  intros He. apply round_generic; auto with typeclass_instances.
  pose proof (generic_format_B2R 53 1024 x) as G.
  replace (B2R64 x * bpow radix2 e)%R with
    (F2R (Float radix2 (Ztrunc (scaled_mantissa radix2 fexp64 (B2R64 x))) (cexp radix2 fexp64 (B2R64 x) + e))).
  2:{ rewrite G at 3. unfold F2R; cbn [Fnum Fexp]. rewrite bpow_plus. ring. }
  apply generic_format_F2R. intros Hm.
  set (f := F2R (Float radix2 (Ztrunc (scaled_mantissa radix2 fexp64 (B2R64 x))) (cexp radix2 fexp64 (B2R64 x) + e))).
  assert (E : f = (B2R64 x * bpow radix2 e)%R).
  { unfold f. rewrite G at 3. unfold F2R; cbn [Fnum Fexp]. rewrite bpow_plus. ring. }
  assert (Nx : B2R64 x <> 0%R).
  { intros H0. apply Hm. rewrite H0. unfold scaled_mantissa. rewrite Rmult_0_l. apply Ztrunc_IZR. }
  unfold cexp at 1. rewrite E, mag_mult_bpow by assumption. unfold cexp. rewrite !fexp64_eq. lia.
Qed.

Lemma TOP_le_up x a b : (0 <= a)%Z -> (0 <= b)%Z -> (TOP <= Rabs (rnd (B2R64 x * bpow radix2 a)))%R ->
  (TOP <= Rabs (rnd (B2R64 x * bpow radix2 (a + b))))%R.
Proof.
  intros Ha Hb. rewrite !format_scale_up by lia. rewrite !Rabs_mult, bpow_plus, Rabs_mult. intros H.
  rewrite (Rabs_pos_eq (bpow radix2 b)) by apply bpow_ge_0.
  assert (1 <= bpow radix2 b)%R. { change 1%R with (bpow radix2 0). apply bpow_le. lia. }
  apply Rle_trans with (1 := H). rewrite <- Rmult_assoc. rewrite <- (Rmult_1_r (_ * _)) at 1.
  apply Rmult_le_compat_l; [|assumption]. apply Rmult_le_pos; apply Rabs_pos.
Qed.

Lemma CR_up x a y b p : finite64 x = true -> 0 <= a -> 0 <= b -> CR (B2R64 x * bpow radix2 a) (Bsign x) y -> pow2 b p ->
  CR (B2R64 x * bpow radix2 (a + b)) (Bsign x) (b64_mult y p).
Proof.
  intros Fx Ha Hb Hy Hp. unfold CR in Hy. revert Hy. case Rlt_bool_spec; intros C.
  - intros (Ey & Fy & Sy). rewrite format_scale_up in Ey by assumption.
    pose proof (CR_pow y b p Fy Hp) as K. rewrite Ey, Sy in K. rewrite bpow_plus, <- Rmult_assoc. exact K.
  - intros ->. rewrite (inf_pow _ b) by assumption. unfold CR. rewrite Rlt_bool_false; [reflexivity|].
    apply TOP_le_up; assumption.
Qed.

(** tiny values round to zero *)
Lemma rnd_tiny r : (Rabs r < bpow radix2 (-1075))%R -> rnd r = 0%R.
Proof.
  intros H. destruct (Req_dec r 0) as [->|Hr]; [apply rnd_0|].
  destruct (mag radix2 r) as (e & He). specialize (He Hr).
  apply round_N_small with e; [exact He|]. rewrite fexp64_eq.
  assert (e - 1 < -1075)%Z; [|lia]. apply (lt_bpow radix2). lra.
Qed.

Lemma rnd_le_bpow r e : (-1074 <= e)%Z -> (Rabs r <= bpow radix2 e)%R -> (Rabs (rnd r) <= bpow radix2 e)%R.
Proof.
  intros He H. apply Rabs_le. apply Rabs_le_inv in H. rewrite <- (rnd_bpow e) by assumption. rewrite <- rnd_opp.
  split; apply round_le; auto with typeclass_instances; lra.
Qed.

Lemma CR_down x a y b p : finite64 x = true -> a <= 0 -> b <= -54 -> CR (B2R64 x * bpow radix2 a) (Bsign x) y -> pow2 b p ->
  CR (B2R64 x * bpow radix2 (a + b)) (Bsign x) (b64_mult y p).
Proof.
  intros Fx Ha Hb Hy Hp. pose proof TOP_pos as TP.
  assert (NO : forall c, (c <= 0)%Z -> (Rabs (rnd (B2R64 x * bpow radix2 c)) < TOP)%R).
  { intros c Hc. apply Rle_lt_trans with (Rabs (B2R64 x)); [|apply abs_B2R_TOP].
    assert (L1 : (bpow radix2 c <= 1)%R). { change 1%R with (bpow radix2 0). apply bpow_le. lia. }
    assert (L0 : (0 < bpow radix2 c)%R) by apply bpow_gt_0.
    destruct (Rle_dec 0 (B2R64 x)) as [P|P].
    - rewrite (Rabs_pos_eq (B2R64 x)) by assumption. rewrite Rabs_pos_eq.
      2:{ apply rnd_nonneg. apply Rmult_le_pos; lra. }
      rewrite <- (rnd_format x) at 2. apply round_le; auto with typeclass_instances.
      rewrite <- (Rmult_1_r (B2R64 x)) at 2. apply Rmult_le_compat_l; assumption.
    - rewrite (Rabs_left1 (B2R64 x)) by lra. rewrite Rabs_left1.
      2:{ apply rnd_nonpos. rewrite <- (Rmult_0_l (bpow radix2 c)). apply Rmult_le_compat_r; lra. }
      apply Ropp_le_contravar. rewrite <- (rnd_format x) at 1. apply round_le; auto with typeclass_instances.
      rewrite <- (Rmult_1_r (B2R64 x)) at 1. apply Rmult_le_compat_neg_l; lra. }
  unfold CR in Hy. rewrite Rlt_bool_true in Hy by (apply NO; assumption). destruct Hy as (Ey & Fy & Sy).
  pose proof (CR_pow y b p Fy Hp) as K. rewrite Sy, Ey in K.
  destruct (Rle_dec (bpow radix2 (-1022)) (Rabs (B2R64 x * bpow radix2 a))) as [G|G].
  - (* the first product is exact *)
    rewrite format_scale in K. { rewrite bpow_plus, <- Rmult_assoc. exact K. }
    assert (Nx : B2R64 x <> 0%R). { intros H0. rewrite H0, Rmult_0_l, Rabs_R0 in G. pose proof (bpow_gt_0 radix2 (-1022)). lra. }
    pose proof (bpow_mag_gt radix2 (B2R64 x * bpow radix2 a)) as M. rewrite mag_mult_bpow in M by assumption.
    assert (-1022 < mag radix2 (B2R64 x) + a)%Z; [|lia]. apply (lt_bpow radix2). lra.
  - (* everything rounds to zero *)
    apply Rnot_le_lt in G.
    assert (L : forall v, (Rabs v <= bpow radix2 (-1022))%R -> rnd (v * bpow radix2 b) = 0%R).
    { intros v Hv. apply rnd_tiny. rewrite Rabs_mult, (Rabs_pos_eq (bpow radix2 b)) by apply bpow_ge_0.
      apply Rle_lt_trans with (bpow radix2 (-1022) * bpow radix2 (-54))%R.
      - apply Rmult_le_compat; try apply Rabs_pos; try apply bpow_ge_0; [assumption|]. apply bpow_le. lia.
      - rewrite <- bpow_plus. apply bpow_lt. lia. }
    unfold CR in *. rewrite L in K. 2:{ apply rnd_le_bpow; [lia|lra]. }
    rewrite bpow_plus, <- Rmult_assoc. rewrite L by lra. exact K.
Qed.

(** ** Powers of two built from bits *)
Lemma bounded_pow n : -1022 <= n <= 1023 -> SpecFloat.bounded 53 1024 (2 ^ 52) (n - 52) = true.
Proof.
  intros H. unfold SpecFloat.bounded. apply andb_true_intro. split.
  - unfold SpecFloat.canonical_mantissa. change (Zpos (SpecFloat.digits2_pos (2 ^ 52))) with 53.
    apply Zeq_bool_true. rewrite fexp64_eq. lia.
  - apply Z.leb_le. lia.
Qed.

Lemma of_bits_pow n : -1022 <= n <= 1023 ->
  pow2 n (of_bits (u64 (Z.shiftl (u64 (0x3ff + n)) 52))).
Proof.
  intros H. rewrite (u64_small (0x3ff + n)) by lia. rewrite Z.shiftl_mul_pow2 by lia. rewrite u64_small by lia.
  set (y := Binary.B754_finite 53 1024 false (2 ^ 52) (n - 52) (bounded_pow n H)).
  assert (E : bits_of_b64 y = (1023 + n) * 2 ^ 52).
  { unfold bits_of_b64, bits_of_binary_float, y. change (Z.pos (2 ^ 52) - 2 ^ 52) with 0. cbn [Z.leb Z.compare].
    unfold join_bits. rewrite Z.shiftl_mul_pow2 by lia.
    change (0 + (n - 52 - SpecFloat.emin (52 + 1) (2 ^ (11 - 1)) + 1)) with (n - 52 - (-1074) + 1). ring. }
  change 0x3ff with 1023. rewrite <- E. unfold of_bits, b64_of_bits, bits_of_b64. rewrite binary_float_of_bits_of_binary_float.
  unfold y, pow2. cbn [Binary.B2BSN]. split; [|split; reflexivity].
  cbn [B2R Bsign]. unfold F2R; cbn [Fnum Fexp cond_Zopp]. change (IZR (Z.pos (2 ^ 52))) with (IZR (Zpower radix2 52)).
  rewrite IZR_Zpower by lia. rewrite <- bpow_plus. f_equal. lia.
Qed.

Lemma pow2_1023 : pow2 1023 two1023.
Proof.
  unfold two1023, b64_ofZ.
  pose proof (binary_normalize_correct 53 1024 Hprec64 Hmax64 mode_NE (2 ^ 1023) 0 false) as H.
  assert (E : F2R (Float radix2 (2 ^ 1023) 0) = bpow radix2 1023).
  { unfold F2R; cbn [Fnum Fexp]. change (bpow radix2 0) with 1%R. rewrite Rmult_1_r.
    change (2 ^ 1023) with (Zpower radix2 1023). apply IZR_Zpower. lia. }
  rewrite E in H. change (round radix2 fexp64 (round_mode mode_NE)) with rnd in H.
  cbv zeta in H.
  rewrite rnd_bpow in H by lia. rewrite Rlt_bool_true in H.
  - destruct H as (H1 & H2 & H3). split; [exact H1|]. split; [exact H2|].
    rewrite H3. rewrite Rcompare_Gt; [reflexivity|]. apply bpow_gt_0.
  - rewrite Rabs_pos_eq by apply bpow_ge_0. apply bpow_lt. lia.
Qed.

Lemma pow2_m969 : pow2 (-969) twom969.
Proof.
  assert (E : B2SF twom969 = SpecFloat.S754_finite false (2 ^ 52) (-1021)) by (vm_compute; reflexivity).
  destruct twom969 as [s|s| |s m e H]; cbn in E; try discriminate. injection E as -> -> ->.
  split; [|split; reflexivity]. cbn [B2R]. unfold F2R; cbn [Fnum Fexp cond_Zopp].
  match goal with |- (?m * bpow radix2 (-1021))%R = _ => change m with (bpow radix2 52) end.
  rewrite <- bpow_plus. reflexivity.
Qed.

(** ** C27 *)
Lemma ldexp_finite x n : finite64 x = true -> CR (B2R64 x * bpow radix2 n) (Bsign x) (musl_ldexp x n).
Proof.
  intros Fx. pose proof pow2_1023 as P1. pose proof pow2_m969 as P2.
  assert (ZERO : B2R64 x = 0%R -> forall c y, CR (B2R64 x * bpow radix2 c) (Bsign x) y -> CR (B2R64 x * bpow radix2 n) (Bsign x) y).
  { intros Z c y. rewrite Z, !Rmult_0_l. auto. }
  unfold musl_ldexp, musl_ldexp_scale.
  destruct (Z.ltb_spec 1023 n) as [C1|C1].
  - destruct (Z.ltb_spec 1023 (n - 1023)) as [C2|C2].
    + pose proof (CR_pow x _ _ Fx P1) as K1. pose proof (CR_up x 1023 _ 1023 _ Fx ltac:(lia) ltac:(lia) K1 P1) as K2.
      destruct (Z.ltb_spec 1023 (n - 1023 - 1023)) as [C3|C3].
      * pose proof (CR_up x (1023 + 1023) _ 1023 _ Fx ltac:(lia) ltac:(lia) K2 (of_bits_pow 1023 ltac:(lia))) as K3.
        destruct (Req_dec (B2R64 x) 0) as [Z|NZ]; [apply (ZERO Z _ _ K3)|].
        assert (BIG : forall c, (3069 <= c)%Z -> (TOP <= Rabs (rnd (B2R64 x * bpow radix2 c)))%R).
        { intros c Hc. rewrite format_scale_up by lia. rewrite Rabs_mult, (Rabs_pos_eq (bpow radix2 c)) by apply bpow_ge_0.
          assert (L : (bpow radix2 (-1074) <= Rabs (B2R64 x))%R).
          { destruct (Rlt_dec 0 (B2R64 x)) as [P|P].
            - rewrite Rabs_pos_eq by lra. pose proof (diff_min (b64_ofZ 0) x) as D. change (B2R64 (b64_ofZ 0)) with 0%R in D. rewrite Rminus_0_r in D. auto.
            - rewrite Rabs_left1 by lra. pose proof (diff_min x (b64_ofZ 0)) as D. change (B2R64 (b64_ofZ 0)) with 0%R in D.
              rewrite Rminus_0_l in D. apply D. lra. }
          apply Rle_trans with (bpow radix2 (-1074) * bpow radix2 c)%R.
          - rewrite <- bpow_plus. unfold TOP. apply bpow_le. lia.
          - apply Rmult_le_compat_r; [apply bpow_ge_0|assumption]. }
        unfold CR in *. rewrite Rlt_bool_false in K3 by (apply BIG; lia). rewrite Rlt_bool_false by (apply BIG; lia). exact K3.
      * pose proof (CR_up x (1023 + 1023) _ (n - 1023 - 1023) _ Fx ltac:(lia) ltac:(lia) K2 (of_bits_pow (n - 1023 - 1023) ltac:(lia))) as K3.
        replace n with (1023 + 1023 + (n - 1023 - 1023)) at 1 by lia. exact K3.
    + pose proof (CR_pow x _ _ Fx P1) as K1.
      pose proof (CR_up x 1023 _ (n - 1023) _ Fx ltac:(lia) ltac:(lia) K1 (of_bits_pow (n - 1023) ltac:(lia))) as K2.
      replace n with (1023 + (n - 1023)) at 1 by lia. exact K2.
  - destruct (Z.ltb_spec n (-1022)) as [C2|C2].
    + change (1022 - 53) with 969 in *.
      pose proof (CR_pow x _ _ Fx P2) as K1.
      destruct (Z.ltb_spec (n + 969) (-1022)) as [C3|C3].
      * pose proof (CR_down x (-969) _ (-969) _ Fx ltac:(lia) ltac:(lia) K1 P2) as K2.
        destruct (Z.ltb_spec (n + 969 + 969) (-1022)) as [C4|C4].
        -- pose proof (CR_down x (-969 + -969) _ (-1022) _ Fx ltac:(lia) ltac:(lia) K2 (of_bits_pow (-1022) ltac:(lia))) as K3.
           assert (SMALL : forall c, (c <= -2960)%Z -> rnd (B2R64 x * bpow radix2 c) = 0%R).
           { intros c Hc. apply rnd_tiny. rewrite Rabs_mult, (Rabs_pos_eq (bpow radix2 c)) by apply bpow_ge_0.
             apply Rlt_le_trans with (TOP * bpow radix2 c)%R.
             - apply Rmult_lt_compat_r; [apply bpow_gt_0|apply abs_B2R_TOP].
             - unfold TOP. rewrite <- bpow_plus. apply bpow_le. lia. }
           unfold CR in *. rewrite SMALL in K3 by lia. rewrite SMALL by lia. exact K3.
        -- pose proof (CR_down x (-969 + -969) _ (n + 969 + 969) _ Fx ltac:(lia) ltac:(lia) K2 (of_bits_pow (n + 969 + 969) ltac:(lia))) as K3.
           replace n with (-969 + -969 + (n + 969 + 969)) at 1 by lia. exact K3.
      * pose proof (CR_down x (-969) _ (n + 969) _ Fx ltac:(lia) ltac:(lia) K1 (of_bits_pow (n + 969) ltac:(lia))) as K2.
        replace n with (-969 + (n + 969)) at 1 by lia. exact K2.
    + apply CR_pow; [assumption|]. apply of_bits_pow. lia.
Qed.

Lemma mult_nan y : b64_mult B754_nan y = B754_nan.
Proof. destruct y; reflexivity. Qed.
Lemma ldexp_nan n : musl_ldexp B754_nan n = B754_nan.
Proof. unfold musl_ldexp, musl_ldexp_scale. repeat destruct (_ <? _); rewrite ?mult_nan; reflexivity. Qed.
Lemma ldexp_inf s n : musl_ldexp (B754_infinity s) n = B754_infinity s.
Proof.
  unfold musl_ldexp, musl_ldexp_scale.
  destruct (Z.ltb_spec 1023 n) as [C1|C1].
  - destruct (Z.ltb_spec 1023 (n - 1023)) as [C2|C2]; [destruct (Z.ltb_spec 1023 (n - 1023 - 1023)) as [C3|C3]|];
      rewrite ?(inf_pow _ _ _ pow2_1023); (eapply inf_pow; apply of_bits_pow; lia).
  - destruct (Z.ltb_spec n (-1022)) as [C2|C2].
    + destruct (Z.ltb_spec (n + (1022 - 53)) (-1022)) as [C3|C3]; [destruct (Z.ltb_spec (n + (1022 - 53) + (1022 - 53)) (-1022)) as [C4|C4]|];
      rewrite ?(inf_pow _ _ _ pow2_m969); (eapply inf_pow; apply of_bits_pow; lia).
    + eapply inf_pow; apply of_bits_pow; lia.
Qed.

Lemma C27_lemma (x : b64) n :
  (is_finite x = true ->
     let r := rnd (B2R64 x * bpow radix2 n) in
     ((Rabs r < TOP)%R -> is_finite (musl_ldexp x n) = true /\ B2R64 (musl_ldexp x n) = r /\ Bsign (musl_ldexp x n) = Bsign x) /\
     ((TOP <= Rabs r)%R -> musl_ldexp x n = B754_infinity (Bsign x))) /\
  (is_finite x = false -> musl_ldexp x n = x).
Proof.
  split.
  - intros F r. assert (Fx : finite64 x = true) by (destruct x; assumption).
    pose proof (ldexp_finite x n Fx) as K. unfold CR in K. fold r in K. split; intros H.
    + rewrite Rlt_bool_true in K by assumption. destruct K as (K1 & K2 & K3). repeat split; try assumption.
    + rewrite Rlt_bool_false in K by assumption. exact K.
  - intros F. destruct x as [s|s| |s m e H]; try discriminate; [apply ldexp_inf|apply ldexp_nan].
Qed.

Lemma C27_flocq_lemma (x : b64) n : musl_ldexp x n = Bldexp mode_NE x n.
Proof.
  destruct (finite64 x) eqn:F.
  - apply (CR_unique (B2R64 x * bpow radix2 n) (Bsign x)); [apply ldexp_finite|apply CR_ldexp]; assumption.
  - destruct x; try discriminate; [apply ldexp_inf|apply ldexp_nan].
Qed.

(** ** C28 *)
Lemma bit_split lo hi n : 0 <= lo < 2 ^ 52 -> 0 <= n ->
  Z.testbit (lo + hi * 2 ^ 52) n = if n <? 52 then Z.testbit lo n else Z.testbit hi (n - 52).
Proof.
  intros Hlo Hn. destruct (Z.ltb_spec n 52) as [C|C].
  - rewrite <- (Z.mod_pow2_bits_low (lo + hi * 2 ^ 52) 52 n) by lia. rewrite Z.mod_add by lia. rewrite Z.mod_small by lia. reflexivity.
  - replace n with (n - 52 + 52) at 1 by lia. rewrite <- Z.div_pow2_bits by lia. rewrite Z.div_add by lia.
    rewrite Z.div_small by lia. reflexivity.
Qed.

Lemma mask_hi (s : bool) ee : 0 <= ee < 2048 ->
  Z.lor (Z.land ((if s then 2 ^ 11 else 0) + ee) 0x800) 0x3fe = (if s then 2 ^ 11 else 0) + 0x3fe.
Proof.
  intros H.
  assert (A : forallb (fun k => forallb (fun s : bool => Z.lor (Z.land ((if s then 2 ^ 11 else 0) + Z.of_nat k) 0x800) 0x3fe =? (if s then 2 ^ 11 else 0) + 0x3fe) [true; false])
     (seq 0 2048) = true) by (vm_compute; reflexivity).
  rewrite forallb_forall in A. specialize (A (Z.to_nat ee)). rewrite Z2Nat.id in A by lia.
  assert (B : In (Z.to_nat ee) (seq 0 2048)) by (apply in_seq; lia). specialize (A B).
  cbn [forallb] in A. apply andb_prop in A as (A1 & A2). apply andb_prop in A2 as (A2 & _).
  destruct s; apply Z.eqb_eq; assumption.
Qed.

Lemma mask_all (s : bool) lo ee : 0 <= lo < 2 ^ 52 -> 0 <= ee < 2048 ->
  Z.lor (Z.land (lo + ((if s then 2 ^ 11 else 0) + ee) * 2 ^ 52) 0x800fffffffffffff) 0x3fe0000000000000 =
    lo + ((if s then 2 ^ 11 else 0) + 0x3fe) * 2 ^ 52.
Proof.
  intros Hlo He. apply Z.bits_inj'. intros n Hn. rewrite Z.lor_spec, Z.land_spec.
  change 0x800fffffffffffff with (Z.ones 52 + 0x800 * 2 ^ 52). change 0x3fe0000000000000 with (0 + 0x3fe * 2 ^ 52).
  rewrite !bit_split by (try assumption; try (cbn; lia)).
  destruct (Z.ltb_spec n 52) as [C|C].
  - rewrite Z.ones_spec_low by lia. rewrite Z.testbit_0_l, andb_true_r, orb_false_r. reflexivity.
  - rewrite <- Z.land_spec, <- Z.lor_spec. rewrite mask_hi by assumption. reflexivity.
Qed.

Lemma exp_field (s : bool) lo ee : 0 <= lo < 2 ^ 52 -> 0 <= ee < 2048 ->
  Z.land (Z.shiftr (lo + ((if s then 2 ^ 11 else 0) + ee) * 2 ^ 52) 52) 0x7ff = ee.
Proof.
  intros Hlo He. rewrite Z.shiftr_div_pow2 by lia. rewrite Z.div_add by lia. rewrite Z.div_small by lia. rewrite Z.add_0_l.
  change 0x7ff with (Z.ones 11). rewrite Z.land_ones by lia.
  replace ((if s then 2 ^ 11 else 0) + ee) with (ee + (if s then 1 else 0) * 2 ^ 11) by (destruct s; lia).
  rewrite Z.mod_add by lia. apply Z.mod_small. lia.
Qed.

Lemma to_bits_finite s m e H : to_bits (B754_finite s m e H) =
  if 2 ^ 52 <=? Zpos m then (Zpos m - 2 ^ 52) + ((if s then 2 ^ 11 else 0) + (e + 1075)) * 2 ^ 52
  else Zpos m + ((if s then 2 ^ 11 else 0) + 0) * 2 ^ 52.
Proof.
  unfold to_bits, bits_of_b64, bits_of_binary_float, Binary.BSN2B.
  change (Z.pow 2 52) with 4503599627370496.
  assert (C : Zle_bool 0 (Zpos m - 4503599627370496) = (4503599627370496 <=? Z.pos m)).
  { destruct (Z.leb_spec 4503599627370496 (Zpos m)); [apply Z.leb_le|apply Z.leb_gt]; lia. }
  cbv zeta. rewrite C. destruct (4503599627370496 <=? Z.pos m).
  - unfold join_bits. rewrite Z.shiftl_mul_pow2 by lia. change (SpecFloat.emin (52 + 1) (2 ^ (11 - 1))) with (-1074).
    change (2 ^ 52) with 4503599627370496. ring.
  - unfold join_bits. rewrite Z.shiftl_mul_pow2 by lia. change (2 ^ 52) with 4503599627370496. ring.
Qed.

Lemma bounded_inv m e : SpecFloat.bounded 53 1024 m e = true ->
  Zpos m < 2 ^ 53 /\ -1074 <= e <= 971 /\ (Zpos m < 2 ^ 52 -> e = -1074).
Proof.
  intros H. apply andb_prop in H as (H1 & H2). apply Z.leb_le in H2. unfold SpecFloat.canonical_mantissa in H1.
  apply Zeq_bool_eq in H1. rewrite fexp64_eq in H1.
  pose proof (Zpos_digits2_pos m) as D. change (digits2_pos m) with (SpecFloat.digits2_pos m) in D. rewrite D in H1.
  pose proof (Zdigits_correct radix2 (Zpos m)) as (L & U). rewrite Z.abs_eq in L, U by lia.
  set (g := Zdigits radix2 (Z.pos m)) in *. change (radix2 ^ ?k) with (2 ^ k) in *.
  assert (G0 : 0 < g) by (apply Zdigits_gt_0; lia).
  repeat split; try lia.
  - apply Z.lt_le_trans with (1 := U). apply Z.pow_le_mono_r; lia.
  - intros Hm. assert (g - 1 < 52); [|lia].
    apply (Z.pow_lt_mono_r_iff 2); lia.
Qed.

Lemma bounded_half m : 2 ^ 52 <= Zpos m < 2 ^ 53 -> SpecFloat.bounded 53 1024 m (-53) = true.
Proof.
  intros H. unfold SpecFloat.bounded. apply andb_true_intro. split; [|reflexivity].
  unfold SpecFloat.canonical_mantissa. apply Zeq_bool_true.
  pose proof (Zpos_digits2_pos m) as D. change (digits2_pos m) with (SpecFloat.digits2_pos m) in D. rewrite D.
  rewrite (Zdigits_unique radix2 (Zpos m) 53); [reflexivity|]. rewrite Z.abs_eq by lia. exact H.
Qed.

Lemma of_bits_half (s : bool) m (H : 2 ^ 52 <= Zpos m < 2 ^ 53) :
  of_bits ((Zpos m - 2 ^ 52) + ((if s then 2 ^ 11 else 0) + 0x3fe) * 2 ^ 52) = B754_finite s m (-53) (bounded_half m H).
Proof.
  set (y := Binary.B754_finite 53 1024 s m (-53) (bounded_half m H)).
  assert (E : bits_of_b64 y = (Zpos m - 2 ^ 52) + ((if s then 2 ^ 11 else 0) + 0x3fe) * 2 ^ 52).
  { pose proof (to_bits_finite s m (-53) (bounded_half m H)) as K. unfold to_bits in K. cbn [Binary.BSN2B] in K.
    rewrite (proj2 (Z.leb_le _ _) (proj1 H)) in K. exact K. }
  rewrite <- E. unfold of_bits, b64_of_bits, bits_of_b64. rewrite binary_float_of_bits_of_binary_float. reflexivity.
Qed.

(** a normal number *)
Lemma frexp_normal rec s m e H e0 : 2 ^ 52 <= Zpos m ->
  exists H', musl_frexp_body rec (B754_finite s m e H) e0 = (B754_finite s m (-53) H', e + 53).
Proof.
  intros Hm. pose proof (bounded_inv m e H) as (H1 & H2 & _).
  unfold musl_frexp_body. rewrite to_bits_finite. rewrite (proj2 (Z.leb_le _ _) Hm).
  rewrite exp_field by lia. rewrite (proj2 (Z.eqb_neq _ _)) by lia. rewrite (proj2 (Z.eqb_neq (e + 1075) _)) by lia.
  rewrite mask_all by lia. assert (Hm' : 2 ^ 52 <= Zpos m < 2 ^ 53) by lia.
  rewrite (of_bits_half s m Hm'). exists (bounded_half m Hm'). f_equal. lia.
Qed.

Definition half_open (m : b64) : Prop := is_finite m = true /\ (1 / 2 <= Rabs (B2R64 m) < 1)%R.

Lemma half_range s m (H : SpecFloat.bounded 53 1024 m (-53) = true) : 2 ^ 52 <= Zpos m < 2 ^ 53 ->
  half_open (B754_finite s m (-53) H).
Proof.
  intros Hm. split; [reflexivity|]. cbn [B2R]. rewrite <- F2R_Zabs. rewrite abs_cond_Zopp.
  cbn [Z.abs]. unfold F2R; cbn [Fnum Fexp].
  assert (L : (IZR (2 ^ 52) <= IZR (Z.pos m))%R) by (apply IZR_le; lia).
  assert (U : (IZR (Z.pos m) < IZR (2 ^ 53))%R) by (apply IZR_lt; lia).
  change (IZR (2 ^ 52)) with (bpow radix2 52) in L. change (IZR (2 ^ 53)) with (bpow radix2 53) in U.
  pose proof (bpow_gt_0 radix2 (-53)) as P. split.
  - replace (1 / 2)%R with (bpow radix2 52 * bpow radix2 (-53))%R; [apply Rmult_le_compat_r; lra|].
    rewrite <- bpow_plus. change (bpow radix2 (52 + -53)) with (/ 2)%R. lra.
  - replace 1%R with (bpow radix2 53 * bpow radix2 (-53))%R at 1; [apply Rmult_lt_compat_r; lra|].
    rewrite <- bpow_plus. reflexivity.
Qed.

Lemma frexp_normal_spec rec s m e H e0 : 2 ^ 52 <= Zpos m ->
  exists mm ee, musl_frexp_body rec (B754_finite s m e H) e0 = (mm, ee) /\ half_open mm /\
    B2R64 (B754_finite s m e H) = (B2R64 mm * bpow radix2 ee)%R /\ Bsign mm = s.
Proof.
  intros Hm. destruct (frexp_normal rec s m e H e0 Hm) as (H' & E). rewrite E. eexists _, _. split; [reflexivity|].
  pose proof (bounded_inv m e H) as (H1 & _ & _).
  split; [apply half_range; lia|]. split; [|reflexivity]. cbn [B2R]. unfold F2R; cbn [Fnum Fexp].
  rewrite Rmult_assoc, <- bpow_plus. do 2 f_equal. lia.
Qed.

(** a subnormal number times 2^64 is normal *)
Lemma scaled_normal s m e H : Zpos m < 2 ^ 52 ->
  exists s' m' e' H', b64_mult (B754_finite s m e H) (b64_ofZ (2 ^ 64)) = B754_finite s' m' e' H' /\
    2 ^ 52 <= Zpos m' /\ s' = s /\ B2R64 (B754_finite s' m' e' H') = (B2R64 (B754_finite s m e H) * bpow radix2 64)%R.
Proof.
  intros Hm. pose proof (bounded_inv m e H) as (H1 & H2 & H3). specialize (H3 Hm). subst e.
  set (x := B754_finite s m (-1074) H).
  assert (P : pow2 64 (b64_ofZ (2 ^ 64))).
  { assert (E : B2SF (b64_ofZ (2 ^ 64)) = SpecFloat.S754_finite false (2 ^ 52) 12) by (vm_compute; reflexivity).
    destruct (b64_ofZ (2 ^ 64)) as [t|t| |t mt et Ht]; cbn in E; try discriminate. injection E as -> -> ->.
    split; [|split; reflexivity]. cbn [B2R]. unfold F2R; cbn [Fnum Fexp cond_Zopp].
    match goal with |- (?mm * bpow radix2 _)%R = _ => change mm with (bpow radix2 52) end. rewrite <- bpow_plus. reflexivity. }
  assert (Ax : Rabs (B2R64 x) = (IZR (Zpos m) * bpow radix2 (-1074))%R).
  { unfold x. cbn [B2R]. rewrite <- F2R_Zabs, abs_cond_Zopp. reflexivity. }
  assert (Mp : (1 <= IZR (Z.pos m))%R) by (apply (IZR_le 1); lia).
  assert (Mu : (IZR (Z.pos m) < bpow radix2 52)%R) by (change (bpow radix2 52) with (IZR (2 ^ 52)); apply IZR_lt; lia).
  pose proof (CR_pow x 64 _ eq_refl P) as K. unfold CR in K. rewrite format_scale_up in K by lia.
  rewrite Rlt_bool_true in K.
  2:{ rewrite Rabs_mult, (Rabs_pos_eq (bpow radix2 64)) by apply bpow_ge_0. rewrite Ax.
      apply Rlt_le_trans with (bpow radix2 52 * bpow radix2 (-1074) * bpow radix2 64)%R.
      - apply Rmult_lt_compat_r; [apply bpow_gt_0|]. apply Rmult_lt_compat_r; [apply bpow_gt_0|assumption].
      - rewrite <- !bpow_plus. unfold TOP. apply bpow_le. lia. }
  destruct K as (K1 & K2 & K3).
  assert (AY : (bpow radix2 (-1010) <= Rabs (B2R64 (b64_mult x (b64_ofZ (2 ^ 64)))))%R).
  { rewrite K1, Rabs_mult, (Rabs_pos_eq (bpow radix2 64)) by apply bpow_ge_0. rewrite Ax.
    replace (bpow radix2 (-1010)) with (1 * bpow radix2 (-1074) * bpow radix2 64)%R.
    - apply Rmult_le_compat_r; [apply bpow_ge_0|]. apply Rmult_le_compat_r; [apply bpow_ge_0|assumption].
    - rewrite Rmult_1_l, <- bpow_plus. reflexivity. }
  destruct (b64_mult x (b64_ofZ (2 ^ 64))) as [t|t| |t m' e' H']; try discriminate.
  { exfalso. cbn in AY. rewrite Rabs_R0 in AY. pose proof (bpow_gt_0 radix2 (-1010)). lra. }
  exists t, m', e', H'. split; [reflexivity|]. split; [|split; [exact K3|exact K1]].
  pose proof (bounded_inv m' e' H') as (G1 & G2 & G3).
  destruct (Z.le_gt_cases (2 ^ 52) (Zpos m')) as [C|C]; [assumption|exfalso]. specialize (G3 C). subst e'.
  assert (A2 : Rabs (B2R64 (B754_finite t m' (-1074) H')) = (IZR (Zpos m') * bpow radix2 (-1074))%R).
  { cbn [B2R]. rewrite <- F2R_Zabs, abs_cond_Zopp. reflexivity. }
  rewrite A2 in AY. assert (Mu' : (IZR (Z.pos m') < bpow radix2 52)%R) by (change (bpow radix2 52) with (IZR (2 ^ 52)); apply IZR_lt; lia).
  assert (Q : (bpow radix2 (-1010) < bpow radix2 52 * bpow radix2 (-1074))%R).
  { apply Rle_lt_trans with (1 := AY). apply Rmult_lt_compat_r; [apply bpow_gt_0|assumption]. }
  rewrite <- bpow_plus in Q. apply lt_bpow in Q. lia.
Qed.

Lemma C28_lemma (x : b64) e0 :
  (is_finite x = true -> b64_eqb x (b64_ofZ 0) = false ->
     exists m e, musl_frexp x e0 = (m, e) /\ is_finite m = true /\ (1 / 2 <= Rabs (B2R64 m) < 1)%R /\
       B2R64 x = (B2R64 m * bpow radix2 e)%R /\ Bsign m = Bsign x) /\
  (b64_eqb x (b64_ofZ 0) = true -> musl_frexp x e0 = (x, 0)) /\
  (is_finite x = false -> musl_frexp x e0 = (x, e0)).
Proof.
  split; [|split].
  - intros F NZ. destruct x as [s|s| |s m e H]; try discriminate.
    unfold musl_frexp.
    destruct (Z.le_gt_cases (2 ^ 52) (Zpos m)) as [C|C].
    + destruct (frexp_normal_spec (musl_frexp_body (fun x e => (x, e))) s m e H e0 C) as (mm & ee & E & (F1 & F2) & V & S).
      exists mm, ee. auto.
    + destruct (scaled_normal s m e H C) as (s' & m' & e' & H' & E & Hm' & -> & V).
      destruct (frexp_normal_spec (fun x e => (x, e)) s m' e' H' e0 Hm') as (mm & ee & E2 & (F1 & F2) & V2 & S2).
      exists mm, (ee - 64). split; [|repeat split; try assumption; try apply F2].
      2:{ replace (ee - 64) with (ee + (-64)) by lia. rewrite bpow_plus, <- Rmult_assoc. rewrite <- V2, V.
          rewrite Rmult_assoc, <- bpow_plus. change (bpow radix2 (64 + -64)) with 1%R. ring. }
      unfold musl_frexp_body at 1. rewrite to_bits_finite. rewrite (proj2 (Z.leb_gt _ _) C).
      rewrite exp_field by lia. cbn [Z.eqb]. rewrite NZ. cbn [negb]. rewrite E, E2. reflexivity.
  - intros Z0. destruct x as [s|s| |s m e H].
    + destruct s; reflexivity.
    + destruct s; discriminate.
    + discriminate.
    + destruct s; discriminate.
  - intros F. destruct x as [s|s| |s m e H]; try discriminate; [destruct s|]; reflexivity.
Qed.

(** the recursive call never recurses again *)
Lemma musl_frexp_rec_depth (rec rec' : b64 -> Z -> b64 * Z) x e0 :
  musl_frexp_body (musl_frexp_body rec) x e0 = musl_frexp_body (musl_frexp_body rec') x e0.
Proof.
  destruct x as [s|s| |s m e H]; try (destruct s; reflexivity); try reflexivity.
  destruct (Z.le_gt_cases (2 ^ 52) (Zpos m)) as [C|C].
  - destruct (frexp_normal (musl_frexp_body rec) s m e H e0 C) as (H1 & ->).
    destruct (frexp_normal (musl_frexp_body rec') s m e H e0 C) as (H2 & ->). f_equal. f_equal. apply Eqdep_dec.UIP_dec. apply bool_dec.
  - unfold musl_frexp_body at 1 3. rewrite to_bits_finite. rewrite (proj2 (Z.leb_gt _ _) C).
    rewrite exp_field by lia. cbn [Z.eqb]. destruct (b64_eqb _ _); [reflexivity|]. cbn [negb].
    destruct (scaled_normal s m e H C) as (s' & m' & e' & H' & E & Hm' & _ & _). rewrite E.
    destruct (frexp_normal rec s' m' e' H' e0 Hm') as (H1 & ->).
    destruct (frexp_normal rec' s' m' e' H' e0 Hm') as (H2 & ->). f_equal. f_equal. apply Eqdep_dec.UIP_dec. apply bool_dec.
Qed.
