(** * BenchLemmas: what the accuracy loops report (C73) *)
From Coq Require Import ZArith List Bool Reals Lra Lia.
From Flocq Require Import Core.Core IEEE754.BinarySingleNaN.
From Verif Require Import Num XMath B64 B64Facts FloatUtilsLemmas Spec Bench BenchBits.
Import ListNotations.
Open Scope R_scope.

(** ** The relative error *)
Definition rel_err (ref app : b64) : b64 := b64_div (b64_minus app ref) ref.

Lemma quotient_nonpos (D ref : b64) : nan64 D = false -> finite64 ref = true ->
  (0 < B2R64 ref /\ xval D <= 0) \/ (B2R64 ref < 0 /\ 0 <= xval D) -> b64_ltb (b64_ofZ 0) (b64_div D ref) = false.
Proof.
  intros ND Fr H. destruct (finite64 D) eqn:FD.
  - assert (Nz : B2R64 ref <> 0) by lra. destruct (div_xval D ref FD Fr Nz) as (Nq & Eq). rewrite xval_finite in H by assumption.
    rewrite ltb_xval, xval_zero by (reflexivity || assumption). apply Rlt_bool_false. rewrite Eq, <- rndc_0. apply rndc_mono.
    destruct H as [(P & Q)|(P & Q)].
    + assert (0 < / B2R64 ref) by (apply Rinv_0_lt_compat; assumption). unfold Rdiv. nra.
    + assert (/ B2R64 ref < 0) by (apply Rinv_lt_0_compat; assumption). unfold Rdiv. nra.
  - destruct D as [s|s| |s m e X]; try discriminate. pose proof TOP_pos as T.
    destruct ref as [t|t| |t m e X]; try discriminate; [cbn [B2R] in H; lra|].
    rewrite normal_value in H. assert (P : 0 < IZR (Z.pos m) * bpow radix2 e) by (apply Rmult_lt_0_compat; [apply IZR_lt; reflexivity|apply bpow_gt_0]).
    unfold xval in H.
    destruct s, t; try reflexivity; exfalso; lra.
Qed.

Lemma not_reported (ref app : b64) : finite64 ref = true ->
  (nan64 app = true /\ B2R64 ref <> 0) \/ (0 < B2R64 ref /\ b64_leb app ref = true) \/ (B2R64 ref < 0 /\ b64_leb ref app = true) ->
  b64_ltb (b64_ofZ 0) (rel_err ref app) = false.
Proof.
  intros Fr H. unfold rel_err. destruct H as [(NA & _)|H].
  { destruct app; try discriminate. destruct ref as [t|t| |t m e X]; try discriminate; reflexivity. }
  assert (NA : nan64 app = false) by (destruct H as [(_ & H)|(_ & H)]; apply leb_true_iff in H; apply H).
  destruct (finite64 app) eqn:FA.
  - destruct (minus_xval app ref FA Fr) as (ND & ED). apply quotient_nonpos; [assumption|assumption|].
    destruct H as [(P & H)|(P & H)]; apply leb_true_iff in H; destruct H as (_ & _ & H); rewrite !xval_finite in H by assumption; [left|right]; (split; [assumption|]); rewrite ED, <- rndc_0; apply rndc_mono; lra.
  - destruct app as [s|s| |s m e X]; try discriminate. pose proof TOP_pos as T.
    pose proof (B2R_bounds ref) as BB.
    assert (ED : b64_minus (B754_infinity s) ref = B754_infinity s) by (destruct ref as [t|t| |t m e X]; try discriminate; reflexivity).
    rewrite ED. apply quotient_nonpos; [reflexivity|assumption|].
    destruct H as [(P & H)|(P & H)]; apply leb_true_iff in H; destruct H as (_ & _ & H); rewrite (xval_finite ref Fr) in H; unfold xval in H |- *; destruct s; try (exfalso; lra); [left|right]; (split; [assumption|lra]).
Qed.

(** ** The loop *)
Lemma accuracy_snoc l ref app : accuracy_loop (l ++ [(ref, app)]) = accuracy_step (accuracy_loop l) ref app.
Proof. unfold accuracy_loop. rewrite fold_left_app. reflexivity. Qed.
Lemma step_fst e ref app : fst (accuracy_step e ref app) = Z.max (fst e) (Z.abs (sig_field ref - sig_field app)).
Proof.
  destruct e as [es er]. unfold accuracy_step. cbn [fst].
  destruct (Z.leb_spec (sig_field app) (sig_field ref)); match goal with |- context [(es <? ?d)%Z] => destruct (Z.ltb_spec es d) end; lia.
Qed.
Lemma step_snd e ref app : snd (accuracy_step e ref app) =
  if negb (b64_eqb ref (b64_ofZ 0)) && b64_ltb (snd e) (rel_err ref app) then rel_err ref app else snd e.
Proof.
  destruct e as [es er]. unfold accuracy_step. cbn [snd]. destruct (negb _); [|reflexivity]. cbn [andb]. reflexivity.
Qed.

Lemma mantissa_reported l : let s := fst (accuracy_loop l) in
  (forall ref app, In (ref, app) l -> (Z.abs (sig_field ref - sig_field app) <= s)%Z) /\
  (s = 0%Z \/ exists ref app, In (ref, app) l /\ s = Z.abs (sig_field ref - sig_field app)).
Proof.
  induction l as [|(ref, app) l IH] using rev_ind; cbv zeta in *.
  - split; [intros ? ? []|left; reflexivity].
  - rewrite accuracy_snoc, step_fst. destruct IH as (I1 & I2). split.
    + intros r a H. apply in_app_or in H. destruct H as [H|[H|[]]]; [specialize (I1 r a H); lia|]. injection H as -> ->. lia.
    + destruct (Z.max_spec (fst (accuracy_loop l)) (Z.abs (sig_field ref - sig_field app))) as [(_ & E)|(_ & E)]; rewrite E.
      * right. exists ref, app. split; [apply in_or_app; right; left; reflexivity|reflexivity].
      * destruct I2 as [->|(r & a & H & E2)]; [left; reflexivity|]. right. exists r, a. split; [apply in_or_app; left; assumption|assumption].
Qed.

Lemma relative_reported l : let r := snd (accuracy_loop l) in
  (forall ref app, In (ref, app) l -> b64_eqb ref (b64_ofZ 0) = false -> b64_ltb r (rel_err ref app) = false) /\
  (r = b64_ofZ 0 \/ exists ref app, In (ref, app) l /\ b64_eqb ref (b64_ofZ 0) = false /\ r = rel_err ref app /\ b64_ltb (b64_ofZ 0) r = true).
Proof.
  induction l as [|(ref, app) l IH] using rev_ind; cbv zeta in *.
  - split; [intros ? ? []|left; reflexivity].
  - rewrite accuracy_snoc, step_snd. set (r := snd (accuracy_loop l)) in *. destruct IH as (I1 & I2).
    assert (Nr0 : nan64 r = false /\ 0 <= xval r).
    { destruct I2 as [->|(r' & a' & _ & _ & _ & L)]; [split; [reflexivity|rewrite xval_zero; lra]|].
      apply ltb_true_iff in L. destruct L as (_ & L1 & L2). rewrite xval_zero in L2. split; [assumption|lra]. }
    destruct Nr0 as (Nr0 & Pr).
    destruct (b64_eqb ref (b64_ofZ 0)) eqn:EZ; cbn [negb andb].
    { split; [|destruct I2 as [I2|(r' & a' & H & H2)]; [left; assumption|right; exists r', a'; split; [apply in_or_app; left; assumption|assumption]]].
      intros r' a' H Z. apply in_app_or in H. destruct H as [H|[H|[]]]; [apply I1; assumption|]. injection H as -> ->. congruence. }
    destruct (b64_ltb r (rel_err ref app)) eqn:EL.
    + apply ltb_true_iff in EL as EL'. destruct EL' as (_ & Nq & Lq). split.
      * intros r' a' H Z. apply in_app_or in H. destruct H as [H|[H|[]]].
        -- specialize (I1 r' a' H Z). destruct (b64_ltb (rel_err ref app) (rel_err r' a')) eqn:E; [|reflexivity].
           apply ltb_true_iff in E. destruct E as (_ & N2 & L2). rewrite ltb_xval, Rlt_bool_true in I1 by (assumption || lra). discriminate.
        -- injection H as -> ->. rewrite ltb_xval by assumption. apply Rlt_bool_false. lra.
      * right. exists ref, app. split; [apply in_or_app; right; left; reflexivity|]. split; [assumption|]. split; [reflexivity|].
        apply ltb_true_iff. split; [reflexivity|]. split; [assumption|]. rewrite xval_zero. lra.
    + split.
      * intros r' a' H Z. apply in_app_or in H. destruct H as [H|[H|[]]]; [apply I1; assumption|]. injection H as -> ->. assumption.
      * destruct I2 as [I2|(r' & a' & H & H2)]; [left; assumption|right; exists r', a'; split; [apply in_or_app; left; assumption|assumption]].
Qed.

Lemma underestimates_reported (l : list (b64 * b64)) :
  (forall ref app, In (ref, app) l -> finite64 ref = true /\
     ((nan64 app = true /\ B2R64 ref <> 0) \/ (0 < B2R64 ref /\ b64_leb app ref = true) \/ (B2R64 ref < 0 /\ b64_leb ref app = true))) ->
  snd (accuracy_loop l) = b64_ofZ 0.
Proof.
  intros H. destruct (relative_reported l) as (_ & [E|(ref & app & I & _ & E & L)]); [exact E|]. exfalso.
  rewrite E in L. destruct (H ref app I) as (F & C). rewrite (not_reported ref app F C) in L. discriminate.
Qed.

(** ** Half of the reference *)
Definition half_of (x : b64) : b64 := b64_div x (b64_ofZ 2).
Lemma half_normal (x : b64) : finite64 x = true -> bpow radix2 (-1021) <= Rabs (B2R64 x) ->
  finite64 (half_of x) = true /\ B2R64 (half_of x) = B2R64 x / 2 /\ sig_field (half_of x) = sig_field x.
Proof.
  intros F L. pose proof (bpow_le radix2 (-1022) (-1021) ltac:(lia)) as B1.
  destruct (normal_shape x F ltac:(lra)) as (s & m & e & H & -> & Hm). pose proof (bounded_inv m e H) as (H1 & H2 & _).
  pose proof (mant_range m ltac:(lia)) as Rm. pose proof (bpow_gt_0 radix2 e) as Be.
  assert (He : (-1073 <= e)%Z).
  { rewrite normal_value in L. assert (Q : bpow radix2 (-1021) < bpow radix2 (53 + e)).
    { eapply Rle_lt_trans; [exact L|]. rewrite Rabs_mult, (Rabs_pos_eq (IZR _ * _)) by (apply Rmult_le_pos; [apply IZR_le; lia|lra]).
      replace (Rabs (if s then -1 else 1)) with 1 by (destruct s; [rewrite Rabs_left by lra|rewrite Rabs_pos_eq by lra]; lra).
      rewrite bpow_plus, Rmult_1_l. apply Rmult_lt_compat_r; lra. }
    apply lt_bpow in Q. lia. }
  assert (H' : SpecFloat.bounded 53 1024 m (e - 1) = true) by (apply bounded_normal; lia).
  set (y := B754_finite s m (e - 1) H' : b64).
  assert (Vy : B2R64 y = B2R64 (B754_finite s m e H) / 2).
  { unfold y. rewrite !normal_value. assert (Q : bpow radix2 e = bpow radix2 (e - 1) * 2) by (replace e with ((e - 1) + 1)%Z at 1 by lia; rewrite bpow_plus; reflexivity). rewrite Q. field. }
  assert (E : half_of (B754_finite s m e H) = y).
  { pose proof (Bdiv_correct 53 1024 _ _ mode_NE (B754_finite s m e H) (b64_ofZ 2)) as C.
    destruct (ofZ_exact 2 ltac:(lia)) as (F2 & V2). rewrite V2 in C. specialize (C ltac:(lra)). rewrite <- Vy in C.
    simpl round_mode in C. rewrite (round_generic radix2 fexp64 ZnearestE (B2R64 y) (generic_format_B2R 53 1024 y)) in C.
    rewrite Rlt_bool_true in C by apply (abs_B2R_lt_emax 53 1024). destruct C as (C1 & C2 & C3).
    unfold half_of, b64_div. apply B2R_Bsign_inj; [exact C2|reflexivity|exact C1|].
    rewrite C3; [|apply finite_not_nan; exact C2]. change (Bsign (b64_ofZ 2)) with false. rewrite xorb_false_r. reflexivity. }
  rewrite E. split; [reflexivity|]. split; [exact Vy|]. unfold y. rewrite !sig_normal by assumption. reflexivity.
Qed.

Lemma half_scores_zero (l : list b64) :
  (forall x, In x l -> finite64 x = true /\ bpow radix2 (-1021) <= Rabs (B2R64 x)) ->
  accuracy_loop (map (fun x => (x, half_of x)) l) = (0%Z, b64_ofZ 0).
Proof.
  intros H. pose proof (bpow_gt_0 radix2 (-1021)) as B0.
  assert (E2 : snd (accuracy_loop (map (fun x => (x, half_of x)) l)) = b64_ofZ 0).
  { apply underestimates_reported. intros ref app I. apply in_map_iff in I. destruct I as (x & E & I). injection E as <- <-.
    destruct (H x I) as (F & L). split; [exact F|]. destruct (half_normal x F L) as (Fh & Vh & _). right.
    destruct (Rle_lt_dec 0 (B2R64 x)) as [P|P].
    - left. assert (B2R64 x <> 0) by (intros Z; rewrite Z, Rabs_R0 in L; lra). split; [lra|].
      apply leb_true_iff. rewrite !xval_finite by assumption. split; [apply finite_not_nan; assumption|]. split; [apply finite_not_nan; assumption|]. lra.
    - right. split; [exact P|].
      apply leb_true_iff. rewrite !xval_finite by assumption. split; [apply finite_not_nan; assumption|]. split; [apply finite_not_nan; assumption|]. lra. }
  assert (E1 : fst (accuracy_loop (map (fun x => (x, half_of x)) l)) = 0%Z).
  { destruct (mantissa_reported (map (fun x => (x, half_of x)) l)) as (_ & [E|(ref & app & I & E)]); [exact E|].
    rewrite E. apply in_map_iff in I. destruct I as (x & Ex & I). injection Ex as <- <-. destruct (H x I) as (F & L).
    destruct (half_normal x F L) as (_ & _ & S). rewrite S. lia. }
  destruct (accuracy_loop _) as [a b]. cbn [fst snd] in *. congruence.
Qed.

(** ** Same binade: the mantissa error counts units in the last place *)
Lemma same_binade (x y : b64) (e : Z) : (-1074 <= e)%Z -> finite64 x = true -> finite64 y = true -> 0 < B2R64 x * B2R64 y ->
  bpow radix2 (e + 52) <= Rabs (B2R64 x) < bpow radix2 (e + 53) -> bpow radix2 (e + 52) <= Rabs (B2R64 y) < bpow radix2 (e + 53) ->
  Rabs (B2R64 x - B2R64 y) = IZR (Z.abs (sig_field x - sig_field y)) * bpow radix2 e.
Proof.
  intros He Fx Fy S Hx Hy.
  assert (K : forall x : b64, finite64 x = true -> bpow radix2 (e + 52) <= Rabs (B2R64 x) < bpow radix2 (e + 53) ->
    exists s m H, x = B754_finite s m e H /\ (2 ^ 52 <= Z.pos m)%Z).
  { clear - He. intros x F Hx. pose proof (bpow_le radix2 (-1022) (e + 52) ltac:(lia)) as B1.
    destruct (normal_shape x F ltac:(lra)) as (s & m & e' & H & -> & Hm). pose proof (bounded_inv m e' H) as (H1 & H2 & _).
    pose proof (mant_range m ltac:(lia)) as Rm. pose proof (bpow_gt_0 radix2 e') as Be.
    assert (V : Rabs (B2R64 (B754_finite s m e' H)) = IZR (Z.pos m) * bpow radix2 e').
    { rewrite normal_value, Rabs_mult, (Rabs_pos_eq (IZR _ * _)) by (apply Rmult_le_pos; [apply IZR_le; lia|lra]).
      replace (Rabs (if s then -1 else 1)) with 1 by (destruct s; [rewrite Rabs_left by lra|rewrite Rabs_pos_eq by lra]; lra). lra. }
    rewrite V in Hx.
    assert (A1 : bpow radix2 (e + 52) < bpow radix2 (53 + e')).
    { eapply Rle_lt_trans; [apply Hx|]. rewrite bpow_plus. apply Rmult_lt_compat_r; lra. }
    assert (A2 : bpow radix2 (52 + e') < bpow radix2 (e + 53)).
    { eapply Rle_lt_trans; [|apply Hx]. rewrite bpow_plus. apply Rmult_le_compat_r; lra. }
    apply lt_bpow in A1. apply lt_bpow in A2. assert (e' = e) by lia. subst e'. exists s, m, H. split; [reflexivity|exact Hm]. }
  destruct (K x Fx Hx) as (s & m & H & -> & Hm). destruct (K y Fy Hy) as (t & n & H' & -> & Hn). clear K Hx Hy.
  rewrite !sig_normal by assumption. rewrite !normal_value in *. pose proof (bpow_gt_0 radix2 e) as Be.
  assert (Pm : 0 < IZR (Z.pos m)) by (apply IZR_lt; reflexivity). assert (Pn : 0 < IZR (Z.pos n)) by (apply IZR_lt; reflexivity).
  assert (Q : 0 < IZR (Z.pos m) * bpow radix2 e * (IZR (Z.pos n) * bpow radix2 e)).
  { apply Rmult_lt_0_compat; apply Rmult_lt_0_compat; assumption. }
  assert (E : s = t). { destruct s, t; try reflexivity; exfalso; nra. } subst t.
  replace (Z.pos m - 2 ^ 52 - (Z.pos n - 2 ^ 52))%Z with (Z.pos m - Z.pos n)%Z by lia.
  rewrite abs_IZR, minus_IZR. rewrite <- (Rabs_pos_eq (bpow radix2 e)) at 3 by lra. rewrite <- Rabs_mult.
  destruct s; [rewrite <- Rabs_Ropp|]; f_equal; ring.
Qed.

Lemma mantissa_bound (l : list (b64 * b64)) (ref app : b64) (e : Z) : In (ref, app) l ->
  (-1074 <= e)%Z -> finite64 ref = true -> finite64 app = true -> 0 < B2R64 ref * B2R64 app ->
  bpow radix2 (e + 52) <= Rabs (B2R64 ref) < bpow radix2 (e + 53) -> bpow radix2 (e + 52) <= Rabs (B2R64 app) < bpow radix2 (e + 53) ->
  Rabs (B2R64 ref - B2R64 app) <= IZR (fst (accuracy_loop l)) * bpow radix2 e.
Proof.
  intros I He F1 F2 S H1 H2. rewrite (same_binade ref app e He F1 F2 S H1 H2). apply Rmult_le_compat_r; [apply bpow_ge_0|].
  apply IZR_le. apply (proj1 (mantissa_reported l)). exact I.
Qed.
