(** * Lemmas: the threshold is on the outer side of the excess threshold (C56) *)
From Coq Require Import ZArith List Bool Reals Lra Lia Psatz.
From Flocq Require Import Core.Core IEEE754.BinarySingleNaN.
From Verif Require Import Num XMath B64 RNum B64Facts FloatErr FloatUtilsLemmas LogExact LogAcc ExpExact ExpB64 ExpAcc
  Ubend Peaks Brent Estimator Tail Spot CastLemmas AccSpec PowAcc PowAcc2 PowAcc3.
Open Scope R_scope.

Lemma rndc_1 : rndc 1 = 1.
Proof. destruct (ofZ_exact 1 ltac:(lia)) as (F1 & E1). rewrite <- E1. apply rndc_format. Qed.
Lemma tiny_bpow : bpow radix2 (-1022) <= / 10 ^ 300.
Proof.
  change (-1022)%Z with (- (1022))%Z. rewrite bpow_opp. apply Rinv_le_contravar; [apply pow_lt; lra|].
  change (bpow radix2 1022) with (IZR (2 ^ 1022)). rewrite pow_IZR. apply IZR_le. vm_compute. discriminate.
Qed.

(** ** The exponential of a nonnegative number is at least one *)
Lemma pexp_ge_one rec (x : b64) : finite64 x = true -> 0 <= B2R64 x <= 1488522235 ->
  exists v : b64, xexp_body (N := B64) musl_utils rec x = Ret (v : num B64) /\ nan64 v = false /\ 1 <= xval v.
Proof.
  intros F H. pose proof L2_range as RL. destruct (ofZ_exact 1 ltac:(lia)) as (F1 & E1).
  destruct (Rle_lt_dec (B2R64 x) (1 / 1000)) as [C|C].
  { destruct (exp_cf_quotient x F ltac:(lra)) as (q & E & Fq & Hq). exists (exp_cf_6 (N := B64) x).
    rewrite (body_nonneg _ rec x F) by lra. rewrite ltb_L2, Rlt_bool_false by (assumption || lra). split; [reflexivity|].
    rewrite E. destruct (plus_xval q (b64_ofZ 1) Fq F1) as (N & V). split; [exact N|]. rewrite V, E1.
    rewrite <- rndc_1 at 1. apply rndc_mono. lra. }
  destruct (Rle_lt_dec (B2R64 x) 709) as [C2|C2].
  { destruct (pexp_accuracy rec x F ltac:(lra)) as (v & E & Fv & A). exists v. split; [exact E|]. split; [apply finite_not_nan; exact Fv|].
    rewrite xval_finite by exact Fv. pose proof (exp_ineq1_le (B2R64 x)) as I.
    assert (B : (147 / 10 ^ 18 * B2R64 x + 28 / 10 ^ 16) * exp (B2R64 x) <= 2 / 10 ^ 13 * exp (B2R64 x)) by (apply Rmult_le_compat_r; lra).
    apply Rabs_le_inv in A. lra. }
  destruct (exp_ready musl_utils rec x F ltac:(lra)) as (k & c & Hk & E & K1 & K2 & r & Rr & Er & Fc & Ac).
  destruct (Rle_lt_dec 710 (B2R64 x)) as [C3|C3].
  { exists (B754_infinity false). split; [apply pexp_overflow; [exact F|lra]|]. split; [reflexivity|]. pose proof TOP_300. pose proof ten300. cbn. lra. }
  assert (K : IZR k < 2000).
  { apply Rmult_lt_reg_r with (B2R64 L2v); [lra|]. eapply Rle_lt_trans; [exact K1|].
    apply Rle_lt_trans with ((1 + eps) * 710); [apply Rmult_le_compat_l; [unfold eps; lra|lra]|]. unfold eps. lra. }
  assert (Kl : 2 < IZR k).
  { assert (3 < IZR k + 1); [|lra]. apply Rmult_lt_reg_r with (B2R64 L2v); [lra|]. eapply Rle_lt_trans; [|exact K2].
    apply Rle_trans with ((1 - eps) * 709); [|apply Rmult_le_compat_l; [unfold eps; lra|lra]]. unfold eps. lra. }
  apply lt_IZR in K. apply lt_IZR in Kl.
  assert (Ti : to_int32 k = k) by (unfold to_int32; replace (k <? 2 ^ 31)%Z with true; [reflexivity|symmetry; apply Z.ltb_lt; lia]).
  rewrite Ti in E. change (fu_ldexp musl_utils c k) with (musl_ldexp c k) in E.
  destruct (exp_c_range (B2R64 c) r Rr Ac) as (Ce & _).
  pose proof (format_scaled c k Fc ltac:(lra) ltac:(lia)) as Fm.
  destruct (C27_lemma c k) as (C27 & _). destruct (C27 Fc) as (C27a & C27b). rewrite Fm in C27a, C27b.
  assert (B1 : 2 <= bpow radix2 k). { replace 2 with (bpow radix2 1) by (simpl; lra). apply bpow_le. lia. }
  exists (musl_ldexp c k). split; [exact E|].
  destruct (Rlt_le_dec (Rabs (B2R64 c * bpow radix2 k)) TOP) as [T|T].
  - destruct (C27a T) as (Fv & Ev & _). split; [apply finite_not_nan; exact Fv|]. rewrite xval_finite, Ev by exact Fv. nra.
  - rewrite (C27b T), sign_of_pos by (assumption || lra). split; [reflexivity|]. pose proof TOP_300. pose proof ten300. cbn. lra.
Qed.

Lemma xexp_side (y : b64) : finite64 y = true -> Rabs (B2R64 y) <= 1488522235 ->
  exists v : b64, xexp (N := B64) musl_utils y = Ret (v : num B64) /\ nan64 v = false /\
    (0 <= B2R64 y -> 1 <= xval v) /\ (B2R64 y <= 0 -> finite64 v = true /\ 0 <= B2R64 v <= 1).
Proof.
  intros F H. pose proof (finite_not_nan y F) as Ny. destruct (ofZ_exact 1 ltac:(lia)) as (F1 & E1).
  destruct (Rtotal_order (B2R64 y) 0) as [C|[C|C]].
  - rewrite Rabs_left in H by assumption. destruct (pexp_ge_one (fun _ => Undef Diverge) (b64_opp y)) as (v & E & Nv & V).
    { rewrite finite_opp. exact F. } { unfold b64_opp. rewrite B2R_Bopp. lra. }
    exists (b64_div (b64_ofZ 1) v). rewrite xexp_neg by (assumption || (rewrite xval_finite; assumption)).
    match goal with |- context [xexp_body ?a ?b ?c] => change (xexp_body a b c) with (xexp_body (N := B64) musl_utils (fun _ => Undef Diverge) (b64_opp y)) end.
    rewrite E. split; [reflexivity|].
    assert (G : nan64 (b64_div (b64_ofZ 1) v) = false /\ finite64 (b64_div (b64_ofZ 1) v) = true /\ 0 <= B2R64 (b64_div (b64_ofZ 1) v) <= 1).
    { destruct (finite64 v) eqn:Fv.
      - rewrite xval_finite in V by exact Fv. destruct (div_xval (b64_ofZ 1) v F1 Fv ltac:(lra)) as (N & Vd). split; [exact N|]. rewrite E1 in Vd.
        assert (Q : 0 <= 1 / B2R64 v <= 1).
        { split; [apply Rmult_le_pos; [lra|left; apply Rinv_0_lt_compat; lra]|].
          apply Rmult_le_reg_r with (B2R64 v); [lra|]. unfold Rdiv. rewrite Rmult_assoc, Rinv_l by lra. lra. }
        assert (R0 : 0 <= rndc (1 / B2R64 v)) by (rewrite <- rndc_0; apply rndc_mono; lra).
        assert (R1 : rndc (1 / B2R64 v) <= 1) by (apply Rle_trans with (rndc 1); [apply rndc_mono; lra|rewrite rndc_1; lra]).
        assert (FF : finite64 (b64_div (b64_ofZ 1) v) = true).
        { apply finite_of_xval; [exact N|]. rewrite Vd, Rabs_pos_eq by exact R0. pose proof TOP_300. pose proof ten300. lra. }
        split; [exact FF|]. rewrite <- xval_finite, Vd by exact FF. lra.
      - destruct v as [s|s| |s m e X]; try discriminate. destruct s; [cbn in V; pose proof TOP_pos; lra|].
        split; [reflexivity|]. split; [reflexivity|]. cbn. lra. }
    destruct G as (G1 & G2 & G3). split; [exact G1|]. split; [intros; lra|auto].
  - 
    assert (Z : exists s, y = B754_zero s).
    { destruct y as [s|s| |s m e X]; try discriminate; [eexists; reflexivity|]. exfalso. apply (F2R_neq_0 radix2) in C; [assumption|]. destruct s; discriminate. }
    destruct Z as (s & ->). exists (b64_ofZ 1). rewrite xexp_zero. split; [reflexivity|]. split; [reflexivity|].
    rewrite xval_finite, E1 by exact F1. split; intros; [lra|]. split; [exact F1|lra].
  - rewrite Rabs_pos_eq in H by lra. destruct (pexp_ge_one (xexp_body (N := B64) musl_utils (fun _ => Undef Diverge)) y F ltac:(lra)) as (v & E & Nv & V).
    exists v. split; [exact E|]. split; [exact Nv|]. split; intros; [exact V|lra].
Qed.

(** ** The logarithm of a number at most one is not positive *)
Lemma one_unique (r : b64) : finite64 r = true -> B2R64 r = 1 -> r = b64_ofZ 1.
Proof.
  intros F E. destruct (ofZ_exact 1 ltac:(lia)) as (F1 & E1). apply B2R_inj; [| |rewrite E1; exact E].
  - destruct r as [s|s| |s m e X]; try discriminate; [cbn in E; lra|reflexivity].
  - reflexivity.
Qed.
Lemma xlog_nonpos (r : b64) : finite64 r = true -> 0 < B2R64 r <= 1 ->
  finite64 (xlog (N := B64) musl_utils r) = true /\ -746 <= B2R64 (xlog (N := B64) musl_utils r) <= 0.
Proof.
  intros F H. destruct (xlog_accuracy r F ltac:(lra)) as (Fl & A & B & C). split; [exact Fl|].
  split.
  - destruct (xlog_range r) as [Nl|[(s & E)|(_ & Hl)]].
    + rewrite (finite_not_nan _ Fl) in Nl. discriminate.
    + rewrite E in Fl. discriminate.
    + apply Rabs_le_inv in Hl. lra.
  - destruct (Req_dec (B2R64 r) 1) as [E|E].
    { apply one_unique in E; [|exact F]. subst r.
      assert (Z : B2SF (xlog (N := B64) musl_utils (b64_ofZ 1) : b64) = SpecFloat.S754_zero false) by (vm_compute; reflexivity).
      rewrite (sf_value _ _ Z). cbn. lra. }
    assert (L : ln (B2R64 r) < 0) by (rewrite <- ln_1; apply ln_increasing; lra).
    rewrite (Rabs_left _ L) in A, C. destruct (Rle_lt_dec (1 / 2) (B2R64 r)) as [D|D].
    { specialize (A ltac:(lra)). apply Rabs_le_inv in A. lra. }
    assert (L2 : ln (B2R64 r) <= - (69 / 100)).
    { apply Rle_trans with (ln (/ 2)); [apply ln_mono; lra|]. rewrite ln_Rinv by lra. pose proof ln2_bounds. lra. }
    destruct (Rle_lt_dec (1 / 4) (B2R64 r)) as [D2|D2].
    + specialize (B ltac:(lra)). apply Rabs_le_inv in B. lra.
    + specialize (C ltac:(lra)). apply Rabs_le_inv in C. lra.
Qed.

(** the ratio of the risk to the frequency *)
Lemma risk_below_one (q : b64) Nt n : finite64 q = true -> (0 < Nt <= n)%Z -> (n <= 2 ^ 53)%Z -> 0 < B2R64 q <= IZR Nt / IZR n ->
  let r := b64_div q (b64_div (b64_ofZ Nt) (b64_ofZ n)) in finite64 r = true /\ 0 < B2R64 r <= 1.
Proof.
  intros Fq HN Hn Hq r. destruct (ofZ_exact 1 ltac:(lia)) as (F1 & E1).
  destruct (ofZ_exact Nt ltac:(lia)) as (FN & EN). destruct (ofZ_exact n ltac:(lia)) as (Fn & En).
  assert (P1 : 0 < IZR Nt) by (apply IZR_lt; lia). assert (P2 : IZR Nt <= IZR n) by (apply IZR_le; lia).
  destruct (div_xval _ (b64_ofZ n) FN Fn ltac:(lra)) as (Nf & Vf). rewrite EN, En in Vf. set (f := b64_div (b64_ofZ Nt) (b64_ofZ n)) in *.
  assert (D1 : IZR Nt / IZR n <= 1).
  { apply Rmult_le_reg_r with (IZR n); [lra|]. unfold Rdiv. rewrite Rmult_assoc, Rinv_l by lra. lra. }
  assert (Hf : B2R64 q <= xval f <= 1).
  { rewrite Vf. split; [rewrite <- (rndc_format q) at 1; apply rndc_mono; lra|apply Rle_trans with (rndc 1); [apply rndc_mono; lra|rewrite rndc_1; lra]]. }
  pose proof TOP_300. pose proof ten300.
  assert (Ff : finite64 f = true) by (apply finite_of_xval; [exact Nf|apply Rabs_def1; lra]).
  rewrite xval_finite in Hf by exact Ff.
  destruct (div_xval q f Fq Ff ltac:(lra)) as (N & V). fold r in N, V.
  assert (Q : B2R64 q <= B2R64 q / B2R64 f <= 1).
  { split; apply Rmult_le_reg_r with (B2R64 f); try lra; unfold Rdiv; rewrite Rmult_assoc, Rinv_l by lra; nra. }
  assert (Hr : B2R64 q <= xval r <= 1).
  { rewrite V. split; [rewrite <- (rndc_format q) at 1; apply rndc_mono; lra|apply Rle_trans with (rndc 1); [apply rndc_mono; lra|rewrite rndc_1; lra]]. }
  assert (Fr : finite64 r = true) by (apply finite_of_xval; [exact N|apply Rabs_def1; lra]).
  split; [exact Fr|]. rewrite <- xval_finite by exact Fr. lra.
Qed.

(** ** Adding or subtracting a nonnegative term *)
Lemma outer_sum (e z : b64) : finite64 e = true -> nan64 z = false -> 0 <= xval z ->
  let up := b64_plus e (b64_mult (b64_ofZ 1) z) in let down := b64_plus e (b64_mult (b64_ofZ (-1)) z) in
  (nan64 up = false /\ B2R64 e <= xval up) /\ (nan64 down = false /\ xval down <= B2R64 e).
Proof.
  intros Fe Nz Hz. cbn zeta. rewrite mult_1_l by exact Nz. rewrite mult_m1_l by exact Nz.
  destruct (finite64 z) eqn:Fz.
  - rewrite xval_finite in Hz by exact Fz. assert (Fo : finite64 (b64_opp z) = true) by (rewrite finite_opp; exact Fz).
    destruct (plus_xval e z Fe Fz) as (N1 & V1). destruct (plus_xval e (b64_opp z) Fe Fo) as (N2 & V2).
    unfold b64_opp in V2 at 2. rewrite B2R_Bopp in V2. repeat split; try assumption.
    + rewrite V1, <- (rndc_format e) at 1. apply rndc_mono. lra.
    + rewrite V2. rewrite <- (rndc_format e) at 2. apply rndc_mono. lra.
  - destruct z as [s|s| |s m ex X]; try discriminate. destruct s; [cbn in Hz; pose proof TOP_pos; lra|].
    pose proof (abs_B2R_TOP e) as T. apply Rabs_def2 in T.
    destruct e as [s|s| |s m ex X]; try discriminate; cbn [xval] in *; repeat split; try reflexivity; cbn in *; lra.
Qed.

Lemma product_nonneg (c w : b64) : finite64 c = true -> nan64 w = false -> B2R64 c <> 0 -> 0 <= B2R64 c * xval w ->
  nan64 (b64_mult c w) = false /\ 0 <= xval (b64_mult c w).
Proof.
  intros Fc Nw C0 H. destruct (finite64 w) eqn:Fw.
  - rewrite xval_finite in H by exact Fw. destruct (mult_xval c w Fc Fw) as (N & V). split; [exact N|]. rewrite V, <- rndc_0. apply rndc_mono. exact H.
  - destruct w as [s|s| |s m ex X]; try discriminate. pose proof TOP_pos as T.
    destruct c as [s'|s'| |s' m' e' X']; try discriminate; [cbn in C0; lra|]. 
    assert (S : s' = s).
    { destruct s', s; try reflexivity; exfalso.
      - pose proof (F2R_lt_0 radix2 {| Fnum := Z.neg m'; Fexp := e' |} ltac:(reflexivity)) as P. cbn in P, H. unfold B2R, F2R in *; cbn in *. nra.
      - pose proof (F2R_gt_0 radix2 {| Fnum := Z.pos m'; Fexp := e' |} ltac:(reflexivity)) as P. cbn in P, H. unfold B2R, F2R in *; cbn in *. nra. }
    subst s'. split; [reflexivity|]. cbn. rewrite xorb_nilpotent. cbn. lra.
Qed.

Lemma quantile_outer (s : spot B64) et dir sigma gamma (q : b64) :
  finite_detector s et dir sigma gamma -> finite64 q = true -> 0 < B2R64 q <= IZR (s_Nt s) / IZR (s_n s) ->
  gamma = 0 \/ (Rabs gamma <= 10 ^ 6 /\ / 10 ^ 300 <= sigma / Rabs gamma <= 10 ^ 300) ->
  exists v : b64, spot_quantile (c_math musl_utils) s q = Ret v /\ nan64 v = false /\
    (dir = 1 -> b64_leb (s_et s) v = true) /\ (dir = -1 -> b64_leb v (s_et s) = true).
Proof.
  intros (Fe & Ee & Hd & Fs & Es & Ps & Fg & Eg & HN & Hn) Fq Hq Hg.
  destruct (risk_below_one q _ _ Fq HN Hn Hq) as (Fr & Hr). set (r := b64_div q (b64_div (b64_ofZ (s_Nt s)) (b64_ofZ (s_n s)))) in *.
  destruct (xlog_nonpos r Fr Hr) as (Fl & Hl). set (l := xlog (N := B64) musl_utils r : b64) in *.
  assert (K : exists z : b64, tail_quantile (c_math musl_utils) (s_tail s) (b64_div (b64_ofZ (s_Nt s)) (b64_ofZ (s_n s)) : num B64) q = Ret z /\ nan64 z = false /\ 0 <= xval z).
  { unfold tail_quantile. change (@neq B64 (t_gamma (s_tail s)) (nofZ 0)) with (b64_eqb (t_gamma (s_tail s)) (b64_ofZ 0)).
    rewrite eqb_xval, xval_zero, xval_finite by (try apply finite_not_nan; assumption || reflexivity). rewrite Eg. 
    destruct (Req_dec gamma 0) as [G0|G0].
    - rewrite Req_bool_true by exact G0. exists (b64_mult (b64_opp (t_sigma (s_tail s))) l). split; [reflexivity|].
      assert (Fo : finite64 (b64_opp (t_sigma (s_tail s))) = true) by (rewrite finite_opp; exact Fs).
      destruct (mult_xval _ l Fo Fl) as (N & V). split; [exact N|]. rewrite V, <- rndc_0. apply rndc_mono.
      unfold b64_opp. rewrite B2R_Bopp, Es. nra.
    - rewrite Req_bool_false by exact G0. destruct Hg as [?|(Hg1 & Hg2)]; [contradiction|].
      assert (Pg : 0 < Rabs gamma) by (apply Rabs_pos_lt; exact G0).
      set (e := b64_opp (t_gamma (s_tail s)) : b64). assert (Fe2 : finite64 e = true) by (unfold e; rewrite finite_opp; exact Fg).
      assert (Ve : B2R64 e = - gamma) by (unfold e, b64_opp; rewrite B2R_Bopp, Eg; reflexivity).
      destruct (mult_xval e l Fe2 Fl) as (N & V). rewrite Ve in V.
      assert (AB : Rabs (- gamma * B2R64 l) <= 746 * 10 ^ 6).
      { rewrite Rabs_mult, Rabs_Ropp, Rmult_comm. apply Rmult_le_compat; try apply Rabs_pos; [apply Rabs_le; lra|exact Hg1]. }
      assert (10 ^ 9 <= 10 ^ 300) by (apply Rle_pow; [lra|lia]).
      destruct (op_abs _ _ N V ltac:(lra)) as (Fy & _ & Ry). pose proof inv59_le.
      assert (YB : Rabs (B2R64 (b64_mult e l)) <= 1488522235).
      { pose proof (Rabs_triang (B2R64 (b64_mult e l) - - gamma * B2R64 l) (- gamma * B2R64 l)) as T.
        replace (B2R64 (b64_mult e l) - - gamma * B2R64 l + - gamma * B2R64 l) with (B2R64 (b64_mult e l)) in T by lra. unfold eps in Ry. lra. }
      assert (SY : (0 < gamma -> 0 <= B2R64 (b64_mult e l)) /\ (gamma < 0 -> B2R64 (b64_mult e l) <= 0)).
      { rewrite <- xval_finite by exact Fy. rewrite V. split; intros; rewrite <- rndc_0; apply rndc_mono; nra. }
      destruct (xexp_side _ Fy YB) as (p & Ep & Np & P1 & P2).
      assert (Ep' : xpow (N := B64) musl_utils (r : num B64) (e : num B64) = Ret p) by exact Ep.
      destruct (ofZ_exact 1 ltac:(lia)) as (F1 & E1).
      destruct (div_xval _ _ Fs Fg ltac:(rewrite Eg; exact G0)) as (Nc & Vc). set (c := b64_div (t_sigma (s_tail s)) (t_gamma (s_tail s))) in *. rewrite Es, Eg in Vc.
      assert (QA : Rabs (sigma / gamma) = sigma / Rabs gamma).
      { unfold Rdiv. rewrite Rabs_mult, Rabs_inv, (Rabs_pos_eq sigma) by lra. reflexivity. }
      destruct (op_abs c _ Nc Vc ltac:(rewrite QA; apply Hg2)) as (Fc & Erc & _).
      assert (SC : (0 < gamma -> 0 <= B2R64 c) /\ (gamma < 0 -> B2R64 c <= 0)).
      { rewrite <- xval_finite by exact Fc. rewrite Vc. split; intros G; rewrite <- rndc_0; apply rndc_mono.
        - apply Rmult_le_pos; [lra|left; apply Rinv_0_lt_compat; exact G].
        - assert (/ gamma < 0) by (apply Rinv_lt_0_compat; exact G). unfold Rdiv. nra. }
      assert (C0 : B2R64 c <> 0).
      { intros X. pose proof tiny_bpow. pose proof (rnd_rel (sigma / gamma) ltac:(rewrite QA; lra)) as RR. rewrite <- Erc, X, QA, Rminus_0_l, Rabs_Ropp, QA in RR.
        assert (0 < / 10 ^ 300) by (apply Rinv_0_lt_compat, pow_lt; lra). unfold eps in RR. lra. }
      set (w := b64_minus p (b64_ofZ 1)).
      assert (W : nan64 w = false /\ (0 < gamma -> 0 <= xval w) /\ (gamma < 0 -> xval w <= 0)).
      { destruct (finite64 p) eqn:Fp.
        - destruct (minus_xval p (b64_ofZ 1) Fp F1) as (Nw & Vw). fold w in Nw, Vw. rewrite E1 in Vw. split; [exact Nw|]. rewrite Vw.
          split; intros G; rewrite <- rndc_0; apply rndc_mono.
          + apply SY in G. apply P1 in G. rewrite xval_finite in G by exact Fp. lra.
          + apply SY in G. apply P2 in G. lra.
        - destruct (Rlt_le_dec gamma 0) as [G|G]; [apply SY in G; destruct (P2 G); congruence|].
          assert (G' : 0 < gamma) by lra. pose proof G' as G2. apply SY in G2. apply P1 in G2. destruct p as [s0|s0| |s0 m0 e0 X0]; try discriminate.
          destruct s0; [cbn in G2; pose proof TOP_pos; lra|]. assert (Ew : w = B754_infinity false) by reflexivity. rewrite Ew. split; [reflexivity|].
          pose proof TOP_pos. split; intros; [cbn; lra|lra]. }
      destruct W as (Nw & W1 & W2).
      destruct (product_nonneg c w Fc Nw C0) as (Nz & Hz).
      { destruct (Rlt_le_dec gamma 0) as [G|G].
        - pose proof (W2 G). pose proof (proj2 SC G). nra.
        - assert (G' : 0 < gamma) by lra. pose proof (W1 G'). pose proof (proj1 SC G'). apply Rmult_le_pos; assumption. }
      exists (b64_mult c w). split; [|auto].
      cbn [m_pow c_math]. match goal with |- context [xpow ?u ?a ?b] => change (xpow u a b) with (xpow (N := B64) musl_utils (r : num B64) (e : num B64)) end.
      rewrite Ep'. reflexivity. }
  destruct K as (z & Ez & Nz & Hz).
  destruct (outer_sum (s_et s) z Fe Nz Hz) as ((N1 & O1) & (N2 & O2)).
  exists (b64_plus (s_et s) (b64_mult (s_updown s) z)). split.
  { unfold spot_quantile. match goal with |- context [tail_quantile ?m ?t ?a ?b] => change (tail_quantile m t a b) with (tail_quantile (c_math musl_utils) (s_tail s) (b64_div (b64_ofZ (s_Nt s)) (b64_ofZ (s_n s)) : num B64) q) end.
    rewrite Ez. reflexivity. }
  destruct Hd as [(-> & ->)|(-> & ->)].
  - split; [exact N1|]. split; [intros _|intros; lra]. rewrite leb_xval by (assumption || (apply finite_not_nan; assumption)). apply Rle_bool_true. rewrite (xval_finite (s_et s)) by exact Fe. exact O1.
  - split; [exact N2|]. split; [intros; lra|intros _]. rewrite leb_xval by (assumption || (apply finite_not_nan; assumption)). apply Rle_bool_true. rewrite (xval_finite (s_et s)) by exact Fe. exact O2.
Qed.
