(** * ZeroLemmas: what an excess equal to zero does to the fit (C72) *)
From Coq Require Import ZArith List Bool Reals Lra Lia.
From Flocq Require Import Core.Core IEEE754.BinarySingleNaN.
From Verif Require Import Num NumFacts XMath Ubend UbendFacts Session Peaks PeaksFacts Brent BrentB64 Estimator Tail P2 Spot SpotFacts B64 B64Facts LogAcc Spec
  FitLemmas SpotB64 DetectorLemmas WindowLemmas HistoryLemmas AccSpec FloatErr P2B64 PowAcc PowAcc4 RefitLemmas TinyFit TinyApi BrentBracket AdmissibleFit AdmissibleSize AdmissibleFit2 AdmissibleApi AdmissibleProps.
Import ListNotations.
Open Scope R_scope.

(** ** The root finder on a function which is NaN at NaN and at its second bound *)
Definition qn : num B64 := (B754_nan : b64).
Lemma nan_id (x : b64) : nan64 x = true -> x = (qn : b64).
Proof. destruct x; try discriminate. reflexivity. Qed.

Section Lost.
Variable func : num B64 -> res (num B64).
Hypothesis FN : func qn = Ret qn.

Lemma loop_lost fuel (tol a c d e fa : num B64) : brent_loop func fuel tol (MkBst a qn c d e fa qn qn) = Ret None.
Proof.
  revert a c d e fa. induction fuel as [|fuel IH]; intros; [reflexivity|]. cbn [brent_loop].
  assert (RN : brent_rename (MkBst a qn c d e fa qn qn) = MkBst a qn c d e fa qn qn) by reflexivity.
  rewrite RN. cbn [b_a b_b b_c b_d b_e b_fa b_fb b_fc].
  assert (XM : nmul (c_half (N := B64)) (nsub c qn) = qn).
  { apply nan_id. change (nan64 (b64_mult half64 (b64_minus c (qn : b64))) = true). destruct (c : b64), half64; reflexivity. }
  rewrite XM. change (nle (n := B64) (c_fabs qn) (brent_tol1 tol qn)) with false. change (neq (n := B64) qn (nofZ 0)) with false. cbn [orb].
  destruct (brent_de _ _ _) as [d1 e1].
  assert (BN : brent_next (brent_tol1 tol qn) qn qn d1 = qn).
  { unfold brent_next. destruct (nlt (n := B64) _ _); apply nan_id; reflexivity. }
  rewrite BN, FN. cbn [bind]. apply IH.
Qed.

Lemma brent_lost (x1 x2 tol fa : num B64) : func x1 = Ret fa -> func x2 = Ret qn -> x2 = (B754_infinity false : b64) \/ x2 = qn ->
  brent func x1 x2 tol = Ret (false, nofZ 0).
Proof.
  intros E1 E2 F2. unfold brent. rewrite E1, E2. cbn [bind].
  assert (SS : same_sign fa qn = false). { unfold same_sign. change (nlt (n := B64) (nofZ 0) qn) with false. change (nlt (n := B64) qn (nofZ 0)) with false. rewrite !andb_false_r. reflexivity. }
  rewrite SS. change BRENT_ITMAX with (S 199). generalize 199%nat as fuel. intros fuel. cbn [brent_loop].
  assert (RN : brent_rename (MkBst x1 x2 x2 (nofZ 0) (nofZ 0) fa qn qn) = MkBst x1 x2 x2 (nofZ 0) (nofZ 0) fa qn qn) by reflexivity.
  rewrite RN. cbn [b_a b_b b_c b_d b_e b_fa b_fb b_fc].
  assert (XM : nmul (c_half (N := B64)) (nsub x2 x2) = qn).
  { apply nan_id. change (nan64 (b64_mult half64 (b64_minus x2 x2)) = true). destruct F2 as [-> | ->]; destruct half64; reflexivity. }
  rewrite XM. change (nle (n := B64) (c_fabs qn) (brent_tol1 tol x2)) with false. change (neq (n := B64) qn (nofZ 0)) with false. cbn [orb].
  assert (DE : brent_de (brent_tol1 tol x2) qn (MkBst x1 x2 x2 (nofZ 0) (nofZ 0) fa qn qn) = (qn, qn)).
  { unfold brent_de. change (nlt (n := B64) (c_fabs qn) (c_fabs fa)) with false. rewrite andb_false_r. reflexivity. }
  rewrite DE.
  assert (BN : brent_next (brent_tol1 tol x2) qn x2 qn = qn).
  { unfold brent_next. replace (nlt (n := B64) (brent_tol1 tol x2) (c_fabs qn)) with false by (change (false = b64_ltb (brent_tol1 tol x2) B754_nan); destruct (brent_tol1 tol x2 : b64); reflexivity).
    change (nle (n := B64) (nofZ 0) qn) with false. cbv iota. apply nan_id. destruct F2 as [-> | ->]; [|reflexivity].
    set (t := b64_mult half64 tol). change (nan64 (b64_plus (B754_infinity false) (b64_opp (c_fabs (N := B64) (b64_plus (b64_mult eps2 (B754_infinity false)) t : num B64)))) = true).
    assert (E : b64_mult eps2 (B754_infinity false) = B754_infinity false).
    { pose proof (eq_refl : (match eps2 with B754_finite false _ _ _ => true | _ => false end) = true) as Q. destruct eps2 as [z|z| |[|] m e W]; try discriminate Q. reflexivity. }
    rewrite E. destruct t as [z|[|]| |z m e W]; reflexivity. }
  rewrite BN, FN. cbn [bind]. rewrite loop_lost. reflexivity.
Qed.
End Lost.

(** ** The right search in a window which holds a zero *)
Lemma w_nan_keeps (mf : MathFns B64) (w : list b64) (x : num B64) (u v : num B64) : nan64 u = true ->
  nan64 (fst (fold_left (fun uv (y : num B64) => let s := (nofZ 1 + x * y)%num in ((fst uv + nofZ 1 / s)%num, (snd uv + m_log mf s)%num)) w (u, v)) : b64) = true.
Proof.
  revert u v. induction w as [|y w IH]; intros u v H; [exact H|]. cbn [fold_left]. apply IH. cbn [fst].
  apply nan_id in H. rewrite H. reflexivity.
Qed.

Lemma w_nan (mf : MathFns B64) (w : list b64) (x : num B64) (z : b64) : In z w -> nan64 (b64_mult x z) = true -> grimshaw_w_of mf w x = qn.
Proof.
  intros I H. unfold grimshaw_w_of.
  assert (F : forall u v : num B64, nan64 (fst (fold_left (fun uv (y : num B64) => let s := (nofZ 1 + x * y)%num in ((fst uv + nofZ 1 / s)%num, (snd uv + m_log mf s)%num)) w (u, v)) : b64) = true).
  { induction w as [|y w IH]; [destruct I|]. intros u v. cbn [fold_left]. destruct I as [->|I].
    - apply w_nan_keeps. cbn [fst]. change (nan64 (b64_plus u (b64_div (b64_ofZ 1) (b64_plus (b64_ofZ 1) (b64_mult x z)))) = true).
      apply nan_id in H. rewrite H. destruct (u : b64); reflexivity.
    - apply IH. exact I. }
  specialize (F (nofZ 0) (nofZ 0)). destruct (fold_left _ w _) as [u v]. cbn [fst] in F. apply nan_id in F. apply nan_id. rewrite F. reflexivity.
Qed.

Lemma mult_inf_zero (s z : bool) : nan64 (b64_mult (B754_infinity s) (B754_zero z)) = true.
Proof. reflexivity. Qed.

Lemma right_lost (mf : MathFns B64) cap (p : peaks B64) (l w : list b64) z zm (x1 tol : num B64) : prep (N := B64) cap p l w -> In (B754_zero z : b64) w ->
  p_min p = (B754_zero zm : b64) -> nan64 (peaks_mean p) = false -> 0 <= xval (peaks_mean p) ->
  brent (grimshaw_w mf p) x1 (right_hi p : num B64) tol = Ret (false, nofZ 0).
Proof.
  intros PR IZ EM NM HM.
  assert (RH : right_hi p = B754_infinity false \/ right_hi p = (qn : b64)).
  { unfold right_hi. rewrite EM. replace (b64_mult (B754_zero zm) (B754_zero zm) : b64) with (B754_zero false : b64) by (destruct zm; reflexivity).
    set (m := peaks_mean p : b64) in *. destruct m as [s|s| |s mm e W] eqn:Q; try discriminate NM.
    - right. destruct s, zm; reflexivity.
    - left. destruct s; [cbn in HM; pose proof TOP_pos; lra|]. destruct zm; reflexivity.
    - left. destruct s.
      + exfalso. assert (B2R (B754_finite true mm e W : b64) < 0) by (apply F2R_lt_0; reflexivity). change (0 <= B2R (B754_finite true mm e W : b64)) in HM. lra.
      + replace (b64_minus (B754_finite false mm e W) (B754_zero zm)) with (B754_finite false mm e W : b64) by (destruct zm; reflexivity).
        assert (F : finite64 (B754_finite false mm e W) = true) by reflexivity. destruct (twice _ F) as (N2 & V2).
        assert (P : 0 < B2R64 (B754_finite false mm e W)) by (apply F2R_gt_0; reflexivity).
        set (y := b64_mult (b64_ofZ 2) (B754_finite false mm e W)) in *.
        assert (G : 0 < xval y).
        { rewrite V2. unfold clamp. pose proof TOP_pos. apply Rlt_le_trans with (Rmin TOP (2 * B2R64 (B754_finite false mm e W))); [apply Rmin_pos; lra|apply Rmax_r]. }
        destruct y as [s|s| |s m' e' W'].
        * cbn in G. lra.
        * destruct s; [cbn in G; pose proof TOP_pos; lra|reflexivity].
        * discriminate N2.
        * destruct s; [|reflexivity]. exfalso. assert (B2R (B754_finite true m' e' W' : b64) < 0) by (apply F2R_lt_0; reflexivity). change (0 < B2R (B754_finite true m' e' W' : b64)) in G. lra. }
  refine (brent_lost (grimshaw_w mf p) _ x1 (right_hi p : num B64) tol (grimshaw_w_of mf w x1) _ _ RH).
  - rewrite (grimshaw_w_eq mf cap p l w qn PR). f_equal. apply (w_nan mf w qn _ IZ). reflexivity.
  - apply (grimshaw_w_eq mf cap p l w x1 PR).
  - rewrite (grimshaw_w_eq mf cap p l w _ PR). f_equal. apply (w_nan mf w _ _ IZ). destruct RH as [-> | ->]; reflexivity.
Qed.

Lemma rndc_nonpos r : r <= 0 -> rndc r <= 0.
Proof. intros H. apply Rnot_lt_le. intros C. apply (rndc_lt_inv (b64_ofZ 0)) in C. change (B2R64 (b64_ofZ 0)) with 0 in C. lra. Qed.
Lemma rndc_nonneg r : 0 <= r -> 0 <= rndc r.
Proof. exact (fle (b64_ofZ 0) r). Qed.
Lemma rndc_le_b (b : b64) r : r <= B2R64 b -> rndc r <= B2R64 b.
Proof. exact (fge b r). Qed.

(** ** Signs of the candidates *)
Lemma left_nonpos cap (p : peaks B64) (l w : list b64) (x : b64) ll (g s : b64) : prep (N := B64) cap p l w ->
  (0 < Z.of_nat (length w) <= 2 ^ 50)%Z -> (forall v, In v w -> finite64 v = true /\ 0 <= B2R64 v) ->
  finite64 x = true -> B2R64 x < 0 -> grimshaw_simplified_log_likelihood cm (x : num B64) p = Ret (ll, g : num B64, s : num B64) ->
  finite64 g = true -> B2R64 g <= 0.
Proof.
  intros PR Hn T Fx Hx E Fg. unfold grimshaw_simplified_log_likelihood in E. change (neq (n := B64) x (nofZ 0)) with (b64_eqb x (b64_ofZ 0)) in E.
  assert (X0 : b64_eqb x (b64_ofZ 0) = false).
  { rewrite eqb_xval, xval_zero, (xval_finite _ Fx) by (try apply finite_not_nan; try assumption; reflexivity). apply Req_bool_false. lra. }
  rewrite X0 in E. rewrite (grimshaw_v_eq cm cap p l w _ PR) in E. cbn [bind] in E. destruct (log_likelihood cm p _ _); cbn [bind] in E; [|discriminate].
  assert (E1 : b64_minus (grimshaw_v_of cm w (x : num B64)) (b64_ofZ 1) = g) by (injection E as _ X _; exact X). clear E.
  set (f := fun y : b64 => xlog (N := B64) musl_utils (b64_plus (b64_ofZ 1) (b64_mult x y)) : b64).
  set (n := Z.of_nat (length w)) in *. set (S := fold_left (fun r v => b64_plus r (f v)) w (b64_ofZ 0)).
  change (b64_minus (b64_plus (b64_ofZ 1) (b64_div S (b64_ofZ n))) (b64_ofZ 1) = g) in E1.
  destruct (ofZ_exact 1 ltac:(lia)) as (F1 & V1). destruct (ofZ_exact n ltac:(lia)) as (Fn & En).
  assert (Nn : 1 <= IZR n) by (apply IZR_le; lia).
  assert (Fv : finite64 (b64_plus (b64_ofZ 1) (b64_div S (b64_ofZ n))) = true) by (apply (minus_fin_inv _ (b64_ofZ 1)); rewrite E1; exact Fg).
  assert (FD : finite64 (b64_div S (b64_ofZ n)) = true) by (apply (plus_fin_inv (b64_ofZ 1)); exact Fv).
  assert (FS : finite64 S = true).
  { destruct (pos_int_shape n ltac:(lia)) as (mm & e & W & EW). rewrite EW in FD. destruct S; try reflexivity; discriminate FD. }
  assert (NS : nan64 S = false) by (apply finite_not_nan; exact FS). destruct (fold_nan f w _ NS) as (_ & NF).
  assert (NP : forall y, In y w -> xval (f y) <= 0).
  { intros y Hy. destruct (T y Hy) as (Fy & Py). pose proof (NF y Hy) as Nf. unfold f in *.
    assert (XY : B2R64 x * B2R64 y <= - 0) by (rewrite Ropp_0; rewrite <- (Rmult_0_l (B2R64 y)); apply Rmult_le_compat_r; lra).
    destruct (support_term x y 0 Fx Fy XY ltac:(lra) Nf) as (X & _). pose proof (log_le _ 0 Nf ltac:(lra) ltac:(lra)). lra. }
  destruct (fold_le f w (b64_ofZ 0) ltac:(rewrite xval_zero; lra) NP NS) as (LS & _). fold S in LS. rewrite (xval_finite _ FS) in LS.
  destruct (div_xval S _ FS Fn ltac:(rewrite En; lra)) as (_ & Vd). rewrite (xval_finite _ FD), En in Vd.
  assert (D : B2R64 (b64_div S (b64_ofZ n)) <= 0).
  { rewrite xval_zero in LS. rewrite Vd. apply rndc_nonpos. assert (0 < / IZR n) by (apply Rinv_0_lt_compat; lra). unfold Rdiv. nra. }
  destruct (plus_xval _ _ F1 FD) as (_ & Vp). rewrite (xval_finite _ Fv), V1 in Vp.
  assert (P : B2R64 (b64_plus (b64_ofZ 1) (b64_div S (b64_ofZ n))) <= 1).
  { rewrite Vp, <- V1. apply rndc_le_b. rewrite V1. lra. }
  destruct (minus_xval _ _ Fv F1) as (_ & Vm). rewrite E1, (xval_finite _ Fg), V1 in Vm.
  rewrite Vm. apply rndc_nonpos. lra.
Qed.

Lemma mom_le_half (p : peaks B64) : finite64 (peaks_mean p) = true -> finite64 (peaks_var p) = true -> 0 < B2R64 (peaks_var p) ->
  finite64 (mom_gamma p) = true -> B2R64 (mom_gamma p) <= 1 / 2.
Proof.
  intros FE FV HV Fg. unfold mom_gamma in *. change (Spec.d 1) with (b64_ofZ 1) in *. change half with half64 in *.
  destruct (ofZ_exact 1 ltac:(lia)) as (F1 & V1).
  assert (FM : finite64 (b64_minus (b64_ofZ 1) (mom_ratio p)) = true).
  { destruct (b64_minus (b64_ofZ 1) (mom_ratio p)) as [z|z| |z m e W] eqn:Q; try reflexivity; exfalso; rewrite ?Q in Fg.
    - pose proof half64_val as HV'. pose proof half64_fin as HF. destruct half64; try discriminate; cbn in HV'; lra.
    - destruct half64; discriminate. }
  assert (FR : finite64 (mom_ratio p) = true).
  { destruct (mom_ratio p) as [z|z| |z m e W] eqn:Q; try reflexivity; exfalso; rewrite ?Q in FM; discriminate. }
  assert (R0 : 0 <= B2R64 (mom_ratio p)).
  { unfold mom_ratio in *.
    assert (F2 : finite64 (b64_mult (peaks_mean p) (peaks_mean p)) = true).
    { destruct (pos_shape _ FV HV) as (m & e & W & EV). rewrite EV in FR. destruct (b64_mult (peaks_mean p) (peaks_mean p)); try reflexivity; discriminate FR. }
    destruct (mult_xval _ _ FE FE) as (_ & V2). rewrite (xval_finite _ F2) in V2.
    assert (S0 : 0 <= B2R64 (b64_mult (peaks_mean p) (peaks_mean p))) by (rewrite V2; apply rndc_nonneg; nra).
    destruct (div_xval _ _ F2 FV ltac:(lra)) as (_ & Vd). rewrite (xval_finite _ FR) in Vd. rewrite Vd. apply rndc_nonneg.
    unfold Rdiv. apply Rmult_le_pos; [exact S0|apply Rlt_le, Rinv_0_lt_compat; exact HV]. }
  destruct (minus_xval _ _ F1 FR) as (_ & Vm). rewrite (xval_finite _ FM), V1 in Vm.
  assert (P : B2R64 (b64_minus (b64_ofZ 1) (mom_ratio p)) <= 1).
  { rewrite Vm, <- V1. apply rndc_le_b. rewrite V1. lra. }
  destruct (mult_xval half64 _ half64_fin FM) as (_ & V). rewrite (xval_finite _ Fg), half64_val in V. rewrite V.
  apply Rle_trans with (B2R64 half64); [|rewrite half64_val; lra]. apply rndc_le_b. rewrite half64_val. lra.
Qed.

(** ** At the level of the detector *)
Lemma zero_shape (v : b64) : finite64 v = true -> B2R64 v = 0 -> exists z, v = B754_zero z.
Proof.
  intros F V. destruct v as [z|z| |z m e W]; try discriminate F; [exists z; reflexivity|]. exfalso. apply eq_0_F2R in V. destruct z; discriminate V.
Qed.
Lemma zero_is_min mf q low discard level cap (s : spot B64) (v : b64) : detector mf q low discard level cap s ->
  In (Some (v : num B64)) (oldest_first (window s)) -> B2R v = 0 -> is_finite v = true ->
  (exists z, v = B754_zero z) /\ exists z, p_min (t_peaks (s_tail s)) = (B754_zero z : b64).
Proof.
  intros D I V F. pose proof (zero_shape v F V) as VZ.
  split; [exact VZ|]. destruct VZ as (z & ->).
  destruct (history_lemma _ _ _ _ _ _ _ D) as (blk & hist & HB & HP & HN).
  assert (C : (1 <= cap < 2 ^ 61)%Z) by (destruct D as (? & ? & ? & ? & ? & C & _); exact C).
  destruct (C16_lemma cap blk hist C HB) as (p1 & E1 & OF & M). { intros x Hx. apply HN. exact Hx. }
  rewrite HP in E1. injection E1 as <-. change (p_cont (t_peaks (s_tail s))) with (window s) in OF. rewrite OF in I. apply in_map_iff in I as (y & Ey & Hy). injection Ey as ->.
  destruct M as (I1 & _ & M). { intros X. rewrite X in Hy. unfold last_k, lastn in Hy. rewrite skipn_nil in Hy. destruct Hy. }
  destruct (M _ Hy) as (L & _). set (m := p_min (t_peaks (s_tail s)) : b64) in *.
  assert (Q : is_NaN m = false /\ b64_leb (d 0) m = true) by (apply HN; eapply lastn_incl; exact I1). destruct Q as (Nm & L0).
  apply leb_true_iff in L as (_ & _ & L). apply leb_true_iff in L0 as (_ & _ & L0). change (d 0) with (b64_ofZ 0) in L0. rewrite xval_zero in L0.
  change (xval (B754_zero z)) with 0 in L. rewrite is_NaN_eq in Nm.
  destruct m as [z'|z'| |z' mm e W]; [exists z'; reflexivity|exfalso|discriminate Nm|exfalso].
  - pose proof TOP_pos. destruct z'; cbn in L, L0; lra.
  - change (xval (B754_finite z' mm e W)) with (B2R64 (B754_finite z' mm e W)) in L, L0. destruct (zero_shape (B754_finite z' mm e W) eq_refl ltac:(lra)) as (? & Q). discriminate Q.
Qed.

Lemma C72_shape q low discard level cap (s s' : spot B64) (v : b64) :
  detector (c_math musl_utils) q low discard level cap s -> (cap <= 2 ^ 50)%Z ->
  (exists x, spot_step (c_math musl_utils) s x = Ret (s', EXCESS)) \/ (exists data, spot_fit (c_math musl_utils) s data = Ret (s', 0%Z)) ->
  In (Some (v : num B64)) (oldest_first (window s')) -> is_finite v = true -> B2R v = 0 ->
  let t := s_tail s' in let p := t_peaks t in
  is_finite (p_max p) = true -> 2 / 10 ^ 8 * IZR (peaks_size p) <= B2R (p_max p : b64) <= 10 ^ 30 ->
  is_finite (peaks_mean p) = true -> 0 < B2R (peaks_mean p : b64) ->
  is_finite (peaks_var p) = true -> 0 < B2R (peaks_var p : b64) ->
  is_finite (t_gamma t) = true /\ B2R (t_gamma t : b64) <= 1 / 2.
Proof.
  intros D HC R IV Fv Vv t p FM HM Fm Hm FV HV. pose proof (refit_of _ _ R) as R'. pose proof (refit_detector _ _ _ _ _ _ _ _ D R') as D'.
  assert (Fg : finite64 (t_gamma t) = true).
  { destruct (C62_or q low discard level cap s s' D ltac:(lia) R Fm Hm) as [(A & _)|(_ & A & _)]; exact A. }
  split; [exact Fg|]. clear R.
  destruct (zero_is_min _ _ _ _ _ _ _ _ D' IV Vv Fv) as ((z & EZ) & zm & EM). fold t in EM. fold p in EM. subst v.
  destruct (refit_tail _ _ _ R') as (g0 & s0 & ll & TF & SQ). fold t in TF. fold p in TF.
  destruct (window_content _ _ _ _ _ _ _ D') as (l & w & PW & OF & W0 & WM & IM & WL). fold t in PW, WM, IM. fold p in PW, WM, IM.
  assert (SZ : ubend_size (p_cont p) = Z.of_nat (length w)) by (destruct PW as (_ & _ & _ & X); exact X).
  assert (IZ : In (B754_zero z : b64) w) by exact (oldest_in _ _ _ _ _ _ _ l w _ D' PW OF IV).
  assert (NE : w <> []) by (intros X; rewrite X in IZ; destruct IZ).
  specialize (WM NE). specialize (IM NE). unfold peaks_size in HM. rewrite SZ in HM.
  assert (L0 : (0 < Z.of_nat (length w))%Z) by (destruct w; [congruence|cbn [length]; lia]).
  assert (Hn : (Z.of_nat (length w) <= 2 ^ 50)%Z) by lia.
  destruct (epsilon_range cap p l w PW W0 WM IM Hn FM HM) as (Fep & Pep & _). destruct (left_lo_range cap p l w PW W0 WM IM Hn FM HM) as (Fl & Rl).
  destruct eps0_range as (F0 & H0). assert (T9 : 1 <= 10 ^ 199) by (apply pow_R1_Rle; lra).
  assert (T0 : / 10 ^ 40 <= B2R64 eps0 <= 10 ^ 199) by lra.
  assert (Fo : finite64 (b64_opp (g_epsilon p)) = true) by (rewrite finite_opp; exact Fep).
  assert (Eo : B2R64 (b64_opp (g_epsilon p)) = - B2R64 (g_epsilon p)) by (rewrite <- (xval_finite _ Fo), xval_opp, (xval_finite _ Fep); reflexivity).
  destruct (fit_cases _ _ _ _ TF) as [(E1 & E2)|[(E1 & E2)|[(x & E1 & E2)|(x & E1 & E2)]]]; cbn [t_peaks] in *.
  - rewrite E1 in Fg |- *. apply mom_le_half; assumption.
  - rewrite E1. change (B2R64 (b64_ofZ 0)) with 0. lra.
  - destruct (C61_lemma (grimshaw_w cm p) (left_lo p) (b64_opp (g_epsilon p)) eps0 Fl Fo F0) as (IN & _); [apply Rabs_le; lra|rewrite Eo; apply Rabs_le; lra|exact T0|].
    destruct (IN x E1) as (Fx & Bx). rewrite Eo in Bx.
    assert (Hx : B2R64 x < 0) by (apply Rle_lt_trans with (1 := proj2 Bx); apply Rmax_lub_lt; lra).
    apply Rle_trans with 0; [|lra]. refine (left_nonpos cap p l w x ll _ _ PW ltac:(lia) _ Fx Hx E2 Fg).
    intros y Hy. specialize (W0 y Hy). specialize (WM y Hy). apply leb_true_iff in W0 as (_ & N1 & Y0). apply leb_true_iff in WM as (_ & _ & Y1).
    change (d 0) with (b64_ofZ 0) in Y0. rewrite xval_zero in Y0. rewrite (xval_finite _ FM) in Y1.
    assert (Fy : finite64 y = true) by (apply finite_of_xval; [exact N1|]; rewrite Rabs_pos_eq by exact Y0; pose proof (B2R_bounds (p_max p)) as Bd; lra).
    rewrite (xval_finite _ Fy) in Y0. auto.
  - exfalso. rewrite (right_lost cm cap p l w z zm _ _ PW IZ EM (finite_not_nan _ Fm)) in E1; [discriminate E1|]. rewrite (xval_finite _ Fm). lra.
Qed.

Lemma C72_step mf q low discard level cap (s s' : spot B64) (x : b64) r :
  detector mf q low discard level cap s -> is_finite (s_et s : b64) = true -> b64_eqb x (s_et s) = true ->
  spot_step mf s (x : num B64) = Ret (s', r) -> r <> ANOMALY ->
  r = EXCESS /\ exists v : b64, In (Some (v : num B64)) (oldest_first (window s')) /\ is_finite v = true /\ B2R v = 0.
Proof.
  intros D Fe Ex H NA.
  assert (Fx : finite64 x = true) by (set (e := s_et s : b64) in *; destruct x as [z|z| |z m e' W], e as [y|y| |y m' e'' W']; try discriminate Fe; try discriminate Ex; try reflexivity; destruct z; discriminate Ex).
  pose proof Ex as Ev. rewrite eqb_xval, (xval_finite _ Fx), (xval_finite _ Fe) in Ev by (apply finite_not_nan; assumption).
  assert (V : B2R64 x = B2R64 (s_et s)) by (revert Ev; case Req_bool_spec; [auto|discriminate]).
  assert (Nx : is_NaN x = false) by (rewrite is_NaN_eq; apply finite_not_nan; exact Fx).
  destruct (C08_lemma mf q low discard level cap s x s' r D Nx H) as (_ & C).
  assert (SI : same_infinity x (s_et s) = false) by (destruct x; try discriminate Fx; reflexivity).
  assert (AB : at_or_beyond low (s_et s) x = true).
  { unfold at_or_beyond. destruct (Z.eqb low 0); rewrite leb_xval, (xval_finite _ Fx), (xval_finite _ Fe), V by (apply finite_not_nan; assumption); apply Rle_bool_true; lra. }
  assert (RE : r = EXCESS) by (apply C; auto). split; [exact RE|]. subst r.
  pose proof (C09_window_lemma mf q low discard level cap s x s' D H) as W.
  destruct (minus_xval x (s_et s) Fx Fe) as (N & VM). rewrite V, Rminus_diag_eq in VM by reflexivity.
  assert (Z0 : rndc 0 = 0). { pose proof (rndc_nonneg 0 (Rle_refl 0)). pose proof (rndc_nonpos 0 (Rle_refl 0)). lra. }
  rewrite Z0 in VM. set (u := b64_minus x (s_et s)) in *.
  assert (FU : finite64 u = true) by (apply finite_of_xval; [exact N|]; rewrite VM, Rabs_R0; apply TOP_pos). rewrite (xval_finite _ FU) in VM.
  exists (if Z.eqb low 0 then u else b64_opp u). split; [|destruct (Z.eqb low 0); [auto|split; [rewrite finite_opp; exact FU|]]].
  - rewrite W. unfold last_k. assert (Cp : (1 <= cap)%Z) by (destruct D as (? & ? & ? & ? & ? & (Cp & _) & _); exact Cp).
    rewrite skipn_app. apply in_or_app. right. rewrite app_length. cbn [length].
    replace (_ - Z.to_nat cap - _)%nat with 0%nat by lia. left. reflexivity.
  - rewrite <- (xval_finite _ ltac:(rewrite finite_opp; exact FU)), xval_opp, (xval_finite _ FU), VM. lra.
Qed.

Lemma C72_fit mf q low discard level cap (s s' : spot B64) data r (v : b64) :
  detector mf q low discard level cap s -> oldest_first (window s) = [] -> spot_fit mf s data = Ret (s', r) ->
  In (Some (v : num B64)) (oldest_first (window s')) -> is_finite v = true -> B2R v <> 0.
Proof.
  intros D E F I Fv V. destruct (C26_lemma mf q low discard level cap s data s' r D F) as (A & B).
  destruct (Z.eq_dec r (-1003)) as [X|X].
  { rewrite (A X) in I. rewrite E in I. destruct I. }
  destruct (B X) as (B1 & _). rewrite B1, E in I. cbn [app] in I.
  assert (I2 : In (Some (v : num B64)) (map Some (excesses low (s_et s') data))) by (eapply lastn_incl; exact I).
  apply in_map_iff in I2 as (y & Ey & Hy). injection Ey as ->. unfold excesses in Hy. apply in_map_iff in Hy as (x & Ex & Hx). apply filter_In in Hx as (_ & Bx).
  set (e := s_et s' : b64) in *.
  assert (M : forall a b : b64, b64_ltb a b = true \/ b64_ltb b a = true -> finite64 (b64_minus a b) = true -> B2R64 (b64_minus a b) <> 0).
  { intros a b L Fu U.
    assert (N : nan64 a = false /\ nan64 b = false /\ xval a <> xval b) by (destruct L as [L|L]; apply ltb_true_iff in L as (N1 & N2 & L); repeat split; auto; lra).
    destruct N as (N1 & N2 & NQ).
    destruct (finite64 a) eqn:Fa, (finite64 b) eqn:Fb.
    - destruct (minus_sign a b Fa Fb) as (_ & _ & P). rewrite (xval_finite _ Fu) in P. apply P in U. rewrite (xval_finite _ Fa), (xval_finite _ Fb) in NQ. contradiction.
    - destruct b as [z|z| |z m e' W]; try discriminate Fb; try discriminate N2. destruct a, z; discriminate.
    - destruct a as [z|z| |z m e' W]; try discriminate Fa; try discriminate N1. destruct b, z; discriminate.
    - destruct a as [z|z| |z m e' W]; try discriminate Fa; try discriminate N1. destruct b as [z'|z'| |z' m e' W]; try discriminate Fb; try discriminate N2. destruct z, z'; discriminate. }
  unfold distance, beyond in *. destruct (Z.eqb low 0); rewrite <- Ex in Fv, V.
  - exact (M x e (or_intror Bx) Fv V).
  - rewrite finite_opp in Fv. apply (M x e (or_introl Bx) Fv). rewrite <- (xval_finite _ Fv). rewrite <- (xval_finite (b64_opp _)) in V by (rewrite finite_opp; exact Fv). rewrite xval_opp in V. lra.
Qed.
