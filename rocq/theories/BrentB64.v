(** * BrentB64: the root finder on doubles (C33) *)
From Coq Require Import ZArith List Bool Lia Reals Lra.
From Flocq Require Import Core.Core IEEE754.BinarySingleNaN.
From Verif Require Import Num NumFacts XMath Brent BrentLemmas B64 B64Facts Spec SpotB64 P2B64.
Import ListNotations.
Open Scope Z_scope.

Lemma asym_b64 (x : num B64) : (x >? #0)%num = true -> (x <? #0)%num = false.
Proof.
  change (b64_ltb (b64_ofZ 0) x = true -> b64_ltb x (b64_ofZ 0) = false). intros H.
  apply ltb_true_iff in H as (H1 & H2 & H3). rewrite ltb_xval by assumption. apply Rlt_bool_false. lra.
Qed.

Definition eps2 : b64 := b64_mult (b64_ofZ 2) (BRENT_DEFAULT_EPSILON (N := B64)).
Definition half64 : b64 := c_half (N := B64).
Lemma half64_fin : finite64 half64 = true.
Proof. vm_compute. reflexivity. Qed.
Lemma half64_val : B2R64 half64 = (1 / 2)%R.
Proof.
  unfold half64, c_half. change (ndiv (n := B64) (nofZ 1) (nofZ 2)) with (b64_div (b64_ofZ 1) (b64_ofZ 2)).
  destruct (div_xval (b64_ofZ 1) (b64_ofZ 2)) as (H1 & H2); try (apply ofZ_fin; lia).
  { rewrite ofZ_B2R by lia. lra. }
  rewrite !ofZ_B2R in H2 by lia.
  pose proof half64_fin as F. unfold half64, c_half in F. change (ndiv (n := B64) (nofZ 1) (nofZ 2)) with (b64_div (b64_ofZ 1) (b64_ofZ 2)) in F.
  rewrite <- (xval_finite _ F), H2. unfold rndc.
  replace (1 / 2)%R with (bpow radix2 (-1)) by (cbn; lra). rewrite rnd_bpow by lia.
  apply clamp_id. rewrite Rabs_pos_eq by apply bpow_ge_0. left. apply bpow_lt. lia.
Qed.
Lemma eps2_fin : finite64 eps2 = true.
Proof. vm_compute. reflexivity. Qed.
Lemma eps2_range : (0 <= B2R64 eps2 <= 1)%R.
Proof.
  assert (A : b64_leb (b64_ofZ 0) eps2 = true) by (vm_compute; reflexivity).
  assert (B : b64_leb eps2 (b64_ofZ 1) = true) by (vm_compute; reflexivity).
  apply leb_true_iff in A as (_ & _ & A). apply leb_true_iff in B as (_ & _ & B).
  rewrite (xval_finite _ eps2_fin) in *. rewrite xval_ofZ in A, B by lia. lra.
Qed.

Lemma fabs_fin (x : b64) : finite64 x = true -> finite64 (c_fabs (N := B64) x) = true /\ B2R64 (c_fabs (N := B64) x) = Rabs (B2R64 x).
Proof.
  intros F. unfold c_fabs. change (nlt (n := B64) x (nofZ 0)) with (b64_ltb x (b64_ofZ 0)).
  rewrite ltb_xval by (try apply finite_not_nan; try assumption; reflexivity). rewrite xval_zero, (xval_finite _ F).
  case Rlt_bool_spec; intros H.
  - change (nopp (n := B64) x) with (b64_opp x). rewrite finite_opp. split; [assumption|].
    rewrite <- (xval_finite (b64_opp x)) by (rewrite finite_opp; assumption). rewrite xval_opp, (xval_finite _ F), Rabs_left by assumption. reflexivity.
  - split; [assumption|]. rewrite Rabs_pos_eq by assumption. reflexivity.
Qed.

Lemma mult_small (c x : b64) : finite64 c = true -> finite64 x = true -> (0 <= B2R64 c <= 1)%R -> (0 <= B2R64 x)%R ->
  finite64 (b64_mult c x) = true /\ (0 <= B2R64 (b64_mult c x) <= B2R64 x)%R.
Proof.
  intros Fc Fx Hc Hx. destruct (mult_xval c x Fc Fx) as (H1 & H2).
  assert (B : (0 <= rnd (B2R64 c * B2R64 x) <= B2R64 x)%R).
  { split; [apply rnd_nonneg; nra|]. rewrite <- (rnd_format x) at 2. apply round_le; [apply FLT_exp_valid; reflexivity|apply valid_rnd_N|]. nra. }
  pose proof (abs_B2R_TOP x) as T. rewrite Rabs_pos_eq in T by assumption.
  assert (E : rndc (B2R64 c * B2R64 x) = rnd (B2R64 c * B2R64 x)) by (apply clamp_id; rewrite Rabs_pos_eq; lra).
  rewrite E in H2.
  assert (F : finite64 (b64_mult c x) = true) by (apply finite_of_xval; [assumption|]; rewrite H2, Rabs_pos_eq; lra).
  split; [assumption|]. rewrite <- (xval_finite _ F), H2. exact B.
Qed.

Lemma tol1_nonneg (tol x : b64) : finite64 x = true -> finite64 tol = true -> (0 <= B2R64 tol)%R ->
  nan64 (brent_tol1 (N := B64) tol x) = false /\ (0 <= xval (brent_tol1 (N := B64) tol x))%R.
Proof.
  intros Fx Ft Ht. unfold brent_tol1.
  change (nan64 (b64_plus (b64_mult eps2 (c_fabs (N := B64) x)) (b64_mult half64 tol)) = false /\
          (0 <= xval (b64_plus (b64_mult eps2 (c_fabs (N := B64) x)) (b64_mult half64 tol)))%R).
  destruct (fabs_fin x Fx) as (Fa & Va).
  destruct (mult_small eps2 (c_fabs (N := B64) x) eps2_fin Fa eps2_range) as (F1 & V1); [rewrite Va; apply Rabs_pos|].
  destruct (mult_small half64 tol half64_fin Ft) as (F2 & V2); [rewrite half64_val; lra|assumption|].
  destruct (plus_xval _ _ F1 F2) as (H1 & H2). split; [assumption|]. rewrite H2.
  rewrite <- rndc_0. apply rndc_mono. lra.
Qed.

Lemma nan_right_end (func : num B64 -> res (num B64)) (x1 x2 tol : b64) fa :
  func x1 = Ret fa -> func x2 = Ret (B754_nan : num B64) -> finite64 x2 = true -> finite64 tol = true -> (0 <= B2R64 tol)%R ->
  brent func x1 x2 tol = Ret (true, x2 : num B64).
Proof.
  intros A B Fx Ft Ht. apply (right_end func x1 x2 tol fa B754_nan A B).
  - unfold same_sign. cbn. destruct fa as [s|s| |s m e H]; try destruct s; reflexivity.
  - reflexivity.
  - reflexivity.
  - change (b64_leb (c_fabs (N := B64) (b64_mult half64 (b64_minus x2 x2))) (brent_tol1 (N := B64) tol x2) = true).
    destruct (minus_xval x2 x2 Fx Fx) as (M1 & M2). rewrite Rminus_eq_0, rndc_0 in M2.
    assert (FM : finite64 (b64_minus x2 x2) = true) by (apply finite_of_xval; [assumption|]; rewrite M2, Rabs_R0; apply TOP_pos).
    assert (VM : B2R64 (b64_minus x2 x2) = 0%R) by (rewrite <- (xval_finite _ FM); assumption).
    destruct (mult_small half64 (b64_minus x2 x2) half64_fin FM) as (F1 & V1); [rewrite half64_val; lra|lra|].
    rewrite VM in V1. assert (V : B2R64 (b64_mult half64 (b64_minus x2 x2)) = 0%R) by lra.
    destruct (fabs_fin _ F1) as (F2 & V2). rewrite V, Rabs_R0 in V2.
    destruct (tol1_nonneg tol x2 Fx Ft Ht) as (N1 & N2).
    apply leb_true_iff. split; [apply finite_not_nan; assumption|]. split; [assumption|]. rewrite (xval_finite _ F2), V2. assumption.
Qed.

(** ** Statements of the property file *)
Lemma same_sign_iff {N : NumOps} (x y : num N) : same_sign x y = true <->
  ((#0 <? x)%num = true /\ (#0 <? y)%num = true) \/ ((x <? #0)%num = true /\ (y <? #0)%num = true).
Proof. unfold same_sign. rewrite orb_true_iff, !andb_true_iff. reflexivity. Qed.

Lemma C33_fails_lemma {N : NumOps} (func : num N -> res (num N)) x1 x2 tol fa fb : func x1 = Ret fa -> func x2 = Ret fb ->
  ((#0 <? fa)%num = true /\ (#0 <? fb)%num = true) \/ ((fa <? #0)%num = true /\ (fb <? #0)%num = true) ->
  brent func x1 x2 tol = Ret (false, #0%num).
Proof. intros A B H. apply (same_strict_sign_fails func x1 x2 tol fa fb A B). apply same_sign_iff. exact H. Qed.

Lemma C33_contract_lemma (func : num B64 -> res (num B64)) (x1 x2 tol b : b64) :
  brent func x1 x2 tol = Ret (true, b : num B64) ->
  exists fb, func b = Ret fb /\
    (b64_eqb fb (b64_ofZ 0) = true \/
     exists c fc, func c = Ret fc /\
       ~ (((#0 <? fb)%num = true /\ (#0 <? fc)%num = true) \/ ((fb <? #0)%num = true /\ (fc <? #0)%num = true)) /\
       (c_fabs (c_half * (c - b)) <=? brent_tol1 (N := B64) tol b)%num = true).
Proof.
  intros E. destruct (contract asym_b64 func x1 x2 tol b E) as (fb & F & H). exists fb. split; [exact F|].
  destruct H as [H|(c & fc & H1 & H2 & H3)]; [left; exact H|right]. exists c, fc. split; [exact H1|]. split; [|exact H3].
  intros C. apply same_sign_iff in C. congruence.
Qed.

Definition b64_abs_err (x y : b64) : b64 := c_fabs (N := B64) (b64_minus x y).
Definition near (y tol : b64) (r : res (bool * num B64)) : bool :=
  match r with Ret (true, b) => b64_leb (b64_abs_err b y) tol | _ => false end.
Lemma near_spec y tol r : near y tol r = true -> exists b, r = Ret (true, b) /\ b64_leb (b64_abs_err b y) tol = true.
Proof. destruct r as [[[|] b]|]; try discriminate. intros H. exists b. auto. Qed.

Definition step1 (x : b64) : b64 := if b64_ltb x (b64_ofZ 1) then b64_ofZ (-1) else b64_ofZ 1.
Definition failed (r : res (bool * num B64)) : bool := match r with Ret (false, _) => true | _ => false end.
Lemma step_not_found :
  exists (f : b64 -> b64) (x1 x2 : b64), is_finite x1 = true /\ is_finite x2 = true /\
    b64_ltb (f x1) (b64_ofZ 0) = true /\ b64_ltb (b64_ofZ 0) (f x2) = true /\
    exists v, brent (N := B64) (fun x => Ret (f x)) x1 x2 (BRENT_DEFAULT_EPSILON (N := B64)) = Ret (false, v).
Proof.
  exists step1, (b64_ofZ (- 2 ^ 900)), (b64_ofZ (2 ^ 901)). split; [vm_compute; reflexivity|]. split; [vm_compute; reflexivity|].
  split; [vm_compute; reflexivity|]. split; [vm_compute; reflexivity|].
  assert (H : failed (brent (N := B64) (fun x => Ret (step1 x)) (b64_ofZ (- 2 ^ 900)) (b64_ofZ (2 ^ 901)) (BRENT_DEFAULT_EPSILON (N := B64))) = true)
    by (vm_compute; reflexivity).
  destruct (brent _ _ _ _) as [[[|] v]|]; try discriminate H. exists v. reflexivity.
Qed.

(** ** A root at one of the ends is returned *)
Lemma loop_root {N : NumOps} (func : num N -> res (num N)) fuel tol s r : brent_rename s = r ->
  (b_fb r ==? #0)%num = true -> brent_loop func (S fuel) tol s = Ret (Some (b_b r)).
Proof. intros E H. cbn [brent_loop]. rewrite E, H, orb_true_r. reflexivity. Qed.

Lemma zero_cases (v : b64) : b64_eqb v (b64_ofZ 0) = true -> exists s, v = B754_zero s.
Proof. destruct v as [s|s| |s m e H]; try (destruct s; discriminate); try discriminate. eauto. Qed.

Lemma C33_right_root (func : num B64 -> res (num B64)) (x1 x2 tol : b64) fa (fb : b64) :
  func x1 = Ret fa -> func x2 = Ret (fb : num B64) -> b64_eqb fb (b64_ofZ 0) = true ->
  brent func x1 x2 tol = Ret (true, x2 : num B64).
Proof.
  intros A B Z. destruct (zero_cases fb Z) as (s & ->).
  unfold brent. rewrite A, B. cbn [bind].
  assert (S1 : same_sign (N := B64) fa (B754_zero s) = false).
  { unfold same_sign. change (nlt (n := B64)) with b64_ltb. destruct s; cbn; rewrite !andb_false_r; reflexivity. }
  rewrite S1.
  assert (E : brent_rename (N := B64) (MkBst (N := B64) x1 x2 x2 #0%num #0%num fa (B754_zero s) (B754_zero s))
              = MkBst (N := B64) x1 x2 x2 #0%num #0%num fa (B754_zero s) (B754_zero s)) by (destruct s; reflexivity).
  change BRENT_ITMAX with (S 199). rewrite (loop_root func 199 tol _ _ E) by (destruct s; reflexivity). cbn [bind b_b]. reflexivity.
Qed.

Lemma C33_left_root (func : num B64 -> res (num B64)) (x1 x2 tol : b64) (fa fb : b64) :
  func x1 = Ret (fa : num B64) -> func x2 = Ret (fb : num B64) -> b64_eqb fa (b64_ofZ 0) = true ->
  BinarySingleNaN.is_nan fb = false -> b64_eqb fb (b64_ofZ 0) = false ->
  brent func x1 x2 tol = Ret (true, x1 : num B64).
Proof.
  intros A B Z Nf Zf. destruct (zero_cases fa Z) as (s & ->).
  unfold brent. rewrite A, B. cbn [bind].
  assert (S1 : same_sign (N := B64) (B754_zero s) fb = false).
  { unfold same_sign. change (nlt (n := B64)) with b64_ltb. destruct s; reflexivity. }
  rewrite S1.
  assert (E : exists d e, brent_rename (N := B64) (MkBst (N := B64) x1 x2 x2 #0%num #0%num (B754_zero s) fb fb)
              = MkBst (N := B64) x2 x1 x2 d e fb (B754_zero s) fb).
  { unfold brent_rename. cbn [b_a b_b b_c b_d b_e b_fa b_fb b_fc].
    assert (S2 : same_sign (N := B64) fb fb = true).
    { destruct fb as [t|t| |t m e H]; try discriminate; destruct t; try discriminate; reflexivity. }
    rewrite S2. cbn [b_a b_b b_c b_d b_e b_fa b_fb b_fc].
    assert (L : nlt (n := B64) (c_fabs (N := B64) (B754_zero s)) (c_fabs (N := B64) fb) = true).
    { destruct fb as [t|t| |t m e H]; try discriminate; destruct t; try discriminate; destruct s; reflexivity. }
    rewrite L. eexists; eexists; reflexivity. }
  destruct E as (d & e & E).
  change BRENT_ITMAX with (S 199). rewrite (loop_root func 199 tol _ _ E) by (destruct s; reflexivity). cbn [bind b_b]. reflexivity.
Qed.
