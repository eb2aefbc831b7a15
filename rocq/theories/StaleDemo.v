(** * StaleDemo: an example and a witness of C68 *)
From Coq Require Import ZArith List Bool Reals Lra Lia.
From Flocq Require Import Core.Core IEEE754.BinarySingleNaN.
From Verif Require Import Num NumFacts XMath Ubend UbendFacts Session Peaks PeaksFacts Brent Estimator Tail P2 Spot SpotFacts RNum Spec B64 ExactWindow
  WindowLemmas FitEffect TailSpec ExactTail GrimshawExact StaleLemmas TranslateDemo Props_P2Exact Demo ScaleDemo OrderDemo OrderApi.
Import ListNotations.
Open Scope R_scope.

Lemma stale_start : exists (s0 s : spot RNum) sg g, spot_fit exact_math s0 order_batch = Ret (s, 0%Z) /\
  real_detector s (19 / 9) 1 sg g /\ s_q s = Some (1 / 100) /\ s_n s = 6%Z /\ s_discard s = 0%Z /\ exists l, wf 8 s l.
Proof.
  destruct (spot_init (N := RNum) low_old (Some (1 / 100) : num RNum) 0 0 (Some (1 / 4) : num RNum) 8 (fun _ => Some (repeat None 8))) as [s0 r0] eqn:I0.
  assert (I : s_low s0 = 0%Z /\ s_updown s0 = Some 1 /\ s_level s0 = Some (1 / 4) /\ s_q s0 = Some (1 / 100) /\ t_peaks (s_tail s0) = fst (peaks_init (N := RNum) (Some (repeat None 8)) 8) /\ s_discard s0 = 0%Z).
  { revert I0. unfold spot_init, spot_check. cbn. rewrite (Raux.Rlt_bool_false (1 / 4) 0), (Raux.Rle_bool_false 1 (1 / 4)) by lra. cbn.
    rewrite (Raux.Rle_bool_false (1 - 1 / 4) (1 / 100)), (Raux.Rle_bool_false (1 / 100) 0) by lra. cbn. intros H; injection H as <- <-. repeat split. }
  destruct I as (L0 & U0 & V0 & Q0 & P0 & X0). clear I0. exists s0.
  unfold spot_fit. cbv zeta. cbn [s_low s_level with_counts]. rewrite L0, V0. cbn [Z.eqb]. unfold order_batch at 1. rewrite C53_example. cbn [bind]. rewrite is_nan_R.
  set (sa := with_et (with_counts s0 0 (Z.of_nat (length order_batch))) (Some (19 / 9) : num RNum)).
  assert (W : wf 8 sa []). { unfold wf, win, sa. cbn [s_tail with_et with_counts]. rewrite P0. apply (rep_init (N := RNum) 8 (repeat None 8)); [lia|reflexivity]. }
  destruct (fit_fill_wf (N := RNum) 8 (Some (19 / 9)) sa order_batch [] W) as (s1 & F1 & W1). change (num RNum) with xr in *. rewrite F1. cbn [bind].
  pose proof (fit_fill_pushes _ _ _ _ F1) as PU. pose proof (fit_fill_frame _ _ _ _ F1) as (FR & _). pose proof (fit_fill_counts _ _ _ _ F1 ltac:(cbn; lia)) as CN.
  set (ex := [5 - 19 / 9; 4 - 19 / 9; 3 - 19 / 9]).
  assert (EX : fit_excesses (N := RNum) sa (Some (19 / 9)) order_batch = map Some ex).
  { unfold fit_excesses, order_batch, sa. cbn [s_updown with_et with_counts]. rewrite U0. cbn.
    rewrite (Raux.Rlt_bool_true 0 (1 * (5 - 19 / 9))) by lra. rewrite (Raux.Rlt_bool_false 0 (1 * (1 - 19 / 9))) by lra.
    rewrite (Raux.Rlt_bool_true 0 (1 * (4 - 19 / 9))) by lra. rewrite (Raux.Rlt_bool_false 0 (1 * (2 - 19 / 9))) by lra.
    rewrite (Raux.Rlt_bool_true 0 (1 * (3 - 19 / 9))) by lra. rewrite (Raux.Rlt_bool_false 0 (1 * (3 / 2 - 19 / 9))) by lra. rewrite !Rmult_1_l. reflexivity. }
  change (num RNum) with xr in *. rewrite EX in PU, CN. cbn [s_tail s_Nt sa with_et with_counts] in PU, CN. rewrite P0 in PU.
  destruct (C52_fit_lemma 8 (repeat None 8) ex (s_tail s1)) as (g & sg & TF & SG & _).
  { lia. } { reflexivity. } { exact PU. } { discriminate. } { intros y [<-|[<-|[<-|[]]]]; lra. }
  rewrite TF. cbn [bind]. set (t2 := MkTail (N := RNum) (Some g) (Some sg) (t_peaks (s_tail s1))).
  assert (RD : real_detector (with_tail s1 t2) (19 / 9) 1 sg g).
  { rewrite FR. repeat split; try reflexivity; try assumption; try (left; reflexivity); cbn [s_Nt s_n s_updown sa with_tail with_counts with_et]; try exact U0.
    - rewrite CN. reflexivity.
  }
  assert (SQ : s_q s1 = Some (1 / 100)) by (rewrite FR; exact Q0).
  cbn [s_q with_tail]. rewrite SQ. rewrite (quantile_eq _ _ _ _ _ RD) by lra. cbn [bind]. rewrite is_nan_R.
  eexists. exists sg, g. split; [reflexivity|]. split; [destruct RD as (A1 & A2 & A3 & A4 & A5 & A6 & A7 & A8); repeat split; assumption|].
  split; [exact SQ|]. split; [rewrite FR; reflexivity|]. split; [rewrite FR; exact X0|]. eexists. exact W1.
Qed.

Lemma stale_example : exists (s0 s1 s2 : spot RNum) sg g, spot_fit exact_math s0 order_batch = Ret (s1, 0%Z) /\
  real_detector s1 (19 / 9) 1 sg g /\ s_q s1 = Some (1 / 100) /\ spot_steps exact_math s1 (map Some [1; 2]) = Ret (s2, [NORMAL; NORMAL]) /\ s_n s1 = 6%Z.
Proof.
  destruct stale_start as (s0 & s & sg & g & F & RD & Q & Nn & Dd & l & W). pose proof RD as (A1 & A2 & _).
  destruct (exact_steps_total 8 (map Some [1; 2]) s l W) as (s2 & r & H).
  exists s0, s, s2, sg, g. split; [exact F|]. split; [exact RD|]. split; [exact Q|]. split; [|exact Nn].
  destruct (stream_inv _ _ _ _ _ H Dd) as (E & _). rewrite A1, A2 in E.
  assert (C1 : code (Some 1) (Some (19 / 9)) (Some 1) = NORMAL) by (unfold code, isx; rewrite is_nan_R; cbn; rewrite Rle_bool_false by lra; reflexivity).
  assert (C2 : code (Some 1) (Some (19 / 9)) (Some 2) = NORMAL) by (unfold code, isx; rewrite is_nan_R; cbn; rewrite Rle_bool_false by lra; reflexivity).
  cbn [map] in *. rewrite C1, C2 in E. subst r. exact H.
Qed.

(** binary64, anomalies discarded: after the calibration and twenty observations of 1, the quantile of q with the present
    counters is well inside the threshold in use, and an observation between the two is not flagged *)
Definition stale_check (s : spot B64) (x : b64) : bool :=
  match spot_steps cm s (repeat (d 1) 20) with
  | Ret (s2, rs) => (if list_eq_dec Z.eq_dec rs (repeat NORMAL 20) then true else false) &&
      match spot_probability cm s2 (x : num B64), spot_step cm s2 (x : num B64) with Ret p, Ret (_, r) => andb (b64_ltb p (dy 1 7)) (Z.eqb r EXCESS) | _, _ => false end
  | Undef _ => false
  end.
Lemma stale_check_ok s x : stale_check s x = true ->
  exists s2 s3 p, spot_steps cm s (repeat (d 1) 20) = Ret (s2, repeat NORMAL 20) /\ spot_probability cm s2 (x : num B64) = Ret p /\ b64_ltb p (dy 1 7) = true /\ spot_step cm s2 (x : num B64) = Ret (s3, EXCESS).
Proof.
  unfold stale_check. change (num B64) with b64. destruct (spot_steps cm s _) as [[s2 rs]|]; [|discriminate]. destruct (list_eq_dec _ rs _) as [->|]; [|discriminate].
  destruct (spot_probability cm s2 x) as [p|] eqn:EP; [|discriminate]. destruct (spot_step cm s2 x) as [[s3 r]|] eqn:ES; [|discriminate]. intros H. cbn [andb] in H. apply andb_prop in H as (H1 & H2). apply Z.eqb_eq in H2. subst r.
  exists s2, s3, p. auto.
Qed.
Lemma stale_witness : exists (s1 s2 s3 : spot B64) p, detector (c_math musl_utils) (dy 1 7) 0 1 (dy 3 2) 4 s1 /\
  spot_steps (c_math musl_utils) s1 (repeat (d 1) 20) = Ret (s2, repeat NORMAL 20) /\
  spot_probability (c_math musl_utils) s2 (dy 23 1 : num B64) = Ret p /\ b64_ltb p (dy 1 7) = true /\
  spot_step (c_math musl_utils) s2 (dy 23 1 : num B64) = Ret (s3, EXCESS).
Proof.
  destruct (stale_check_ok demo_up (dy 23 1)) as (s2 & s3 & p & H1 & H2 & H3 & H4); [vm_compute; reflexivity|].
  exists demo_up, s2, s3, p. split; [exact detector_up|]. auto.
Qed.
