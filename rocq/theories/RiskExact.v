(** * RiskExact: two detectors that differ by their risk (exact arithmetic, example of C79) *)
From Coq Require Import ZArith List Bool Lia Reals Lra.
From Flocq Require Import Core.Core IEEE754.BinarySingleNaN.
From Verif Require Import Num NumFacts XMath Ubend UbendFacts Session Peaks PeaksFacts Brent Estimator Tail P2 Spot SpotFacts RNum Spec B64 ExactWindow
  WindowLemmas FitEffect TailSpec ExactTail GrimshawExact StaleLemmas TranslateDemo Props_P2Exact Demo ScaleDemo OrderDemo OrderApi RiskSpec RiskLemmas.
Import ListNotations.
Open Scope R_scope.

Definition risk_start (q : R) : spot RNum :=
  fst (spot_init (N := RNum) low_old (Some q : num RNum) 0 1 (Some (1 / 4) : num RNum) 8 (fun _ => Some (repeat None 8))).
Lemma risk_fit (q : R) : 0 < q < 1 / 2 -> exists (s : spot RNum) sg g, spot_fit exact_math (risk_start q) order_batch = Ret (s, 0%Z) /\
  real_detector s (19 / 9) 1 sg g /\ s_q (risk_start q) = Some q /\ s_q s = Some q /\ s_n s = 6%Z /\ s_Nt s = 3%Z /\ s_discard s = 1%Z /\
  s_at s = Some (zq s (19 / 9) 1 sg g q) /\ exists l, wf 8 s l.
Proof.
  intros Hq. unfold risk_start.
  destruct (spot_init (N := RNum) low_old (Some q : num RNum) 0 1 (Some (1 / 4) : num RNum) 8 (fun _ => Some (repeat None 8))) as [s0 r0] eqn:I0.
  assert (I : s_low s0 = 0%Z /\ s_updown s0 = Some 1 /\ s_level s0 = Some (1 / 4) /\ s_q s0 = Some q /\ t_peaks (s_tail s0) = fst (peaks_init (N := RNum) (Some (repeat None 8)) 8) /\ s_discard s0 = 1%Z).
  { revert I0. unfold spot_init, spot_check. cbn. rewrite (Raux.Rlt_bool_false (1 / 4) 0), (Raux.Rle_bool_false 1 (1 / 4)) by lra. cbn.
    rewrite (Raux.Rle_bool_false (1 - 1 / 4) q), (Raux.Rle_bool_false q 0) by lra. cbn. intros H; injection H as <- <-. repeat split. }
  destruct I as (L0 & U0 & V0 & Q0 & P0 & X0). clear I0. cbn [fst].
  unfold spot_fit. cbv zeta. cbn [s_low s_level with_counts]. rewrite L0, V0. cbn [Z.eqb]. unfold order_batch at 1. rewrite C53_example. cbn [bind]. rewrite is_nan_R.
  set (sa := with_et (with_counts s0 0 (Z.of_nat (length order_batch))) (Some (19 / 9) : num RNum)).
  assert (W : wf 8 sa []). { unfold wf, win, sa. cbn [s_tail with_et with_counts]. rewrite P0. apply (rep_init (N := RNum) 8 (repeat None 8)); [lia|reflexivity]. }
  destruct (fit_fill_wf (N := RNum) 8 (Some (19 / 9)) sa order_batch [] W) as (s1 & F1 & W1). change (num RNum) with xr in *. rewrite F1. cbn [bind].
  pose proof (fit_fill_pushes _ _ _ _ F1) as PU. pose proof (fit_fill_frame _ _ _ _ F1) as (FR & _). pose proof (fit_fill_counts _ _ _ _ F1 ltac:(cbn; lia)) as CN.
  set (ex := [5 - 19 / 9; 4 - 19 / 9; 3 - 19 / 9]).
  assert (EX : fit_excesses (N := RNum) sa (Some (19 / 9)) order_batch = map Some ex).
  { unfold fit_excesses, order_batch, sa. cbn [s_updown with_et with_counts]. rewrite U0. cbn.
    rewrite (Raux.Rlt_bool_true 0 (1 * (5 - 19 / 9))) by lra. rewrite (Raux.Rlt_bool_false 0 (1 * (1 - 19 / 9))) by lra.
    rewrite (Raux.Rlt_bool_true 0 (1 * (4 - 19 / 9))) by lra. rewrite (Raux.Rlt_bool_false 0 (1 * (2 - 19 / 9))) by lra.
    rewrite (Raux.Rlt_bool_true 0 (1 * (3 - 19 / 9))) by lra. rewrite (Raux.Rlt_bool_false 0 (1 * (3 / 2 - 19 / 9))) by lra. rewrite !Rmult_1_l. reflexivity. }
  change (num RNum) with xr in *. rewrite EX in PU, CN. cbn [s_tail s_Nt sa with_et with_counts] in PU, CN. rewrite P0 in PU.
  destruct (C52_fit_lemma 8 (repeat None 8) ex (s_tail s1)) as (g & sg & TF & SG & _).
  { lia. } { reflexivity. } { exact PU. } { discriminate. } { intros y [<-|[<-|[<-|[]]]]; lra. }
  rewrite TF. cbn [bind]. set (t2 := MkTail (N := RNum) (Some g) (Some sg) (t_peaks (s_tail s1))).
  assert (RD : real_detector (with_tail s1 t2) (19 / 9) 1 sg g).
  { rewrite FR. repeat split; try reflexivity; try assumption; try (left; reflexivity); cbn [s_Nt s_n s_updown sa with_tail with_counts with_et]; try exact U0.
    - rewrite CN. reflexivity.
  }
  assert (SQ : s_q s1 = Some q) by (rewrite FR; exact Q0).
  cbn [s_q with_tail]. rewrite SQ. rewrite (quantile_eq _ _ _ _ _ RD) by lra. cbn [bind]. rewrite is_nan_R.
  eexists. exists sg, g. split; [reflexivity|]. split; [destruct RD as (A1 & A2 & A3 & A4 & A5 & A6 & A7 & A8); repeat split; assumption|].
  split; [exact Q0|]. split; [exact SQ|]. split; [rewrite FR; reflexivity|]. split; [cbn [s_Nt with_at with_tail]; rewrite CN; reflexivity|]. split; [rewrite FR; exact X0|]. split; [reflexivity|]. eexists. exact W1.
Qed.

Lemma risk_same (qa qb : R) : 0 < qa < 1 / 2 -> 0 < qb < 1 / 2 -> same_but_q (risk_start qa) (risk_start qb).
Proof.
  intros A B. unfold risk_start, spot_init, spot_check. cbn. rewrite (Raux.Rlt_bool_false (1 / 4) 0), (Raux.Rle_bool_false 1 (1 / 4)) by lra. cbn.
  rewrite (Raux.Rle_bool_false (1 - 1 / 4) qa), (Raux.Rle_bool_false qa 0), (Raux.Rle_bool_false (1 - 1 / 4) qb), (Raux.Rle_bool_false qb 0) by lra. repeat split.
Qed.

Lemma risk_example : exists (a1 b1 a3 b3 : spot RNum) sg g x,
  same_but_q (risk_start (1 / 100)) (risk_start (1 / 10)) /\ s_q (risk_start (1 / 100)) = Some (1 / 100) /\ s_q (risk_start (1 / 10)) = Some (1 / 10) /\
  spot_fit exact_math (risk_start (1 / 100)) order_batch = Ret (a1, 0%Z) /\ spot_fit exact_math (risk_start (1 / 10)) order_batch = Ret (b1, 0%Z) /\
  real_detector a1 (19 / 9) 1 sg g /\
  spot_step exact_math a1 (Some x : num RNum) = Ret (a3, EXCESS) /\ spot_step exact_math b1 (Some x : num RNum) = Ret (b3, ANOMALY).
Proof.
  destruct (risk_fit (1 / 100) ltac:(lra)) as (a1 & sg & g & FA & RA & QA0 & QA & NA & TA & DA & ZA & la & WA).
  destruct (risk_fit (1 / 10) ltac:(lra)) as (b1 & sg' & g' & FB & RB & QB0 & QB & NB & TB & DB & ZB & lb & WB).
  pose proof (risk_same (1 / 100) (1 / 10) ltac:(lra) ltac:(lra)) as S.
  destruct (fit_twins exact_math _ _ _ _ order_batch S ltac:(unfold order_batch; discriminate) FA FB) as ((S1 & _) & _).
  assert (E : t_sigma (s_tail a1) = t_sigma (s_tail b1) /\ t_gamma (s_tail a1) = t_gamma (s_tail b1)).
  { destruct S1 as (_ & _ & _ & _ & _ & _ & _ & ->). auto. }
  pose proof RA as (A1 & A2 & _ & A4 & A5 & A6 & _). pose proof RB as (B1 & B2 & _ & B4 & B5 & B6 & _). rewrite A4, A6, B4, B6 in E.
  destruct E as (E1 & E2). injection E1 as <-. injection E2 as <-.
  assert (ER : excess_rate a1 = excess_rate b1) by (unfold excess_rate; rewrite NA, TA, NB, TB; reflexivity).
  assert (EZ : zq b1 (19 / 9) 1 sg g (1 / 10) = zq a1 (19 / 9) 1 sg g (1 / 10)) by (unfold zq; rewrite ER; reflexivity).
  assert (R : excess_rate a1 = 1 / 2) by (unfold excess_rate; rewrite NA, TA; field).
  pose proof (offset_decreasing _ _ _ _ _ RA (1 / 100) (1 / 10) ltac:(lra) ltac:(lra)) as O1.
  destruct (C32_position_lemma _ _ _ _ _ RA (1 / 10) _ ltac:(lra) (quantile_eq _ _ _ _ _ RA (1 / 10) ltac:(lra))) as (_ & P2).
  assert (P : 0 < 1 * (zq a1 (19 / 9) 1 sg g (1 / 10) - 19 / 9)) by (apply P2; rewrite R; lra).
  set (za := zq a1 (19 / 9) 1 sg g (1 / 100)) in *. rewrite EZ in ZB. set (zb := zq a1 (19 / 9) 1 sg g (1 / 10)) in *.
  destruct (exact_steps_total 8 [Some ((za + zb) / 2)] a1 la WA) as (a3 & ra & HA). destruct (exact_steps_total 8 [Some ((za + zb) / 2)] b1 lb WB) as (b3 & rb & HB).
  cbn [spot_steps] in HA, HB. change (num RNum) with xr in HA, HB.
  destruct (spot_step exact_math a1 (Some ((za + zb) / 2))) as [[a4 ra']|] eqn:SA; [|discriminate]. cbn [bind] in HA.
  destruct (spot_step exact_math b1 (Some ((za + zb) / 2))) as [[b4 rb']|] eqn:SB; [|discriminate]. cbn [bind] in HB. clear HA HB.
  exists a1, b1, a4, b4, sg, g, ((za + zb) / 2). split; [exact S|]. split; [exact QA0|]. split; [exact QB0|]. split; [exact FA|]. split; [exact FB|]. split; [exact RA|].
  change (num RNum) with xr. rewrite SA, SB.
  assert (RAE : ra' = EXCESS /\ rb' = ANOMALY); [|destruct RAE as (-> & ->); auto].
  apply step_inv in SA. apply step_inv in SB. split.
  - destruct SA as [Nx Ea Er|Nx Da Ca Ea Er|Nx Da Ca Ea Er|t1 t2 ll z Nx Da Ca T1 T2 Q Ea Er]; [rewrite is_nan_R in Nx; discriminate| | |exact Er]; exfalso.
    + rewrite A2, ZA in Ca. cbn in Ca. rewrite Rlt_bool_false in Ca by lra. discriminate.
    + rewrite A1, A2 in Ca. cbn in Ca. rewrite Rle_bool_true in Ca by lra. discriminate.
  - destruct SB as [Nx Ea Er|Nx Da Ca Ea Er|Nx Da Ca Ea Er|t1 t2 ll z Nx Da Ca T1 T2 Q Ea Er]; [rewrite is_nan_R in Nx; discriminate|exact Er| |]; exfalso;
      (destruct Da as [Da|Da]; [congruence|]); rewrite B2, ZB in Da; cbn in Da; rewrite Rlt_bool_true in Da by lra; discriminate.
Qed.
