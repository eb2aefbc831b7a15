(** * WordDemo: examples for C80, C81 and C82 *)
From Coq Require Import ZArith List Bool Lia Reals Lra.
From Flocq Require Import Core.Core IEEE754.BinarySingleNaN.
From Verif Require Import Num NumFacts XMath Ubend UbendFacts Session Peaks PeaksFacts Brent Estimator Tail P2 Spot SpotFacts RNum B64 Spec ExactWindow
  SpotB64 WindowLemmas TailSpec OrderApi OrderLemmas Word WordLemmas WordApi WordJump ExactUsable Demo OrderDemo.
Import ListNotations.
Open Scope Z_scope.

Lemma usable_run : exists (s0 s : spot RNum) r, detector exact_math (Some (1 / 100)%R : num RNum) 0 0 (Some (1 / 4)%R : num RNum) 8 s0 /\
  spot_fit exact_math s0 (map Some [5; 1; 4; 2; 3; 3 / 2]%R) = Ret (s, r) /\ r <> - ERR_EXCESS_THRESHOLD_IS_NAN /\ s_Nt s = 3 /\ s_n s = 6 /\
  oldest_first (window s) = map Some (map Some [26 / 9; 17 / 9; 8 / 9]%R : list (num RNum)).
Proof.
  destruct order_start_full as (s0 & s & r & H1 & H2 & H3 & _ & H4 & H5 & H6). exists s0, s, r. split; [exact H1|]. split; [exact H2|]. split; [exact H3|]. split; [exact H5|]. split; [exact H6|].
  exact (rep_oldest_first 8 _ _ H4).
Qed.

Lemma jump_run : exists (s a0 a : spot RNum) (k : nat), detector exact_math (Some (1 / 100)%R : num RNum) 0 0 (Some (1 / 4)%R : num RNum) 8 s /\ s_n s = 6 /\ s_Nt s = 3 /\
  Z.of_nat k = 2 ^ 32 /\ spot_steps exact_math s (repeat (Some 0%R : num RNum) k) = Ret (a0, repeat NORMAL k) /\ spot_step exact_math a0 (Some 7%R : num RNum) = Ret (a, EXCESS) /\
  oldest_first (window a) = map Some (map Some [26 / 9; 17 / 9; 8 / 9; 44 / 9]%R : list (num RNum)).
Proof.
  destruct order_start_full as (s0 & s & r & _ & _ & _ & (Dt & Dd & Ud & Et & _) & W & H5 & H6).
  destruct (Z_of_nat_complete (2 ^ 32)) as (k & K); [discriminate|]. symmetry in K.
  assert (N0 : exists s1, spot_step exact_math s (Some 0%R : num RNum) = Ret (s1, NORMAL)).
  { unfold spot_step. rewrite is_nan_R, Dd. cbn [Z.eqb negb andb]. cbv zeta. cbn [s_updown s_et with_counts]. rewrite Ud, Et. cbn. rewrite Rle_bool_false by lra. eauto. }
  destruct N0 as (s1 & N0). pose proof (steps_repeat exact_math s s1 _ k ltac:(lia) ltac:(lia) N0) as R.
  set (a0 := with_counts s (s_Nt s) (s_n s + Z.of_nat k)) in *. assert (W0 : wf 8 a0 (map Some [26 / 9; 17 / 9; 8 / 9]%R)) by exact W.
  destruct (exact_step_total 8 a0 _ (Some 7%R : num RNum) W0) as (a & c & E & _).
  assert (EX : c = EXCESS /\ wf 8 a (map Some [26 / 9; 17 / 9; 8 / 9; 44 / 9]%R)).
  { destruct (step_wf exact_math 8 a0 _ _ a c W0 E) as (_ & _ & X). cbn [s_updown s_et a0 with_counts] in X.
    change (s_updown a0) with (s_updown s) in X. change (s_et a0) with (s_et s) in X. rewrite Ud, Et in X.
    assert (Ge : nle (nofZ 0) (nmul (Some 1%R : num RNum) (nsub (Some 7%R : num RNum) (Some (19 / 9)%R : num RNum))) = true) by (cbn; apply Rle_bool_true; lra).
    destruct X as [(-> & X)|(Nc & _)].
    - split; [reflexivity|]. replace (map Some [26 / 9; 17 / 9; 8 / 9; 44 / 9]%R) with (qpush 8 (map Some [26 / 9; 17 / 9; 8 / 9]%R) (nmul (Some 1%R : num RNum) (nsub (Some 7%R : num RNum) (Some (19 / 9)%R : num RNum)))); [exact X|].
      replace (44 / 9)%R with (1 * (7 - 19 / 9))%R by lra. reflexivity.
    - exfalso. apply step_inv in E. destruct E as [Y E1 E2|E0 Y E1 E2 E3|E0 E1 Y E2 E3|t1 t2 ll aa E0 E1 E2 E3 E4 E5 E6 Y].
      + rewrite is_nan_R in Y. discriminate.
      + apply Y. exact Dd.
      + change (s_updown a0) with (s_updown s) in Y. change (s_et a0) with (s_et s) in Y. rewrite Ud, Et in Y. rewrite Ge in Y. discriminate.
      + apply Nc. exact Y. }
  destruct EX as (-> & WA). exists s, a0, a, k. split; [exact Dt|]. split; [exact H6|]. split; [exact H5|]. split; [exact K|]. split; [exact R|]. split; [exact E|].
  exact (rep_oldest_first 8 _ _ WA).
Qed.
