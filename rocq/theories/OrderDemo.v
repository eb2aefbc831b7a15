(** * OrderDemo: examples and witnesses of C67 *)
From Coq Require Import ZArith List Bool Reals Lra Lia.
From Flocq Require Import Core.Core IEEE754.BinarySingleNaN.
From Verif Require Import Num NumFacts XMath Ubend UbendFacts Session Peaks PeaksFacts Brent Estimator Tail P2 Spot SpotFacts RNum Spec B64 ExactWindow
  WindowLemmas OrderLemmas OrderApi TranslateDemo Props_P2Exact Demo ScaleDemo.
Import ListNotations.
Open Scope R_scope.

Lemma exact_step_total cap (s : spot RNum) l x : wf cap s l -> exists s' r, spot_step exact_math s x = Ret (s', r) /\ exists l', wf cap s' l'.
Proof.
  intros W. destruct (spot_step exact_math s x) as [[s' r]|w] eqn:E.
  - exists s', r. split; [reflexivity|]. destruct (step_wf exact_math cap s x l s' r W E) as (_ & _ & [(_ & W')|(_ & W')]); [eauto|].
    exists l. unfold wf, win. rewrite W'. exact W.
  - exfalso. revert E. unfold spot_step. destruct (is_nan x); [discriminate|]. destruct (_ && _)%bool; [discriminate|].
    cbv zeta. cbn [s_updown s_et with_counts s_Nt s_n s_q s_tail]. destruct (nle _ _); [|discriminate].
    destruct (tail_push_total cap (s_tail s) l (nmul (s_updown s) (nsub x (s_et s))) W) as (t1 & -> & W' & _). cbn [bind].
    destruct (tail_fit_total exact_math cap t1 _ W') as (t2 & ll & -> & _). cbn [bind]. unfold spot_quantile, tail_quantile.
    destruct (neq _ _); cbn [bind]; discriminate.
Qed.
Lemma exact_steps_total cap xs : forall (s : spot RNum) l, wf cap s l -> exists s' rs, spot_steps exact_math s xs = Ret (s', rs).
Proof.
  induction xs as [|x xs IH]; intros s l W; cbn [spot_steps]; [eauto|].
  destruct (exact_step_total cap s l x W) as (s1 & r & -> & l' & W'). cbn [bind]. destruct (IH s1 l' W') as (s2 & rs & ->). cbn [bind]. eauto.
Qed.

Definition order_batch : list (num RNum) := map Some [5; 1; 4; 2; 3; 3 / 2].
Definition order_detector (s : spot RNum) : Prop :=
  detector exact_math (Some (1 / 100) : num RNum) 0 0 (Some (1 / 4) : num RNum) 8 s /\ s_discard s = 0%Z /\ s_updown s = Some 1 /\ s_et s = Some (19 / 9) /\
  exists l, wf 8 s l /\ length l = 3%nat.
Lemma order_start_full : exists s0 s r, detector exact_math (Some (1 / 100) : num RNum) 0 0 (Some (1 / 4) : num RNum) 8 s0 /\ spot_fit exact_math s0 order_batch = Ret (s, r) /\
  r <> (- ERR_EXCESS_THRESHOLD_IS_NAN)%Z /\ order_detector s /\ wf 8 s (map Some [26 / 9; 17 / 9; 8 / 9]) /\ s_Nt s = 3%Z /\ s_n s = 6%Z.
Proof.
  destruct (spot_init (N := RNum) low_old (Some (1 / 100) : num RNum) 0 0 (Some (1 / 4) : num RNum) 8 (fun _ => Some (repeat None 8))) as [s0 r0] eqn:I0.
  assert (I : r0 = 0%Z /\ s_discard s0 = 0%Z /\ s_low s0 = 0%Z /\ s_updown s0 = Some 1 /\ s_level s0 = Some (1 / 4) /\ s_et s0 = @c_nan RNum).
  { revert I0. unfold spot_init, spot_check. cbn. rewrite (Raux.Rlt_bool_false (1 / 4) 0), (Raux.Rle_bool_false 1 (1 / 4)) by lra. cbn.
    rewrite (Raux.Rle_bool_false (1 - 1 / 4) (1 / 100)), (Raux.Rle_bool_false (1 / 100) 0) by lra. cbn. intros H; injection H as <- <-. repeat split. }
  destruct I as (-> & D0 & L0 & U0 & V0 & T0).
  assert (W : wf 8 s0 []) by (refine (init_wf _ _ _ _ _ 8 (repeat None 8) _ _ _ I0); [lia|reflexivity]).
  destruct (spot_fit exact_math s0 order_batch) as [[s r]|w] eqn:F.
  - exists s0, s, r. split; [exists low_old, (repeat None 8), s0, [], []; split; [lia|]; split; [reflexivity|]; split; [exact I0|reflexivity]|]. split; [exact F|].
    assert (Dt : detector exact_math (Some (1 / 100) : num RNum) 0 0 (Some (1 / 4) : num RNum) 8 s).
    { exists low_old, (repeat None 8), s0, [CFit order_batch], [ACode r]. split; [lia|]. split; [reflexivity|]. split; [exact I0|]. cbn [session do_call]. rewrite F. reflexivity. }
    + assert (ET : s_et s = Some (19 / 9)).
      { apply fit_inv in F. destruct F as [et E Ne -> ->|et s1 t2 ll a E Ne E2 E3 E4 -> ->].
        - rewrite L0, V0 in E. cbn [Z.eqb] in E. unfold order_batch in E. rewrite C53_example in E. injection E as <-. rewrite is_nan_R in Ne. discriminate.
        - rewrite L0, V0 in E. cbn [Z.eqb] in E. unfold order_batch in E. rewrite C53_example in E. injection E as <-. apply fit_fill_frame in E2 as (E5 & _). cbn [s_et with_at with_tail]. rewrite E5. reflexivity. }
      destruct (fit_wf exact_math 8 s0 order_batch [] s r W F) as [(_ & ->)|(Hr & _ & W' & Hn & HN & _ & _ & _ & D1 & U1)].
      * exfalso. cbn [s_et with_counts] in ET. rewrite T0, c_nan_R in ET. discriminate.
      * assert (X : fit_excesses s0 (s_et s) order_batch = map Some [26 / 9; 17 / 9; 8 / 9]).
        { rewrite ET. unfold fit_excesses, order_batch. rewrite U0. cbn.
          rewrite (Raux.Rlt_bool_true 0 (1 * (5 - 19 / 9))) by lra. rewrite (Raux.Rlt_bool_false 0 (1 * (1 - 19 / 9))) by lra.
          rewrite (Raux.Rlt_bool_true 0 (1 * (4 - 19 / 9))) by lra. rewrite (Raux.Rlt_bool_false 0 (1 * (2 - 19 / 9))) by lra.
          rewrite (Raux.Rlt_bool_true 0 (1 * (3 - 19 / 9))) by lra. rewrite (Raux.Rlt_bool_false 0 (1 * (3 / 2 - 19 / 9))) by lra.
          repeat (apply f_equal2; [f_equal; lra|]). reflexivity. }
        rewrite X in W', HN. change (wf 8 s (map Some [26 / 9; 17 / 9; 8 / 9])) in W'.
        split; [exact Hr|]. split; [|split; [exact W'|split; [exact HN|exact Hn]]].
        split; [exact Dt|]. split; [congruence|]. split; [congruence|]. split; [exact ET|]. eexists. split; [exact W'|reflexivity].
  - exfalso. revert F. unfold spot_fit. cbv zeta. cbn [s_low s_level with_counts]. rewrite L0, V0. cbn [Z.eqb]. unfold order_batch. rewrite C53_example. cbn [bind].
    rewrite is_nan_R. match goal with |- context [fit_fill ?e ?u ?v] => destruct (fit_fill_wf (N := RNum) 8 e u v []) as (s1 & -> & W1); [exact W|] end. cbn [bind].
    destruct (tail_fit_total exact_math 8 (s_tail s1) _ W1) as (t2 & ll & -> & _). cbn [bind]. unfold spot_quantile, tail_quantile. destruct (neq _ _); cbn [bind]; cbn [bind m_pow exact_math]; match goal with |- context [is_nan ?u] => destruct (is_nan u) end; discriminate.
Qed.

Lemma order_start : exists s, order_detector s.
Proof. destruct order_start_full as (s0 & s & r & _ & _ & _ & H & _). exists s. exact H. Qed.

Lemma order_run : exists s s1 s2 s3 : spot RNum,
  detector exact_math (Some (1 / 100) : num RNum) 0 0 (Some (1 / 4) : num RNum) 8 s /\ length (oldest_first (window s)) = 3%nat /\
  spot_steps exact_math s (map Some [7; 1; 6]) = Ret (s1, [EXCESS; NORMAL; EXCESS]) /\ spot_steps exact_math s (map Some [6; 7; 1]) = Ret (s2, [EXCESS; EXCESS; NORMAL]) /\
  spot_steps exact_math s (map Some [1; 7] ++ [Some 6]) = Ret (s3, [NORMAL; EXCESS] ++ [EXCESS]).
Proof.
  destruct order_start as (s & Dt & Dd & Ud & Et & l & W & L).
  destruct (exact_steps_total 8 (map Some [7; 1; 6]) s l W) as (s1 & r1 & H1).
  destruct (exact_steps_total 8 (map Some [6; 7; 1]) s l W) as (s2 & r2 & H2).
  destruct (exact_steps_total 8 (map Some [1; 7] ++ [Some 6]) s l W) as (s3 & r3 & H3).
  assert (C7 : code (Some 1) (Some (19 / 9)) (Some 7) = EXCESS) by (unfold code, isx; rewrite is_nan_R; cbn; rewrite Rle_bool_true by lra; reflexivity).
  assert (C6 : code (Some 1) (Some (19 / 9)) (Some 6) = EXCESS) by (unfold code, isx; rewrite is_nan_R; cbn; rewrite Rle_bool_true by lra; reflexivity).
  assert (C1 : code (Some 1) (Some (19 / 9)) (Some 1) = NORMAL) by (unfold code, isx; rewrite is_nan_R; cbn; rewrite Rle_bool_false by lra; reflexivity).
  exists s, s1, s2, s3. split; [exact Dt|]. split; [unfold window; unfold wf, win in W; rewrite (rep_oldest_first _ _ _ W), map_length; exact L|].
  destruct (stream_inv _ _ _ _ _ H1 Dd) as (E1 & _). destruct (stream_inv _ _ _ _ _ H2 Dd) as (E2 & _). destruct (stream_inv _ _ _ _ _ H3 Dd) as (E3 & _).
  rewrite Ud, Et in E1, E2, E3. cbn [map app] in *. rewrite C7, C1, C6 in E1, E2, E3. subst. auto.
Qed.

(** binary64, anomalies kept *)
Definition keep_demo : spot B64 := run (demo_init 0 0 8) [CFit (N := B64) [d 1]].
Definition order_check (xs ys : list b64) (r1 r2 : list Z) (test : b64 -> b64 -> bool) : bool :=
  match spot_steps cm keep_demo xs, spot_steps cm keep_demo ys with
  | Ret (s1, c1), Ret (s2, c2) => (if list_eq_dec Z.eq_dec c1 r1 then true else false) && (if list_eq_dec Z.eq_dec c2 r2 then true else false) && test (s_at s1) (s_at s2)
  | _, _ => false
  end.
Lemma order_check_ok xs ys r1 r2 test : order_check xs ys r1 r2 test = true ->
  exists s1 s2, spot_steps (c_math musl_utils) keep_demo xs = Ret (s1, r1) /\ spot_steps (c_math musl_utils) keep_demo ys = Ret (s2, r2) /\ test (s_at s1) (s_at s2) = true.
Proof.
  unfold order_check. change (c_math musl_utils) with cm. destruct (spot_steps cm keep_demo xs) as [[s1 c1]|]; [|discriminate]. destruct (spot_steps cm keep_demo ys) as [[s2 c2]|]; [|discriminate].
  destruct (list_eq_dec Z.eq_dec c1 r1) as [->|]; [|discriminate]. destruct (list_eq_dec Z.eq_dec c2 r2) as [->|]; [|discriminate]. intros H. exists s1, s2. auto.
Qed.
Lemma keep_detector : detector (c_math musl_utils) (dy 1 7) 0 0 (dy 3 2) 8 keep_demo.
Proof. apply demo_detector; [lia|vm_compute; reflexivity..]. Qed.

Definition tenth (a : Z) : b64 := b64_div (d a) (d 10).
Lemma keep_window : length (oldest_first (window keep_demo)) = 1%nat.
Proof. vm_compute. reflexivity. Qed.
Lemma last_excess_witness : exists s s1 s2 : spot B64, detector (c_math musl_utils) (dy 1 7) 0 0 (dy 3 2) 8 s /\ length (oldest_first (window s)) = 1%nat /\
  spot_steps (c_math musl_utils) s [d 10; d (-1)] = Ret (s1, [EXCESS; NORMAL]) /\ spot_steps (c_math musl_utils) s [d (-1); d 10] = Ret (s2, [NORMAL; EXCESS]) /\
  b64_ltb (b64_plus (s_at s2) (dy 1 4)) (s_at s1) = true.
Proof.
  destruct (order_check_ok [d 10; d (-1)] [d (-1); d 10] [EXCESS; NORMAL] [NORMAL; EXCESS] (fun a b => b64_ltb (b64_plus b (dy 1 4)) a)) as (s1 & s2 & H1 & H2 & H3); [vm_cast_no_check (eq_refl true)|].
  exists keep_demo, s1, s2. split; [exact keep_detector|]. split; [exact keep_window|]. auto.
Qed.
Lemma rounding_witness : exists s s1 s2 : spot B64, detector (c_math musl_utils) (dy 1 7) 0 0 (dy 3 2) 8 s /\ length (oldest_first (window s)) = 1%nat /\
  spot_steps (c_math musl_utils) s [tenth 3; tenth 41; tenth 1] = Ret (s1, [EXCESS; EXCESS; EXCESS]) /\
  spot_steps (c_math musl_utils) s [tenth 41; tenth 3; tenth 1] = Ret (s2, [EXCESS; EXCESS; EXCESS]) /\
  b64_ltb (b64_plus (s_at s1) (d 10)) (s_at s2) = true.
Proof.
  destruct (order_check_ok [tenth 3; tenth 41; tenth 1] [tenth 41; tenth 3; tenth 1] [EXCESS; EXCESS; EXCESS] [EXCESS; EXCESS; EXCESS] (fun a b => b64_ltb (b64_plus a (d 10)) b))
    as (s1 & s2 & H1 & H2 & H3); [vm_cast_no_check (eq_refl true)|].
  exists keep_demo, s1, s2. split; [exact keep_detector|]. split; [exact keep_window|]. auto.
Qed.
