(** * ProgramsLemmas: proofs about the example programs (C70, C71) *)
From stdpp Require Import gmap.
From Coq Require Import ZArith List Bool Lia Reals Lra String.
From Flocq Require Import IEEE754.BinarySingleNaN Core.
From Verif Require Import Num NumFacts XMath Ubend UbendFacts Peaks Brent Estimator Tail P2 Spot SpotFacts B64 B64Facts Session Spec Str Heap HeapSpec HeapLemmas HeapB64
  SpotB64 DetectorLemmas WindowLemmas RefitLemmas Demo PyBinding BindSpec PyLemmas Programs.
Open Scope Z_scope.

Definition live0 : Z -> bool := fun j => j =? 0.
Notation same_dom h h' := (forall a : Z, is_Some (h !! a) <-> is_Some (h' !! a)).
Record ready (q level : b64) (cap : Z) (w : world B64) : Prop := {
  r_inv : inv live0 w;
  r_det : detector (N := B64) (w_math w) q 0 1 level cap (detector_state w 0) }.

Lemma ready_undef q level cap w o c x : ready q level cap w -> call_on 0 o = Some c -> w_step w o = Undef x -> x = CastRange.
Proof.
  intros R C H. apply (step_call_undef _ _ _ _ _ C) in H. apply (C14_lemma (w_utils w) q 0 1 level cap (detector_state w 0) [c] x (r_det _ _ _ _ R)).
  cbn. unfold w_math in H. rewrite H. reflexivity.
Qed.
Lemma ready_ret q level cap w o c w' r : ready q level cap w -> call_on 0 o = Some c -> w_step w o = Ret (w', r) ->
  ready q level cap w' /\ w_math w' = w_math w /\ do_call (w_math w) (detector_state w 0) c = Ret (detector_state w' 0, answer_of r) /\
  w_log w' = w_log w /\ same_dom (w_heap w') (w_heap w).
Proof.
  intros R C H. pose proof (call_on_target _ _ _ C) as T.
  assert (A : allowed live0 o) by (destruct o; cbn in T |- *; try discriminate; injection T as ->; reflexivity).
  assert (L : live_after live0 o r = live0) by (destruct o; cbn in T |- *; try discriminate; reflexivity).
  destruct (step_inv live0 w o w' r (r_inv _ _ _ _ R) A H) as [I U]. rewrite L in I.
  pose proof (state_call live0 w o w' r 0 c (r_inv _ _ _ _ R) eq_refl C H) as S.
  destruct (C36_calls_lemma w o 0 w' r T H) as (Lg & _ & _ & Dm & _).
  assert (M : w_math w' = w_math w) by (unfold w_math; rewrite U; reflexivity).
  split; [split; [exact I|rewrite M; eapply detector_call; [exact (r_det _ _ _ _ R)|exact S]]|]. auto.
Qed.

(** ** The loop of basic.c *)
Section Basic.
Context (lg : b64 -> b64) (rand_max : Z) (rand : nat -> Z).
Let draw := rexp lg rand_max rand.

Definition tally_of (rs : list Z) : tally -> tally := fun t => fold_left tally_add rs t.

Lemma loop_undef q level cap n : forall w t k x, ready q level cap w -> basic_loop lg rand_max rand w t k n = Undef x -> x = CastRange.
Proof.
  induction n as [|n IH]; intros w t k x R H; [discriminate|]. cbn [basic_loop] in H.
  destruct (w_step w (OStep 0 _)) as [[w1 r]|] eqn:E.
  - cbn [bind] in H. eapply IH; [|exact H]. eapply ready_ret; [exact R| |exact E]. reflexivity.
  - cbn [bind] in H. injection H as <-. eapply ready_undef; [exact R| |exact E]. reflexivity.
Qed.
Lemma loop_ret q level cap n : forall w t k w' t', ready q level cap w -> basic_loop lg rand_max rand w t k n = Ret (w', t') ->
  ready q level cap w' /\ w_log w' = w_log w /\ same_dom (w_heap w') (w_heap w) /\
  exists rs, spot_steps (w_math w) (detector_state w 0) (map draw (seq k n)) = Ret (detector_state w' 0, rs) /\ t' = tally_of rs t.
Proof.
  induction n as [|n IH]; intros w t k w' t' R H.
  - cbn in H. injection H as <- <-. split; [exact R|]. split; [reflexivity|]. split; [tauto|]. exists []. split; reflexivity.
  - cbn [basic_loop] in H. destruct (w_step w (OStep 0 _)) as [[w1 r]|] eqn:E; [|discriminate]. cbn [bind] in H.
    destruct (ready_ret q level cap w (OStep (N := B64) 0 (draw k)) (CStep (N := B64) (draw k)) w1 r R eq_refl E) as (R1 & M1 & S1 & L1 & D1).
    destruct (IH _ _ _ _ _ R1 H) as (R2 & L2 & D2 & rs & S2 & T2).
    split; [exact R2|]. split; [congruence|]. split; [intros a; rewrite D2; apply D1|].
    cbn [do_call] in S1. cbn [seq map spot_steps]. rewrite M1 in S2.
    destruct (spot_step (w_math w) (detector_state w 0) (draw k)) as [[s1 c]|] eqn:Es; [|discriminate]. cbn [bind] in S1 |- *.
    injection S1 as -> Er. rewrite S2. cbn [bind]. exists (c :: rs). split; [reflexivity|]. rewrite T2.
    destruct r as [|c'|y]; cbn in Er; try discriminate; [|injection Er as ->; reflexivity].
    (* OutUnit cannot come from a step *)
    exfalso. cbn [w_step] in E. destruct (spot_step _ _ _) as [[? ?]|] in E; [|discriminate]. cbn in E. injection E as _ E. discriminate.
Qed.

Lemma tally_counts rs : forall t, let t' := tally_of rs t in
  n_anomaly t' = n_anomaly t + count (fun c => c =? ANOMALY) rs /\
  n_excess t' = n_excess t + count (fun c => c =? EXCESS) rs /\
  n_normal t' = n_normal t + count (fun c => c =? NORMAL) rs.
Proof.
  unfold count. induction rs as [|c rs IH]; intros t; cbn [tally_of fold_left]; [cbn; lia|].
  specialize (IH (tally_add t c)). unfold tally_of in IH. cbv zeta in *. destruct IH as (I1 & I2 & I3). rewrite I1, I2, I3.
  unfold tally_add, ANOMALY, EXCESS, NORMAL. cbn [filter].
  destruct (Z.eqb_spec c 2) as [->|]; [cbn; lia|]. destruct (Z.eqb_spec c 1) as [->|]; [cbn; lia|].
  destruct (Z.eqb_spec c 0) as [->|]; cbn; lia.
Qed.

Lemma steps_codes (mf : MathFns B64) xs : forall s s' rs, spot_steps mf s xs = Ret (s', rs) -> (forall x, In x xs -> is_NaN x = false) ->
  List.length rs = List.length xs /\ forall c, In c rs -> c = 0 \/ c = 1 \/ c = 2.
Proof.
  induction xs as [|x xs IH]; intros s s' rs H Hn; cbn [spot_steps] in H.
  - injection H as <- <-. split; [reflexivity|intros c []].
  - destruct (spot_step mf s x) as [[s1 r]|] eqn:E; [|discriminate]. cbn [bind] in H.
    destruct (spot_steps mf s1 xs) as [[s2 l]|] eqn:E2; [|discriminate]. cbn [bind] in H. injection H as <- <-.
    destruct (IH _ _ _ E2 (fun y Hy => Hn y (or_intror Hy))) as [I1 I2]. split; [cbn [List.length]; f_equal; exact I1|].
    intros c [<-|Hc]; [|auto]. destruct (SpotFacts.step_inv mf s x s1 r E) as [Nx| | |]; subst; auto.
    exfalso. rewrite is_NaN_model in Nx. rewrite (Hn x (or_introl eq_refl)) in Nx. discriminate.
Qed.
Lemma count_all rs : (forall c, In c rs -> c = 0 \/ c = 1 \/ c = 2) ->
  count (fun c => c =? ANOMALY) rs + count (fun c => c =? EXCESS) rs + count (fun c => c =? NORMAL) rs = Z.of_nat (List.length rs).
Proof.
  unfold count, ANOMALY, EXCESS, NORMAL. induction rs as [|c rs IH]; intros H; [reflexivity|].
  specialize (IH (fun c' Hc => H c' (or_intror Hc))). destruct (H c (or_introl eq_refl)) as [-> | [-> | ->]]; cbn [List.filter]; cbn [Z.eqb Pos.eqb]; cbn [List.length]; lia.
Qed.
Lemma count_or rs : count (fun c => (c =? NORMAL) || (c =? EXCESS)) rs = count (fun c => c =? EXCESS) rs + count (fun c => c =? NORMAL) rs.
Proof.
  unfold count, EXCESS, NORMAL. induction rs as [|c rs IH]; [reflexivity|]. cbn [filter].
  destruct (Z.eqb_spec c 0) as [->|]; [cbn; lia|]. destruct (Z.eqb_spec c 1) as [->|]; cbn; lia.
Qed.
End Basic.

Lemma ready_init q level cap w w' : spot_check (N := B64) q level = None -> fresh_malloc (w_malloc w) -> 1 <= cap < 2 ^ 61 ->
  w_step w (OInit (N := B64) 0 q 0 1 level cap) = Ret (w', OutCode 0) ->
  ready q level cap w' /\ w_utils w' = w_utils w /\
  exists m a, w_malloc w = Some m /\ m (8 * cap) (w_heap w) = Some a /\ w_log w' = w_log w ++ [EvMalloc (8 * cap) (Some a)] /\
    (forall b, is_Some (w_heap w' !! b) <-> is_Some (w_heap w !! b) \/ b = a).
Proof.
  intros C F K H. assert (Hb : ubend_bytes cap = 8 * cap) by (unfold ubend_bytes, u64; rewrite Z.mod_small by lia; lia).
  cbn [w_step] in H. destruct (w_init w 0 q 0 1 level cap) as [w1 r] eqn:E. injection H as <- ->.
  assert (R1 : w_run w [OInit (N := B64) 0 q 0 1 level cap] = Ret (w1, [OutCode 0])) by (cbn [w_run w_step]; rewrite E; reflexivity).
  assert (C1 : correct_use none_live [OInit (N := B64) 0 q 0 1 level cap] [OutCode (N := B64) 0]) by (cbn; split; [reflexivity|exact I]).
  pose proof (C41_detector_lemma w [] 0 q 0 1 level cap [] w1 [OutCode 0] F K R1 C1 eq_refl ltac:(intros o [])) as D.
  destruct (run_inv none_live _ w w1 _ (inv_start w F) C1 R1) as [I U]. cbn in I.
  destruct (step_init_ok w 0 q 0 1 level cap w1 E) as (m & a & blk & s0 & M & A & B & S & G & ->). rewrite Hb in *.
  split; [split|].
  - destruct I as [I1 I2 I3]. split.
    + intros i Hi. apply I1. unfold live0 in Hi. rewrite Hi. reflexivity.
    + intros i j b Hi Hj. apply I2; unfold live0 in Hi, Hj; [rewrite Hi|rewrite Hj]; reflexivity.
    + exact I3.
  - exact D.
  - split; [reflexivity|]. exists m, a. split; [exact M|]. split; [exact A|]. split; [reflexivity|]. cbn [w_heap]. intros b.
    destruct (Z.eq_dec a b) as [<-|Hn].
    + pose proof (h_ins (w_heap w) a blk) as X. split; [auto|]. intros _. exists blk. exact X.
    + pose proof (h_ins_ne (w_heap w) a b blk Hn) as X. cbn [w_heap] in *. split; [intros [y Y]; left; exists y; rewrite <- X; exact Y|].
      intros [[y Y]|Y]; [exists y; rewrite <- Y; exact X|congruence].
Qed.

Lemma init_or_no_memory q level cap w w' r : spot_check (N := B64) q level = None -> 0 <= cap < 2 ^ 61 ->
  w_step w (OInit (N := B64) 0 q 0 1 level cap) = Ret (w', r) ->
  r = OutCode 0 \/ (r = OutCode (-1000) /\ w_heap w' = w_heap w /\ forall m, w_malloc w = Some m -> m (8 * cap) (w_heap w) = None).
Proof.
  intros C K H. assert (Hb : ubend_bytes cap = 8 * cap) by (unfold ubend_bytes, u64; rewrite Z.mod_small by lia; lia).
  cbn [w_step] in H. unfold w_init in H. rewrite C in H. unfold xmalloc in H. rewrite Hb in H.
  destruct (w_malloc w) as [m|] eqn:M; [destruct (m (8 * cap) (w_heap w)) as [a|] eqn:A|].
  - left. unfold spot_init in H. rewrite C in H.
    unfold tail_init, peaks_init, ubend_init in H. cbn in H. injection H as <- <-. reflexivity.
  - right. unfold spot_init in H. rewrite C in H. cbn in H. injection H as <- <-. split; [reflexivity|]. split; [reflexivity|]. intros m' Hm. injection Hm as <-. exact A.
  - right. unfold spot_init in H. rewrite C in H. cbn in H. injection H as <- <-. split; [reflexivity|]. split; [reflexivity|]. discriminate.
Qed.

Lemma draw_not_nan lg rand_max rand k : 0 < rand_max < 2 ^ 31 -> 0 <= rand k <= rand_max ->
  (forall x : b64, b64_leb (d 0) x = true -> b64_leb x (d 1) = true -> is_NaN (lg x) = false) -> is_NaN (rexp lg rand_max rand k) = false.
Proof.
  intros Hm Hr L. unfold rexp. assert (E : is_NaN (lg (runif rand_max rand k)) = false).
  { destruct (ofZ_exact (rand k)) as [F1 V1]; [lia|]. destruct (ofZ_exact rand_max) as [F2 V2]; [lia|].
    assert (P : (0 < IZR rand_max)%R) by (apply IZR_lt; lia). assert (P0 : (0 <= IZR (rand k))%R) by (apply IZR_le; lia).
    assert (P1 : (IZR (rand k) <= IZR rand_max)%R) by (apply IZR_le; lia).
    destruct (div_xval _ _ F1 F2) as [Nn V]; [rewrite V2; lra|]. rewrite V1, V2 in V.
    assert (Q0 : (0 <= IZR (rand k) / IZR rand_max)%R) by (apply Rmult_le_pos; [assumption|apply Rlt_le, Rinv_0_lt_compat; assumption]).
    assert (Q1 : (IZR (rand k) / IZR rand_max <= 1)%R) by (apply Rmult_le_reg_r with (IZR rand_max); [assumption|]; unfold Rdiv; rewrite Rmult_assoc, Rinv_l by lra; lra).
    apply rndc_mono in Q0, Q1. destruct (ofZ_exact 0) as [Fz Vz]; [lia|]. destruct (ofZ_exact 1) as [Fo Vo]; [lia|].
    rewrite <- Vz, rndc_format in Q0. rewrite <- Vo, rndc_format in Q1.
    apply L; apply leb_true_iff; (split; [reflexivity || exact Nn|]; split; [reflexivity || exact Nn|]).
    - unfold runif. rewrite V. unfold d. rewrite xval_finite by assumption. exact Q0.
    - unfold runif. rewrite V. unfold d. rewrite xval_finite by assumption. exact Q1. }
  destruct (lg _); try discriminate; reflexivity.
Qed.

Definition basic_q : b64 := b64_div (b64_ofZ 1) (b64_ofZ 10000).
Definition basic_level : b64 := b64_div (b64_ofZ 998) (b64_ofZ 1000).
Lemma basic_check : spot_check (N := B64) basic_q basic_level = None.
Proof. vm_compute. reflexivity. Qed.

Definition basic_rest lg rand_max rand (w : world B64) n k : res (world B64 * Z * option report) :=
  '(w, r) <- w_step w (OFit (N := B64) 0 (map (rexp lg rand_max rand) (seq 0 n))) ;;
  let status := match r with OutCode c => c | _ => 0 end in
  if status <? 0 then Ret (w, - status, None) else
  '(w, t) <- basic_loop lg rand_max rand w (MkTally 0 0 0) n k ;;
  let s := detector_state w 0 in
  Ret (w, 0, Some (t, s_at s, s_et s)).
Lemma basic_cases lg rand_max rand m (w : world B64) n k : fresh_malloc (Some m) ->
  (exists w2, basic_main lg rand_max rand m w n k = Ret (w2, 1000, None) /\ w_heap w2 = w_heap w /\ m 1600 (w_heap w) = None) \/
  (exists w2 a, basic_main lg rand_max rand m w n k = basic_rest lg rand_max rand w2 n k /\ ready basic_q basic_level 200 w2 /\
     m 1600 (w_heap w) = Some a /\ w_log w2 = w_log w ++ [EvMalloc 1600 (Some a)] /\
     (forall b, is_Some (w_heap w2 !! b) <-> is_Some (w_heap w !! b) \/ b = a)).
Proof.
  intros F. unfold basic_main. fold basic_q basic_level.
  set (w1 := MkWorld (w_heap w) (Some m) true (w_utils w) (w_inst w) (w_log w)).
  change (w_step w (OSetAllocators (Some m) true)) with (Ret (w1, OutUnit (N := B64))). cbn [bind].
  destruct (w_step w1 (OInit (N := B64) 0 basic_q 0 1 basic_level 200)) as [[w2 r]|y] eqn:H2.
  2:{ cbn [w_step] in H2. destruct (w_init _ _ _ _ _ _ _) in H2. discriminate. }
  cbn [bind]. destruct (init_or_no_memory basic_q basic_level 200 w1 w2 r basic_check ltac:(lia) H2) as [->|(-> & Hh & Hm)].
  - right. destruct (ready_init basic_q basic_level 200 w1 w2 basic_check F ltac:(lia) H2) as (R2 & _ & m' & a & M & A & L & B).
    cbn in M. injection M as <-. exists w2, a. split; [reflexivity|]. auto.
  - left. exists w2. split; [reflexivity|]. split; [exact Hh|]. exact (Hm m eq_refl).
Qed.

Lemma C70_undef_lemma lg rand_max rand m (w : world B64) n k x : fresh_malloc (Some m) ->
  basic_main lg rand_max rand m w n k = Undef x -> x = CastRange.
Proof.
  intros F H. destruct (basic_cases lg rand_max rand m w n k F) as [(w2 & E & _)|(w2 & a & E & R2 & _)]; rewrite E in H; [discriminate|].
  unfold basic_rest in H.
  destruct (w_step w2 (OFit (N := B64) 0 (map (rexp lg rand_max rand) (seq 0 n)))) as [[w3 r3]|y] eqn:E3.
  2:{ cbn in H. injection H as <-. eapply ready_undef; [exact R2| |exact E3]. reflexivity. }
  cbn [bind] in H. destruct (_ <? 0); [discriminate|].
  destruct (ready_ret _ _ _ w2 (OFit (N := B64) 0 _) (CFit (N := B64) _) _ _ R2 eq_refl E3) as (R3 & _).
  destruct (basic_loop _ _ _ w3 _ _ _) as [[w4 t]|y] eqn:E4; [discriminate|]. cbn [bind] in H. injection H as <-.
  eapply loop_undef; [exact R3|exact E4].
Qed.

Lemma C70_lemma lg rand_max rand m (w : world B64) n k w' code out : fresh_malloc (Some m) ->
  0 < rand_max < 2 ^ 31 -> (forall i, 0 <= rand i <= rand_max) ->
  (forall x : b64, b64_leb (d 0) x = true -> b64_leb x (d 1) = true -> is_NaN (lg x) = false) ->
  Z.of_nat n + Z.of_nat k < 2 ^ 64 ->
  basic_main lg rand_max rand m w n k = Ret (w', code, out) ->
  (code = 1000 /\ out = None /\ m 1600 (w_heap w) = None /\ w_heap w' = w_heap w) \/
  exists a, m 1600 (w_heap w) = Some a /\ w_log w' = w_log w ++ [EvMalloc 1600 (Some a)] /\
    (forall b, is_Some (w_heap w' !! b) <-> is_Some (w_heap w !! b) \/ b = a) /\
    (((code = 1003 \/ code = 1004) /\ out = None) \/
     let s := detector_state w' 0 in
     code = 0 /\ exists t, out = Some (t, s_at s, s_et s) /\
       0 <= n_anomaly t /\ 0 <= n_excess t /\ 0 <= n_normal t /\ n_anomaly t + n_excess t + n_normal t = Z.of_nat k /\
       s_n s = Z.of_nat n + n_excess t + n_normal t /\
       s_Nt s = count (beyond 0 (s_et s)) (map (rexp lg rand_max rand) (seq 0 n)) + n_excess t).
Proof.
  intros F Hm Hr Hl Hk H. assert (Hd : forall i, is_NaN (rexp lg rand_max rand i) = false) by (intros i; apply draw_not_nan; auto).
  destruct (basic_cases lg rand_max rand m w n k F) as [(w2 & E & Hh & Ha)|(w2 & a & E & R2 & Ha & L2 & D2)]; rewrite E in H.
  { left. injection H as <- <- <-. auto. }
  right. exists a. split; [exact Ha|]. unfold basic_rest in H.
  destruct (w_step w2 (OFit (N := B64) 0 (map (rexp lg rand_max rand) (seq 0 n)))) as [[w3 r3]|y] eqn:E3; [|discriminate]. cbn [bind] in H.
  destruct (ready_ret _ _ _ w2 (OFit (N := B64) 0 _) (CFit (N := B64) (map (rexp lg rand_max rand) (seq 0 n))) _ _ R2 eq_refl E3) as (R3 & M3 & S3 & L3 & D3).
  cbn [do_call] in S3. destruct (spot_fit _ _ _) as [[s3 c3]|] eqn:F3 in S3; [|discriminate]. cbn [bind] in S3. injection S3 as -> Er.
  assert (r3 = OutCode c3) as ->.
  { cbn [w_step] in E3. destruct (spot_fit _ _ _) as [[? ?]|] in E3; [|discriminate]. cbn in E3. injection E3 as _ <-. cbn in Er. injection Er as ->. reflexivity. }
  clear Er. destruct (C21_lemma _ _ _ _ _ F3) as [Hc _]. destruct (c3 <? 0) eqn:Hneg.
  - injection H as <- <- <-. split; [rewrite L3; exact L2|]. split; [intros b; rewrite D3; apply D2|]. left. split; [|reflexivity].
    apply Z.ltb_lt in Hneg. lia.
  - assert (c3 = 0) as -> by (apply Z.ltb_ge in Hneg; lia).
    destruct (basic_loop _ _ _ w3 _ _ _) as [[w4 t]|y] eqn:E4; [|discriminate]. cbn [bind] in H. injection H as <- <- <-.
    destruct (loop_ret lg rand_max rand _ _ _ _ _ _ _ _ _ R3 E4) as (R4 & L4 & D4 & rs & S4 & T4).
    split; [rewrite L4, L3; exact L2|]. split; [intros b; rewrite D4, D3; apply D2|]. right. cbv zeta. split; [reflexivity|]. exists t. split; [reflexivity|].
    rewrite M3 in S4. destruct (tally_counts rs (MkTally 0 0 0)) as (T1 & T2 & T3). rewrite <- T4 in T1, T2, T3. cbn [n_anomaly n_excess n_normal] in T1, T2, T3.
    destruct (steps_codes _ _ _ _ _ S4) as [Hlen Hin]; [intros x Hx; apply in_map_iff in Hx as (i & <- & _); apply Hd|].
    pose proof (count_all rs Hin) as CA. rewrite Hlen, map_length, seq_length in CA.
    destruct (C11_lemma _ _ _ _ _ _ _ _ _ _ _ _ _ (r_det _ _ _ _ R2) F3 eq_refl S4) as (N1 & N2 & _); [rewrite !map_length, !seq_length; exact Hk|].
    rewrite count_or in N1. rewrite map_length, seq_length in N1.
    destruct (C12_lemma _ _ _ _ _ S4) as (Et & _). rewrite <- Et in N2.
    assert (Cn : forall f, 0 <= count f rs) by (intros f; unfold count; lia).
    pose proof (Cn (fun c => c =? ANOMALY)). pose proof (Cn (fun c => c =? EXCESS)). pose proof (Cn (fun c => c =? NORMAL)).
    rewrite T1, T2, T3. repeat split; lia.
Qed.

(** ** basic.py *)
Definition plot_q : b64 := b64_div (b64_ofZ 5) (b64_ofZ 1000000).
Definition plot_level : b64 := b64_div (b64_ofZ 99) (b64_ofZ 100).
Lemma plot_check : spot_check (N := B64) plot_q plot_level = None.
Proof. vm_compute. reflexivity. Qed.

(** one observation *)
Lemma plot_step q level cap w x w1 ret : ready q level cap w -> is_NaN x = false -> py_step w 0 (PyFloat x) = Ret (w1, ret) ->
  ready q level cap w1 /\ exists c, interpreter ret = Returns (RInt c) /\
    (c =? ANOMALY) = b64_ltb (s_at (detector_state w 0)) x /\ (c = ANOMALY -> s_at (detector_state w1 0) = s_at (detector_state w 0)).
Proof.
  intros R Nx H. pose proof (C43_step_lemma w 0 (PyFloat x)) as L. cbn [number_value is_number] in L.
  destruct (w_step w (OStep (N := B64) 0 x)) as [[w' r]|y] eqn:E; [|rewrite L in H; discriminate].
  destruct L as (c & ret' & -> & P & I). rewrite P in H. injection H as <- <-.
  destruct (ready_ret _ _ _ w (OStep (N := B64) 0 x) (CStep (N := B64) x) _ _ R eq_refl E) as (R1 & _ & S1 & _).
  cbn [do_call] in S1. destruct (spot_step _ _ _) as [[s1 c1]|] eqn:Es in S1; [|discriminate]. cbn [bind] in S1. injection S1 as -> ->.
  split; [exact R1|]. exists c. split; [exact I|].
  destruct (C07_lemma _ _ _ _ _ _ _ x (r_det _ _ _ _ R) Nx) as [A B].
  destruct (Z.eqb_spec c ANOMALY) as [->|Hc].
  - destruct (B _ Es) as (_ & Be & ->). split; [symmetry; exact Be|reflexivity].
  - split; [|tauto]. destruct (b64_ltb (s_at (detector_state w 0)) x) eqn:Be; [|reflexivity]. exfalso.
    assert (X : spot_step (w_math w) (detector_state w 0) x = Ret (detector_state w 0, ANOMALY)) by (apply A; split; [discriminate|exact Be]).
    rewrite X in Es. injection Es as _ Es. congruence.
Qed.
Lemma plot_step_undef q level cap w x y : ready q level cap w -> py_step w 0 (PyFloat x) = Undef y -> y = CastRange.
Proof.
  intros R H. pose proof (C43_step_lemma w 0 (PyFloat x)) as L. cbn [number_value is_number] in L.
  destruct (w_step w (OStep (N := B64) 0 x)) as [[w' r]|z] eqn:E.
  - destruct L as (c & ret' & _ & P & _). rewrite P in H. discriminate.
  - rewrite L in H. injection H as <-. eapply ready_undef; [exact R| |exact E]. reflexivity.
Qed.

Lemma plot_loop_lemma q level cap stream : forall w k, ready q level cap w -> (forall x, In x stream -> is_NaN x = false) ->
  match plot_loop w k stream with
  | Undef y => y = CastRange
  | Ret (w', inr _) => False
  | Ret (w', inl (points, line)) => ready q level cap w' /\ List.length line = List.length stream /\
      points = map fst (filter (fun p => b64_ltb (snd p) (snd (fst p))) (combine (combine (seq k (List.length stream)) stream) (s_at (detector_state w 0) :: line))) /\
      forall j x, In (j, x) points -> exists t, nth_error line (j - k) = Some t /\ b64_ltb t x = true
  end.
Proof.
  induction stream as [|x stream IH]; intros w k R Hx; cbn [plot_loop].
  - split; [exact R|]. split; [reflexivity|]. split; [reflexivity|intros j x []].
  - destruct (py_step w 0 (PyFloat x)) as [[w1 ret]|y] eqn:E; [|cbn [bind]; eapply plot_step_undef; eauto]. cbn [bind].
    destruct (plot_step _ _ _ _ _ _ _ R (Hx x (or_introl eq_refl)) E) as (R1 & c & -> & Hc & Ha).
    specialize (IH w1 (S k) R1 (fun y Hy => Hx y (or_intror Hy))).
    destruct (plot_loop w1 (S k) stream) as [[w2 [[points line]|e]]|y]; [|destruct IH|exact IH]. cbn [bind].
    destruct IH as (R2 & Hl & Hp & Hin). split; [exact R2|]. split; [cbn; lia|]. rewrite Hc.
    cbn [List.length seq combine]. cbn [List.filter fst snd].
    assert (Hlt : forall j y, In (j, y) points -> (S k <= j)%nat).
    { intros j y Hj. rewrite Hp in Hj. apply in_map_iff in Hj as ([[j' y'] t] & E1 & Hj). cbn in E1. injection E1 as -> ->.
      apply filter_In in Hj as [Hj _]. apply in_combine_l, in_combine_l, in_seq in Hj. lia. }
    destruct (b64_ltb (s_at (detector_state w 0)) x) eqn:Be.
    + apply Z.eqb_eq in Hc. split; [cbn [map fst]; f_equal; exact Hp|]. intros j y [Hj|Hj].
      * injection Hj as <- <-. replace (k - k)%nat with 0%nat by lia. exists (s_at (detector_state w1 0)). split; [reflexivity|].
        rewrite (Ha Hc). exact Be.
      * destruct (Hin j y Hj) as (t & T1 & T2). exists t. split; [|exact T2]. specialize (Hlt j y Hj). replace (j - k)%nat with (S (j - S k)) by lia. exact T1.
    + split; [exact Hp|]. intros j y Hj. destruct (Hin j y Hj) as (t & T1 & T2). exists t. split; [|exact T2]. specialize (Hlt j y Hj).
      replace (j - k)%nat with (S (j - S k)) by lia. exact T1.
Qed.

Lemma plot_prefix mallocs junk (w : world B64) train : fresh_malloc (w_malloc w) -> 256 <= Z.of_nat (List.length junk) ->
  8 * Z.of_nat (List.length train) < 2 ^ 64 -> (train = [] \/ mallocs (8 * Z.of_nat (List.length train)) = true) ->
  (forall stream, plot_main mallocs junk w train stream = Undef CastRange) \/
  (exists w' e, (forall stream, plot_main mallocs junk w train stream = Ret (w', inr e)) /\ (e = SystemError \/ e = RuntimeError (bytes_of "Memory allocation failed"))) \/
  (exists w', ready plot_q plot_level 2000 w' /\ forall stream, plot_main mallocs junk w train stream = plot_loop w' 0 stream).
Proof.
  intros F Hj Hl Hm. unfold plot_main. fold plot_q plot_level.
  destruct (C43_construct_lemma junk w 0 (PyFloat plot_q) None None (Some (PyFloat plot_level)) (Some 2000) Hj) as (w1 & ret & E1 & H). rewrite E1. cbn [bind].
  change (args_ok (PyFloat plot_q) None None (Some (PyFloat plot_level))) with true in H. cbn [given init_call number_value] in H.
  destruct H as (w2 & c & E2 & H). change (init_call 0 (PyFloat plot_q) None None (Some (PyFloat plot_level)) (Some 2000)) with (OInit (N := B64) 0 plot_q 0 1 plot_level 2000) in E2.
  destruct (init_or_no_memory plot_q plot_level 2000 _ _ _ plot_check ltac:(lia) E2) as [Hc|(Hc & _)]; injection Hc as ->.
  2:{ destruct H as [(X & _)|(msg & Hin & -> & _)]; [discriminate|]. right; left. exists w1, (RuntimeError (bytes_of msg)). split; [reflexivity|]. right. cbn in Hin.
      destruct Hin as [Hin|[Hin|[Hin|[]]]]; try discriminate Hin. injection Hin as <-. reflexivity. }
  destruct H as [(_ & -> & ->)|(msg & Hin & _)]; [|exfalso; cbn in Hin; destruct Hin as [Hin|[Hin|[Hin|[]]]]; discriminate Hin].
  destruct (ready_init plot_q plot_level 2000 (py_new w 0) w2 plot_check F ltac:(lia) E2) as (R2 & _).
  pose proof (C43_fit_lemma mallocs junk w2 0 (PyIterable (map PyFloat train)) (map PyFloat train) (or_intror eq_refl)) as L.
  rewrite map_length in L. specialize (L Hl). assert (Hm' : map PyFloat train = [] \/ mallocs (8 * Z.of_nat (List.length train)) = true) by (destruct Hm as [->|]; [left; reflexivity|right; assumption]).
  specialize (L Hm' Hj).
  destruct (w_step w2 (OFit (N := B64) 0 (map number_value (map PyFloat train)))) as [[w3 r3]|y] eqn:E3.
  2:{ rewrite L. cbn [bind]. left. intros _. f_equal. eapply ready_undef; [exact R2| |exact E3]. reflexivity. }
  destruct L as (c & ret' & -> & -> & I & _). cbn [bind]. rewrite I. unfold seen_if. destruct ((c =? 0) && _)%bool; [|right; left; eauto].
  destruct (ready_ret _ _ _ w2 (OFit (N := B64) 0 _) (CFit (N := B64) (map number_value (map PyFloat train))) _ _ R2 eq_refl E3) as (R3 & _).
  right; right. exists w3. split; [exact R3|reflexivity].
Qed.

Lemma C71_lemma mallocs junk (w : world B64) train stream : fresh_malloc (w_malloc w) -> 256 <= Z.of_nat (List.length junk) ->
  8 * Z.of_nat (List.length train) < 2 ^ 64 -> (train = [] \/ mallocs (8 * Z.of_nat (List.length train)) = true) ->
  (forall x, In x stream -> is_NaN x = false) ->
  match plot_main mallocs junk w train stream with
  | Undef y => y = CastRange
  | Ret (w', inr e) => e = SystemError \/ e = RuntimeError (bytes_of "Memory allocation failed")
  | Ret (w', inl (points, line)) => List.length line = List.length stream /\
      (exists w0, plot_main mallocs junk w train [] = Ret (w0, inl ([], [])) /\
         points = map fst (filter (fun p => b64_ltb (snd p) (snd (fst p)))
                    (combine (combine (seq 0 (List.length stream)) stream) (s_at (detector_state w0 0) :: line)))) /\
      forall k x, In (k, x) points -> exists t, nth_error line k = Some t /\ b64_ltb t x = true
  end.
Proof.
  intros F Hj Hl Hm Hx. destruct (plot_prefix mallocs junk w train F Hj Hl Hm) as [E|[(w' & e & E & He)|(w3 & R3 & E)]]; rewrite !E; [reflexivity|exact He|].
  pose proof (plot_loop_lemma plot_q plot_level 2000 stream w3 0 R3 Hx) as P.
  destruct (plot_loop w3 0 stream) as [[w4 [[points line]|e]]|y]; [|destruct P|exact P].
  destruct P as (_ & P1 & P2 & P3). split; [exact P1|]. split; [exists w3; split; [reflexivity|exact P2]|]. intros k x Hk. destruct (P3 k x Hk) as (t & T1 & T2).
  exists t. split; [|exact T2]. rewrite Nat.sub_0_r in T1. exact T1.
Qed.
