(** * WordApi: consequences of a 32-bit unsigned long (C81) *)
From Coq Require Import ZArith List Bool Lia Reals Lra.
From Flocq Require Import Core.Core IEEE754.BinarySingleNaN.
From Verif Require Import Num NumFacts XMath Ubend UbendFacts Session Peaks PeaksFacts Brent Estimator Tail P2 Spot SpotFacts B64 Spec RNum TailSpec ExactTail WindowLemmas
  SpotB64 DetectorLemmas RefitLemmas StaleLemmas Word WordLemmas Demo.
Import ListNotations.
Open Scope Z_scope.

Lemma word_overflow_fit mf (old : spot B64) q low discard level k s data et :
  1 <= k < 8 ->
  w_spot_init u32 old q low discard level (k * 2 ^ 29) (fun bytes => Some (repeat None (Z.to_nat (bytes / 8)))) = (s, 0) ->
  p2_quantile (N := B64) (if low =? 0 then level else b64_minus (d 1) level) data = Ret et -> is_NaN et = false ->
  excesses low et data <> [] ->
  w_spot_fit u32 mf s data = Undef OutOfBounds.
Proof.
  intros Hk I P Ne Hx.
  assert (EB : Z.to_nat (w_ubend_bytes u32 (k * 2 ^ 29) / 8) = 0%nat).
  { unfold w_ubend_bytes, u32. replace (k * 2 ^ 29 * 8) with (k * 2 ^ 32) by lia. rewrite Z_mod_mult. reflexivity. }
  unfold w_spot_init in I. destruct (spot_check q level) as [code|] eqn:EC.
  { exfalso. injection I as _ ->. unfold spot_check in EC.
    destruct (_ || _)%bool in EC; [discriminate|]. destruct (_ || _)%bool in EC; discriminate. }
  rewrite EB in I. cbn [repeat tail_init peaks_init ubend_init Z.ltb Z.compare] in I. injection I as <-.
  unfold w_spot_fit. cbv zeta. cbn [s_low s_level with_counts].
  set (pp := if Z.eqb (if low =? 0 then 0 else 1) 0 then level else nsub (nofZ 1) level).
  assert (EP : pp = (if low =? 0 then level else b64_minus (d 1) level)).
  { unfold pp. destruct (low =? 0); reflexivity. }
  rewrite EP. change (p2_quantile (N := B64)) with (@p2_quantile B64) in *. rewrite P. cbn [bind].
  rewrite is_NaN_model, Ne.
  rewrite w_fit_fill_empty; try reflexivity.
  set (s0 := with_et _ _).
  assert (Sd : sided low s0).
  { unfold sided, s0. cbn [s_updown with_et with_counts]. destruct (Z.eqb_spec low 0); auto. }
  rewrite (fit_excesses_eq low s0 et data Sd). exact Hx.
Qed.

Lemma detector_cursor {N} (mf : MathFns N) q low discard level cap s : detector mf q low discard level cap s -> cur_ok cap (p_cont (t_peaks (s_tail s))).
Proof.
  intros (old & blk & s0 & cs & as_ & H1 & H2 & H3 & H4).
  assert (W : wf cap s0 []) by (refine (init_wf _ _ _ _ _ cap blk _ _ _ H3); assumption). destruct (session_wf mf cap s0 [] cs s as_ W H4) as (_ & l & W').
  destruct W' as (_ & A & _ & [(_ & B & C & _)|(_ & _ & B & _)]); (split; [exact A|unfold win in *; lia]).
Qed.

(** the same excess seen by a detector that counts in 64 bits and by one whose counter has wrapped *)
Lemma word_later {N} (mf : MathFns N) q low discard level cap (s a b : spot N) k x :
  detector mf q low discard level cap s -> cap < 2 ^ 32 -> 0 <= s_Nt s -> s_Nt s + 1 < 2 ^ 32 -> 0 <= k < 2 ^ 64 - 1 ->
  spot_step mf (with_counts s (s_Nt s) k) x = Ret (a, EXCESS) ->
  w_spot_step u32 mf (with_counts s (s_Nt s) (k mod 2 ^ 32)) x = Ret (b, EXCESS) ->
  s_tail a = s_tail b /\ s_Nt a = s_Nt s + 1 /\ s_Nt b = s_Nt s + 1 /\ s_n a = k + 1 /\ s_n b = (k + 1) mod 2 ^ 32 /\
  s_et a = s_et b /\ s_updown a = s_updown b /\ s_q a = s_q b /\ spot_quantile mf a (s_q a) = Ret (s_at a) /\ spot_quantile mf b (s_q b) = Ret (s_at b).
Proof.
  intros D Hc H0 H1 Hk A B. apply detector_cursor in D. assert (Hcap : 1 <= cap < 2 ^ 32) by (destruct D; lia).
  apply step_inv in A. destruct A as [? ? E|? ? ? ? E|? ? ? ? E|t1 t2 ll ta _ _ Ge E1 E2 E3 -> _]; try discriminate.
  cbn [s_updown s_et s_tail s_Nt s_n s_q with_counts] in *.
  revert B. unfold w_spot_step. cbv zeta. cbn [s_updown s_et s_at s_discard s_Nt s_n s_tail s_q with_counts].
  destruct (is_nan x); [discriminate|]. destruct (_ && _)%bool; [discriminate|]. rewrite Ge.
  destruct (tail_push_agree cap Hcap (s_tail s) (nmul (s_updown s) (nsub x (s_et s))) D) as (E & _). rewrite E, E1. cbn [bind]. rewrite E2. cbn [bind].
  match goal with |- context [bind (spot_quantile mf ?u ?v) _] => destruct (spot_quantile mf u v) as [tb|] eqn:E4 end; cbn [bind]; [|discriminate]. intros X; injection X as <-.
  cbn [s_tail s_Nt s_n s_et s_updown s_q s_at with_at with_tail with_counts] in *.
  rewrite (u32_small (s_Nt s + 1)), (u64_small (s_Nt s + 1)), (u64_small (k + 1)) in * by lia.
  assert (U : u32 (k mod 2 ^ 32 + 1) = (k + 1) mod 2 ^ 32) by (unfold u32; rewrite Zplus_mod_idemp_l; reflexivity).
  repeat (split; [first [reflexivity|exact U]|]). split; [exact E3|exact E4].
Qed.

Open Scope R_scope.
Lemma word_jump q0 q low discard level cap (s a b : spot RNum) k x et dir sigma gamma :
  detector exact_math q0 low discard level cap s -> s_q s = Some q -> (cap < 2 ^ 32)%Z -> (0 <= s_Nt s)%Z -> (s_Nt s + 1 < 2 ^ 32)%Z ->
  (2 ^ 32 <= k + 1 < 2 ^ 64)%Z -> ((k + 1) mod 2 ^ 32 <> 0)%Z -> 0 < q ->
  spot_step exact_math (with_counts s (s_Nt s) k) x = Ret (a, EXCESS) ->
  w_spot_step u32 exact_math (with_counts s (s_Nt s) (k mod 2 ^ 32)) x = Ret (b, EXCESS) ->
  real_detector a et dir sigma gamma ->
  window a = window b /\ real_detector b et dir sigma gamma /\ exists za zb, s_at a = Some za /\ s_at b = Some zb /\ dir * za < dir * zb.
Proof.
  intros D Hs Hc H0 H1 Hk Hm Hq A B Da. assert (Hk' : (0 <= k < 2 ^ 64 - 1)%Z) by lia. destruct (word_later _ _ _ _ _ _ _ _ _ _ _ D Hc H0 H1 Hk' A B) as (T & Na & Nb & Ka & Kb & Et & Ud & Q & Qa & Qb).
  split; [unfold window; rewrite T; reflexivity|]. pose proof Da as (D1 & D2 & D3 & D4 & D5 & D6 & D7 & D8).
  pose proof (Z.mod_pos_bound (k + 1) (2 ^ 32) ltac:(lia)) as MB.
  assert (Db : real_detector b et dir sigma gamma). { unfold real_detector. rewrite <- T, <- Et, <- Ud, Nb, Kb. repeat (split; [first [assumption|lia]|]). lia. }
  split; [exact Db|]. assert (Eq : s_q a = Some q).
  { apply step_inv in A. destruct A as [? ? E|? ? ? ? E|? ? ? ? E|t1 t2 ll ta _ _ Ge E1 E2 E3 -> _]; try discriminate. cbn [s_q with_at with_tail with_counts].
    exact Hs. }
  rewrite <- Q, Eq in Qb. rewrite Eq in Qa. rewrite (quantile_eq a et dir sigma gamma Da q Hq) in Qa. rewrite (quantile_eq b et dir sigma gamma Db q Hq) in Qb.
  injection Qa as Qa. injection Qb as Qb. exists (zq a et dir sigma gamma q), (zq b et dir sigma gamma q). split; [symmetry; exact Qa|]. split; [symmetry; exact Qb|].
  pose proof (rate_pos _ _ _ _ _ Da) as R1. pose proof (rate_pos _ _ _ _ _ Db) as R2. rewrite (zq_rate b a) by assumption.
  assert (LT : excess_rate a < excess_rate b).
  { unfold excess_rate. rewrite Na, Nb, Ka, Kb. apply Rmult_lt_compat_l; [apply IZR_lt; lia|]. apply Rinv_lt_contravar; [|apply IZR_lt; lia].
    apply Rmult_lt_0_compat; apply IZR_lt; lia. }
  assert (1 < excess_rate b / excess_rate a). { apply (Rmult_lt_reg_r (excess_rate a)); [assumption|]. unfold Rdiv. rewrite Rmult_assoc, Rinv_l by lra. lra. }
  pose proof (offset_decreasing b et dir sigma gamma Db q (q * (excess_rate b / excess_rate a)) Hq ltac:(nra)) as O. lra.
Qed.

(** ** A detector after 2^32 observations *)
Open Scope Z_scope.
Definition word_demo : spot B64 := run (demo_init 0 1 4) [CFit (N := B64) [d 1]].
Definition word_check (r r' : res (spot B64 * Z)) (p : res (num B64)) : bool :=
  match r, r', p with
  | Ret (a, c), Ret (b, c'), Ret p => (c =? EXCESS) && (c' =? EXCESS) && b64_eqb p pinf && b64_ltb (s_at a) (d (-20)) && b64_ltb (d 8) (s_at b)
  | _, _, _ => false
  end.
Lemma word_check_ok r r' p : word_check r r' p = true -> exists a b p', r = Ret (a, EXCESS) /\ r' = Ret (b, EXCESS) /\ p = Ret p' /\ b64_eqb p' pinf = true /\
  b64_ltb (s_at a) (d (-20)) = true /\ b64_ltb (d 8) (s_at b) = true.
Proof.
  unfold word_check. destruct r as [[a c]|]; [|discriminate]. destruct r' as [[b c']|]; [|discriminate]. destruct p as [p|]; [|discriminate]. intros H.
  apply andb_prop in H as (H & H5). apply andb_prop in H as (H & H4). apply andb_prop in H as (H & H3). apply andb_prop in H as (H1 & H2).
  apply Z.eqb_eq in H1, H2. subst c c'. exists a, b, p. auto 10.
Qed.
Definition is_normal (r : res (spot B64 * Z)) : bool := match r with Ret (_, c) => c =? NORMAL | Undef _ => false end.
Lemma is_normal_ok r : is_normal r = true -> exists s, r = Ret (s, NORMAL).
Proof. destruct r as [[s c]|]; [|discriminate]. cbn [is_normal]. intros H. apply Z.eqb_eq in H. subst c. eauto. Qed.
Lemma word_n : s_n word_demo = 1. Proof. vm_compute. reflexivity. Qed.
Lemma word_Nt : s_Nt word_demo = 1. Proof. vm_compute. reflexivity. Qed.
Lemma word_wraps (mf : MathFns B64) (s s' : spot B64) x k : s_n s = 1 -> s_Nt s = 1 -> Z.of_nat k = 2 ^ 32 - 1 -> w_spot_step u32 mf s x = Ret (s', NORMAL) ->
  w_spot_steps u32 mf s (repeat x k) = Ret (with_counts s 1 0, repeat NORMAL k).
Proof. intros C1 C2 K H. rewrite (word_repeat mf s s' x k ltac:(rewrite C1; lia) H). rewrite C1, C2, K. reflexivity. Qed.

Lemma step_normal_any {N} (mf : MathFns N) (s s' : spot N) x : spot_step mf s x = Ret (s', NORMAL) ->
  forall n, spot_step mf (with_counts s (s_Nt s) n) x = Ret (with_counts s (s_Nt s) (u64 (n + 1)), NORMAL).
Proof.
  unfold spot_step. cbv zeta. cbn [s_updown s_et s_at s_discard s_Nt s_n s_tail s_q with_counts]. destruct (is_nan x); [discriminate|]. destruct (_ && _)%bool; [discriminate|].
  destruct (nle _ _).
  - destruct (tail_push _ _) as [t|]; cbn [bind]; [|discriminate]. destruct (tail_fit mf t) as [[t2 ll]|]; cbn [bind]; [|discriminate]. destruct (spot_quantile mf _ _); cbn [bind]; discriminate.
  - intros _ n. destruct s. reflexivity.
Qed.
Lemma steps_repeat {N} (mf : MathFns N) (s s1 : spot N) x k : 0 <= s_n s -> s_n s + Z.of_nat k < 2 ^ 64 -> spot_step mf s x = Ret (s1, NORMAL) ->
  spot_steps mf s (repeat x k) = Ret (with_counts s (s_Nt s) (s_n s + Z.of_nat k), repeat NORMAL k).
Proof.
  intros Hn Hk H. pose proof (step_normal_any mf s s1 x H) as G. clear H s1.
  assert (G2 : forall k n, 0 <= n -> n + Z.of_nat k < 2 ^ 64 -> spot_steps mf (with_counts s (s_Nt s) n) (repeat x k) = Ret (with_counts s (s_Nt s) (n + Z.of_nat k), repeat NORMAL k)).
  { clear k Hk. induction k as [|k IH]; intros n Rn Rk; cbn [repeat spot_steps]; [rewrite Z.add_0_r; reflexivity|].
    rewrite G. cbn [bind]. rewrite u64_small by lia. rewrite IH by lia. cbn [bind]. replace (n + 1 + Z.of_nat k) with (n + Z.of_nat (S k)) by lia. reflexivity. }
  rewrite <- (with_counts_same s) at 1. apply G2; assumption.
Qed.
Lemma word_keeps (mf : MathFns B64) (s s' : spot B64) x k : s_n s = 1 -> s_Nt s = 1 -> Z.of_nat k = 2 ^ 32 - 1 -> spot_step mf s x = Ret (s', NORMAL) ->
  spot_steps mf s (repeat x k) = Ret (with_counts s 1 (2 ^ 32), repeat NORMAL k).
Proof. intros C1 C2 K H. rewrite (steps_repeat mf s s' x k ltac:(lia) ltac:(lia) H). rewrite C1, C2, K. reflexivity. Qed.

Lemma word_witness : exists (s a0 a b0 b : spot B64) (p : b64) (k : nat), detector (c_math musl_utils) (dy 1 7) 0 1 (dy 3 2) 4 s /\ s_n s = 1 /\ Z.of_nat k = 2 ^ 32 - 1 /\
  spot_steps (c_math musl_utils) s (repeat (d (-1)) k) = Ret (a0, repeat NORMAL k) /\ s_n a0 = 2 ^ 32 /\
  w_spot_steps u32 (c_math musl_utils) s (repeat (d (-1)) k) = Ret (b0, repeat NORMAL k) /\ s_n b0 = 0 /\
  spot_probability (c_math musl_utils) b0 (d 2 : num B64) = Ret (p : num B64) /\ b64_eqb p pinf = true /\
  spot_step (c_math musl_utils) a0 (d 2 : num B64) = Ret (a, EXCESS) /\ b64_ltb (s_at a) (d (-20)) = true /\
  w_spot_step u32 (c_math musl_utils) b0 (d 2 : num B64) = Ret (b, EXCESS) /\ b64_ltb (d 8) (s_at b) = true.
Proof.
  destruct (word_check_ok (spot_step cm (with_counts word_demo 1 (2 ^ 32)) (d 2)) (w_spot_step u32 cm (with_counts word_demo 1 0) (d 2)) (spot_probability cm (with_counts word_demo 1 0) (d 2)))
    as (a & b & p & H1 & H2 & H3 & H4 & H5 & H6); [vm_cast_no_check (eq_refl true)|].
  destruct (is_normal_ok (w_spot_step u32 cm word_demo (d (-1)))) as (s' & H7); [vm_cast_no_check (eq_refl true)|].
  destruct (is_normal_ok (spot_step cm word_demo (d (-1)))) as (s'' & H8); [vm_cast_no_check (eq_refl true)|].
  destruct (Z_of_nat_complete (2 ^ 32 - 1)) as (k & K); [discriminate|]. symmetry in K.
  pose proof word_n as C1. pose proof word_Nt as C2.
  exists word_demo, (with_counts word_demo 1 (2 ^ 32)), a, (with_counts word_demo 1 0), b, p, k.
  split; [apply demo_detector; [lia|vm_compute; reflexivity..]|]. split; [exact C1|]. split; [exact K|].
  split; [exact (word_keeps cm word_demo s'' (d (-1)) k C1 C2 K H8)|]. split; [reflexivity|].
  split; [exact (word_wraps cm word_demo s' (d (-1)) k C1 C2 K H7)|].
  split; [reflexivity|]. split; [exact H3|]. split; [exact H4|]. split; [exact H1|]. split; [exact H5|]. split; [exact H2|exact H6].
Qed.
