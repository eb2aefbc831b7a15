(** * WordJump: the first excess after the counter has wrapped (C81) *)
From Coq Require Import ZArith List Bool Lia Reals Lra.
From Flocq Require Import Core.Core.
From Verif Require Import Num NumFacts XMath Ubend UbendFacts Session Peaks PeaksFacts Brent Estimator Tail P2 Spot SpotFacts RNum Spec ExactWindow
  SpotB64 DetectorLemmas WindowLemmas RefitLemmas TailSpec ExactTail StaleLemmas Word WordLemmas WordApi ExactUsable.
Import ListNotations.
Open Scope Z_scope.

Lemma normal_both {N} (mf : MathFns N) xs : forall (s s' : spot N) n, spot_steps mf s xs = Ret (s', repeat NORMAL (length xs)) ->
  exists k m, s' = with_counts s (s_Nt s) k /\ w_spot_steps u32 mf (with_counts s (s_Nt s) n) xs = Ret (with_counts s (s_Nt s) m, repeat NORMAL (length xs)).
Proof.
  induction xs as [|x xs IH]; intros s s' n; cbn [spot_steps w_spot_steps length repeat].
  - intros H; injection H as <-. exists (s_n s), n. split; [destruct s; reflexivity|reflexivity].
  - destruct (spot_step mf s x) as [[s1 r]|] eqn:E; cbn [bind]; [|discriminate]. destruct (spot_steps mf s1 xs) as [[s2 l]|] eqn:E2; cbn [bind]; [|discriminate].
    intros H; injection H as <- -> ->. apply step_inv in E. destruct E as [? ? X|? ? ? ? X|Nx C1 C2 -> _|? ? ? ? ? ? ? ? ? ? ? X]; try discriminate.
    destruct (IH _ _ (u32 (n + 1)) E2) as (k & m & -> & E3). exists k, m. split; [reflexivity|].
    unfold w_spot_step at 1. rewrite Nx. cbn [s_discard s_updown s_at s_et s_Nt s_n with_counts]. cbv zeta.
    assert (X : (negb (s_discard s =? 0) && nlt (nofZ 0) (nmul (s_updown s) (nsub x (s_at s))))%bool = false).
    { destruct C1 as [->| ->]; [reflexivity|apply andb_false_r]. }
    rewrite X, C2. cbn [bind]. cbn [s_Nt with_counts] in E3. unfold with_counts in *. cbn in *. rewrite E3. reflexivity.
Qed.

Lemma exact_quantile_total (s : spot RNum) q : exists v, spot_quantile exact_math s q = Ret v.
Proof. unfold spot_quantile, tail_quantile. destruct (neq _ _); cbn [bind exact_math m_pow]; eauto. Qed.
Lemma excess_both q low discard level cap (s a : spot RNum) x k n : detector exact_math q low discard level cap s -> cap < 2 ^ 32 ->
  spot_step exact_math (with_counts s (s_Nt s) k) x = Ret (a, EXCESS) -> exists b, w_spot_step u32 exact_math (with_counts s (s_Nt s) n) x = Ret (b, EXCESS).
Proof.
  intros D Hc A. apply detector_cursor in D. assert (Hcap : 1 <= cap < 2 ^ 32) by (destruct D; lia).
  apply step_inv in A. destruct A as [? ? E|? ? ? ? E|? ? ? ? E|t1 t2 ll ta Nx C1 C2 E1 E2 E3 -> _]; try discriminate.
  cbn [s_updown s_et s_at s_discard s_tail with_counts] in *.
  unfold w_spot_step. rewrite Nx. cbn [s_discard s_updown s_at s_et s_Nt s_n s_tail s_q with_counts]. cbv zeta.
  assert (X : (negb (s_discard s =? 0) && nlt (nofZ 0) (nmul (s_updown s) (nsub x (s_at s))))%bool = false).
  { destruct C1 as [->| ->]; [reflexivity|apply andb_false_r]. }
  rewrite X, C2. destruct (tail_push_agree cap Hcap (s_tail s) (nmul (s_updown s) (nsub x (s_et s))) D) as (P & _). rewrite P, E1. cbn [bind]. rewrite E2. cbn [bind].
  match goal with |- context [spot_quantile exact_math ?u ?v] => destruct (exact_quantile_total u v) as (r & ->) end. cbn [bind]. eauto.
Qed.

Lemma repeat_in {A} (a x : A) k : In x (repeat a k) -> x = a.
Proof. intros I. apply repeat_spec in I. exact I. Qed.
Lemma detector_steps {N} (mf : MathFns N) q low discard level cap xs : forall s s' rs, detector mf q low discard level cap s -> spot_steps mf s xs = Ret (s', rs) -> detector mf q low discard level cap s'.
Proof.
  induction xs as [|x xs IH]; intros s s' rs D; cbn [spot_steps]; [intros H; injection H as <- _; exact D|].
  destruct (spot_step mf s x) as [[s1 r]|] eqn:E; cbn [bind]; [|discriminate]. destruct (spot_steps mf s1 xs) as [[s2 l]|] eqn:E2; cbn [bind]; [|discriminate].
  intros H; injection H as <- _. apply (IH s1 s2 l); [|exact E2]. apply (detector_call mf q low discard level cap s (CStep x) s1 (ACode r) D). cbn [do_call]. rewrite E. reflexivity.
Qed.
Lemma count_repeat k : count_occ Z.eq_dec (repeat NORMAL k) NORMAL = k.
Proof. induction k as [|k IH]; [reflexivity|]. cbn [repeat]. rewrite count_occ_cons_eq by reflexivity. rewrite IH. reflexivity. Qed.

Open Scope R_scope.
Lemma word_stream q low discard level cap (s a0 a : spot RNum) xs x (w : list R) :
  detector exact_math (Some q : num RNum) low discard level cap s -> (cap < 2 ^ 32)%Z -> (0 <= s_Nt s)%Z -> (s_Nt s + 1 < 2 ^ 32)%Z -> (0 <= s_n s < 2 ^ 32)%Z ->
  (2 ^ 32 <= s_n s + Z.of_nat (length xs) + 1 < 2 ^ 64)%Z -> ((s_n s + Z.of_nat (length xs) + 1) mod 2 ^ 32 <> 0)%Z ->
  spot_steps exact_math s xs = Ret (a0, repeat NORMAL (length xs)) -> spot_step exact_math a0 x = Ret (a, EXCESS) ->
  oldest_first (window a) = map Some (map Some w : list (num RNum)) -> w <> [] -> (forall y, In y w -> 0 < y) ->
  let dir := if (low =? 0)%Z then 1 else -1 in
  exists (b0 b : spot RNum) za zb, w_spot_steps u32 exact_math s xs = Ret (b0, repeat NORMAL (length xs)) /\ w_spot_step u32 exact_math b0 x = Ret (b, EXCESS) /\
    window a = window b /\ s_n a = (s_n s + Z.of_nat (length xs) + 1)%Z /\ s_n b = ((s_n s + Z.of_nat (length xs) + 1) mod 2 ^ 32)%Z /\
    s_at a = Some za /\ s_at b = Some zb /\ dir * za < dir * zb.
Proof.
  intros D Hc Ht0 Ht1 Hn Hk Hm HA HX W Ne Pos dir.
  assert (NE : ~ In EXCESS (repeat NORMAL (length xs))). { intros I. apply repeat_in in I. discriminate. }
  assert (H01 : (0 <= s_n s)%Z) by lia. assert (H02 : (s_n s + Z.of_nat (length xs) < 2 ^ 64)%Z) by lia.
  pose proof (quiet_counts _ _ _ _ _ HA NE H01 H02) as EA. rewrite count_repeat in EA.
  destruct (normal_both exact_math xs s a0 (s_n s) HA) as (k0 & m & _ & HB). rewrite with_counts_same in HB.
  pose proof (word_normal exact_math xs s _ _ Hn HB (fun r => repeat_in NORMAL r (length xs))) as EB. rewrite EB in HB. clear EB.
  pose proof HX as HX'. rewrite EA in HX'. destruct (excess_both _ _ _ _ _ s a x _ ((s_n s + Z.of_nat (length xs)) mod 2 ^ 32) D Hc HX') as (b & HY).
  assert (Q : s_q s = Some q) by (apply detector_facts in D as (Q & _); exact Q).
  assert (H03 : (0 <= s_n s + Z.of_nat (length xs) < 2 ^ 64 - 1)%Z) by lia.
  destruct (word_later _ _ _ _ _ _ _ _ _ _ _ D Hc Ht0 Ht1 H03 HX' HY) as (_ & Na & _ & Ka & Kb & _).
  pose proof (detector_steps exact_math _ _ _ _ _ xs s a0 _ D HA) as Da.
  assert (H04 : (0 < s_Nt a)%Z) by lia. assert (H05 : (0 < s_n a)%Z) by lia.
  destruct (exact_usable q low discard level cap a0 a w Da (or_introl (ex_intro _ x HX)) H04 H05 W Ne Pos) as (et & sg & g & z & RD & _ & _ & _ & _).
  assert (Hq : 0 < q).
  { destruct D as (? & ? & ? & ? & ? & _ & _ & D & _). unfold spot_init in D. destruct (spot_check _ _) eqn:SC in D.
    - injection D as _ ->. unfold spot_check in SC. destruct (_ || _)%bool in SC; [discriminate|]. destruct (_ || _)%bool in SC; discriminate.
    - unfold spot_check in SC. destruct (_ || _)%bool in SC; [discriminate|]. destruct (_ || _)%bool eqn:OB in SC; [discriminate|].
      apply orb_false_iff in OB as (_ & OB). cbn in OB. revert OB. case Rle_bool_spec; [discriminate|auto]. }
  destruct (word_jump _ q _ _ _ _ s a b _ x et _ sg g D Q Hc Ht0 Ht1 Hk Hm Hq HX' HY RD) as (Wn & _ & za & zb & Za & Zb & L).
  eexists _, b, za, zb. split; [exact HB|]. split; [exact HY|]. split; [exact Wn|]. split; [exact Ka|]. split; [exact Kb|]. auto.
Qed.
