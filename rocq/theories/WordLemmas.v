(** * WordLemmas: 32-bit counters (C80, C81) *)
From Coq Require Import ZArith List Bool Lia.
From Verif Require Import Num NumFacts XMath Ubend UbendFacts Session Peaks PeaksFacts Brent Estimator Tail P2 Spot SpotFacts Word.
Import ListNotations.
Open Scope Z_scope.

(** ** The 64-bit instance is the model *)
Lemma word_64 {N} (mf : MathFns N) : (forall s cs, w_session u64 mf s cs = session mf s cs) /\
  (forall old q low discard level cap alloc, w_spot_init u64 (N := N) old q low discard level cap alloc = spot_init old q low discard level cap alloc).
Proof.
  split; [|reflexivity]. intros s cs. revert s. induction cs as [|c cs IH]; intros s; cbn [w_session session]; [reflexivity|].
  assert (E : w_do_call u64 mf s c = do_call mf s c).
  { destruct c; reflexivity. }
  rewrite E. destruct (do_call mf s c) as [[s1 a]|]; cbn [bind]; [|reflexivity]. rewrite IH. reflexivity.
Qed.

(** ** Below 2^32 the two agree *)
Lemma u32_small z : 0 <= z < 2 ^ 32 -> u32 z = z.
Proof. intros. unfold u32. apply Z.mod_small. assumption. Qed.

Definition cur_ok {N} (cap : Z) (u : ubend N) : Prop := u_capacity u = cap /\ 0 <= u_cursor u < cap.
Definition cnt_ok {N} (k : Z) (s : spot N) : Prop := 0 <= s_n s <= k /\ 0 <= s_Nt s <= k.
Definition sess_ok {N} cap k (s : spot N) : Prop := cur_ok cap (p_cont (t_peaks (s_tail s))) /\ cnt_ok k s.

Section Agree.
Context {N : NumOps} (mf : MathFns N).
Variable cap : Z.
Hypothesis Hcap : 1 <= cap < 2 ^ 32.

Lemma ubend_push_agree (u : ubend N) x : cur_ok cap u -> w_ubend_push u32 u x = ubend_push u x /\
  forall u' l, ubend_push u x = Ret (u', l) -> cur_ok cap u'.
Proof.
  intros (Hc & Hk). unfold w_ubend_push, ubend_push. rewrite Hc, (u32_small (cap - 1)), (u64_small (cap - 1)), (u32_small (u_cursor u + 1)), (u64_small (u_cursor u + 1)) by lia.
  split; [reflexivity|]. intros u' l. destruct (if u_filled u =? 0 then _ else _) as [v|]; cbn [bind]; [|discriminate].
  destruct (wr _ _ _) as [w|]; cbn [bind]; [|discriminate]. destruct (Z.eqb_spec (u_cursor u) (cap - 1)); intros H; injection H as <- _; split; cbn [u_capacity u_cursor]; try reflexivity; lia.
Qed.
Lemma update_stats_cont (p p' : peaks N) : peaks_update_stats p = Ret p' -> p_cont p' = p_cont p.
Proof. unfold peaks_update_stats. destruct (for_lt _ _ _) as [[[[? ?] ?] ?]|]; cbn [bind]; [|discriminate]. intros H; injection H as <-. reflexivity. Qed.
Lemma peaks_push_agree (p : peaks N) x : cur_ok cap (p_cont p) -> w_peaks_push u32 p x = peaks_push p x /\
  forall p', peaks_push p x = Ret p' -> cur_ok cap (p_cont p').
Proof.
  intros H. destruct (ubend_push_agree (p_cont p) x H) as (E & K). unfold w_peaks_push, peaks_push. rewrite E. split; [reflexivity|].
  intros p'. destruct (ubend_push (p_cont p) x) as [[c er]|]; cbn [bind]; [|discriminate]. specialize (K c er eq_refl).
  destruct (negb _); [|intros X; injection X as <-; exact K]. destruct (_ || _)%bool.
  - intros X. apply update_stats_cont in X. rewrite X. exact K.
  - intros X; injection X as <-; exact K.
Qed.
Lemma tail_push_agree (t : tail N) x : cur_ok cap (p_cont (t_peaks t)) -> w_tail_push u32 t x = tail_push t x /\
  forall t', tail_push t x = Ret t' -> cur_ok cap (p_cont (t_peaks t')).
Proof.
  intros H. destruct (peaks_push_agree (t_peaks t) x H) as (E & K). unfold w_tail_push, tail_push. rewrite E. split; [reflexivity|].
  intros t'. destruct (peaks_push (t_peaks t) x) as [p|]; cbn [bind]; [|discriminate]. intros X; injection X as <-. apply K. reflexivity.
Qed.
Lemma fit_fill_agree et l : forall s : spot N, cur_ok cap (p_cont (t_peaks (s_tail s))) -> 0 <= s_Nt s -> s_Nt s + Z.of_nat (length l) < 2 ^ 32 ->
  w_fit_fill u32 et s l = fit_fill et s l /\
  forall s', fit_fill et s l = Ret s' -> cur_ok cap (p_cont (t_peaks (s_tail s'))) /\ s_n s' = s_n s /\ 0 <= s_Nt s' <= s_Nt s + Z.of_nat (length l).
Proof.
  induction l as [|x l IH]; intros s H1 H2 Hk; cbn [w_fit_fill fit_fill length] in *.
  - split; [reflexivity|]. intros s' X; injection X as <-. split; [exact H1|]. split; [reflexivity|lia].
  - destruct (nlt _ _).
    + destruct (tail_push_agree (s_tail s) (nmul (s_updown s) (nsub x et)) H1) as (E & K). rewrite E.
      destruct (tail_push _ _) as [t|]; cbn [bind]; [|split; [reflexivity|discriminate]]. specialize (K t eq_refl).
      rewrite u32_small, u64_small by lia.
      destruct (IH (with_tail (with_counts s (s_Nt s + 1) (s_n s)) t)) as (E2 & K2); [exact K|cbn [s_Nt with_tail with_counts]; lia|cbn [s_Nt with_tail with_counts]; lia|].
      split; [exact E2|]. intros s' X. apply K2 in X. cbn [s_n s_Nt with_tail with_counts] in X. destruct X as (X1 & X2 & X3). split; [exact X1|]. split; [exact X2|lia].
    + destruct (IH s H1) as (E2 & K2); [lia|lia|]. split; [exact E2|]. intros s' X. apply K2 in X. destruct X as (X1 & X2 & X3). split; [exact X1|]. split; [exact X2|lia].
Qed.
Lemma spot_fit_agree (s : spot N) data k : sess_ok cap k s -> Z.of_nat (length data) < 2 ^ 32 -> w_spot_fit u32 mf s data = spot_fit mf s data /\
  forall s' r, spot_fit mf s data = Ret (s', r) -> sess_ok cap (Z.of_nat (length data)) s'.
Proof.
  intros (H1 & _) Hl. unfold w_spot_fit, spot_fit. cbv zeta. destruct (p2_quantile _ _) as [et|]; cbn [bind]; [|split; [reflexivity|discriminate]].
  destruct (is_nan et). { split; [reflexivity|]. intros s' r X; injection X as <- <-. split; [exact H1|]. split; cbn [s_n s_Nt with_counts]; lia. }
  destruct (fit_fill_agree et data (with_et (with_counts s 0 (Z.of_nat (length data))) et)) as (E & K); [exact H1|cbn [s_Nt with_counts with_et]; lia..|].
  rewrite E. split; [reflexivity|]. intros s' r. destruct (fit_fill et _ data) as [s1|]; cbn [bind]; [|discriminate]. destruct (K s1 eq_refl) as (K1 & K2 & K3).
  cbn [s_n s_Nt with_counts with_et] in K2, K3. destruct (tail_fit mf (s_tail s1)) as [[t ll]|] eqn:T; cbn [bind]; [|discriminate]. apply tail_fit_peaks in T.
  destruct (spot_quantile mf _ _) as [a|]; cbn [bind]; [|discriminate]. assert (X : forall a, sess_ok cap (Z.of_nat (length data)) (with_at (with_tail s1 t) a)).
  { intros a'. split; [cbn [s_tail with_at with_tail]; rewrite T; exact K1|]. split; cbn [s_n s_Nt with_at with_tail]; lia. }
  destruct (is_nan a); intros Y; injection Y as <- _; apply X.
Qed.
Lemma spot_step_agree (s : spot N) x k : sess_ok cap k s -> k + 1 < 2 ^ 32 -> w_spot_step u32 mf s x = spot_step mf s x /\
  forall s' r, spot_step mf s x = Ret (s', r) -> sess_ok cap (k + 1) s'.
Proof.
  intros (H1 & H2 & H3) Hk. unfold w_spot_step, spot_step. cbv zeta. cbn [s_updown s_et s_Nt s_n s_tail s_q with_counts].
  assert (I : sess_ok cap (k + 1) s) by (split; [exact H1|split; lia]).
  destruct (is_nan x); [split; [reflexivity|]; intros s' r X; injection X as <- _; exact I|].
  destruct (_ && _)%bool; [split; [reflexivity|]; intros s' r X; injection X as <- _; exact I|].
  rewrite (u32_small (s_n s + 1)), (u32_small (s_Nt s + 1)), (u64_small (s_n s + 1)), (u64_small (s_Nt s + 1)) by lia.
  destruct (nle _ _).
  - destruct (tail_push_agree (s_tail s) (nmul (s_updown s) (nsub x (s_et s))) H1) as (E & K). rewrite E. split; [reflexivity|]. intros s' r.
    destruct (tail_push _ _) as [t|]; cbn [bind]; [|discriminate]. specialize (K t eq_refl). destruct (tail_fit mf t) as [[t2 ll]|] eqn:T; cbn [bind]; [|discriminate]. apply tail_fit_peaks in T.
    destruct (spot_quantile mf _ _) as [a|]; cbn [bind]; [|discriminate]. intros X; injection X as <- _.
    split; [cbn [s_tail with_at with_tail]; rewrite T; exact K|]. split; cbn [s_n s_Nt with_at with_tail with_counts]; lia.
  - split; [reflexivity|]. intros s' r X; injection X as <- _. split; [exact H1|]. split; cbn [s_n s_Nt with_counts]; lia.
Qed.
Lemma handed_nonneg (cs : list (call N)) : 0 <= handed cs.
Proof. induction cs as [|[] cs IH]; cbn [handed]; lia. Qed.
Lemma session_agree cs : forall (s : spot N) k, sess_ok cap k s -> k + handed cs < 2 ^ 32 -> w_session u32 mf s cs = session mf s cs.
Proof.
  induction cs as [|c cs IH]; intros s k H Hk; cbn [w_session session]; [reflexivity|].
  assert (X : exists k', w_do_call u32 mf s c = do_call mf s c /\ k' + handed cs < 2 ^ 32 /\ forall s' a, do_call mf s c = Ret (s', a) -> sess_ok cap k' s').
  { destruct H as (H1 & H2 & H3). pose proof (handed_nonneg cs). destruct c; cbn [handed w_do_call do_call] in *.
    - exists (Z.of_nat (length data)). destruct (spot_fit_agree s data k) as (E & K); [split; [exact H1|split; assumption]|lia|]. rewrite E. split; [reflexivity|]. split; [lia|].
      intros s' a. destruct (spot_fit mf s data) as [[s1 r]|]; cbn [bind]; [|discriminate]. intros X; injection X as <- _. apply (K s1 r eq_refl).
    - exists (k + 1). destruct (spot_step_agree s x k) as (E & K); [split; [exact H1|split; assumption]|lia|]. rewrite E. split; [reflexivity|]. split; [lia|].
      intros s' a. destruct (spot_step mf s x) as [[s1 r]|]; cbn [bind]; [|discriminate]. intros X; injection X as <- _. apply (K s1 r eq_refl).
    - exists k. split; [reflexivity|]. split; [exact Hk|]. intros s' a. destruct (spot_quantile mf s q); cbn [bind]; [|discriminate]. intros X; injection X as <- _. split; [exact H1|split; assumption].
    - exists k. split; [reflexivity|]. split; [exact Hk|]. intros s' a. destruct (spot_probability mf s z); cbn [bind]; [|discriminate]. intros X; injection X as <- _. split; [exact H1|split; assumption]. }
  destruct X as (k' & E & Hk' & K). rewrite E. destruct (do_call mf s c) as [[s1 a]|]; cbn [bind]; [|reflexivity]. rewrite (IH s1 k'); [reflexivity| |exact Hk'].
  apply (K s1 a eq_refl).
Qed.
End Agree.

Lemma word_agree {N} (mf : MathFns N) old q low discard level cap alloc s0 cs : 1 <= cap < 2 ^ 29 -> handed cs < 2 ^ 32 ->
  spot_init (N := N) old q low discard level cap alloc = (s0, 0) ->
  w_spot_init u32 old q low discard level cap alloc = (s0, 0) /\ w_session u32 mf s0 cs = session mf s0 cs.
Proof.
  intros Hc Hh I. assert (B : w_ubend_bytes u32 cap = ubend_bytes cap) by (unfold w_ubend_bytes, ubend_bytes; rewrite u32_small, u64_small; lia).
  assert (E : w_spot_init u32 old q low discard level cap alloc = spot_init old q low discard level cap alloc) by (unfold w_spot_init; rewrite B; reflexivity).
  rewrite E. split; [exact I|]. apply (session_agree mf cap ltac:(lia) cs s0 0); [|lia].
  revert I. unfold spot_init. destruct (spot_check q level) as [code|] eqn:C.
  { intros X; injection X as -> ->. exfalso. revert C. unfold spot_check. destruct (_ || _)%bool; [discriminate|]. destruct (_ || _)%bool; discriminate. }
  unfold tail_init, peaks_init, ubend_init. destruct (alloc (ubend_bytes cap)); cbn [Z.ltb]; intros X; [|discriminate]. injection X as <-.
  split; [|split; cbn [s_n s_Nt]; lia]. split; cbn [s_tail t_peaks p_cont u_capacity u_cursor]; [reflexivity|lia].
Qed.

(** ** Wrapping of the counter *)
Lemma with_counts_same {N} (s : spot N) : with_counts s (s_Nt s) (s_n s) = s.
Proof. destruct s. reflexivity. Qed.
Lemma w_step_normal {N} (mf : MathFns N) (s s' : spot N) x : w_spot_step u32 mf s x = Ret (s', NORMAL) ->
  s' = with_counts s (s_Nt s) (u32 (s_n s + 1)) /\ forall n, w_spot_step u32 mf (with_counts s (s_Nt s) n) x = Ret (with_counts s (s_Nt s) (u32 (n + 1)), NORMAL).
Proof.
  unfold w_spot_step. cbv zeta. cbn [s_updown s_et s_at s_discard s_Nt s_n s_tail s_q with_counts]. destruct (is_nan x); [discriminate|]. destruct (_ && _)%bool; [discriminate|].
  destruct (nle _ _).
  - destruct (w_tail_push u32 _ _) as [t|]; cbn [bind]; [|discriminate]. destruct (tail_fit mf t) as [[t2 ll]|]; cbn [bind]; [|discriminate]. destruct (spot_quantile mf _ _); cbn [bind]; discriminate.
  - intros H; injection H as <-. split; [reflexivity|]. intros n. destruct s. reflexivity.
Qed.
Lemma u32_add a b : u32 (u32 a + b) = u32 (a + b).
Proof. unfold u32. apply Zplus_mod_idemp_l. Qed.
Lemma word_normal {N} (mf : MathFns N) xs : forall (s s' : spot N) rs, 0 <= s_n s < 2 ^ 32 -> w_spot_steps u32 mf s xs = Ret (s', rs) -> (forall r, In r rs -> r = NORMAL) ->
  s' = with_counts s (s_Nt s) ((s_n s + Z.of_nat (length xs)) mod 2 ^ 32).
Proof.
  induction xs as [|x xs IH]; intros s s' rs Hn; cbn [w_spot_steps length].
  - intros H _; injection H as <- _. rewrite Z.add_0_r, Z.mod_small by assumption. rewrite with_counts_same. reflexivity.
  - destruct (w_spot_step u32 mf s x) as [[s1 r]|] eqn:E; cbn [bind]; [|discriminate]. destruct (w_spot_steps u32 mf s1 xs) as [[s2 l]|] eqn:E2; cbn [bind]; [|discriminate].
    intros H A; injection H as <- <-. assert (r = NORMAL) by (apply A; left; reflexivity). subst r. apply w_step_normal in E as (-> & _).
    apply IH in E2; [|cbn [s_n with_counts]; unfold u32; apply Z.mod_pos_bound; lia|intros r I; apply A; right; exact I]. rewrite E2. cbn [s_n s_Nt with_counts].
    change ((u32 (s_n s + 1) + Z.of_nat (length xs)) mod 2 ^ 32) with (u32 (u32 (s_n s + 1) + Z.of_nat (length xs))). rewrite u32_add. unfold u32, with_counts. cbn. do 2 f_equal. lia.
Qed.
Lemma word_repeat {N} (mf : MathFns N) (s s1 : spot N) x k : 0 <= s_n s < 2 ^ 32 -> w_spot_step u32 mf s x = Ret (s1, NORMAL) ->
  w_spot_steps u32 mf s (repeat x k) = Ret (with_counts s (s_Nt s) ((s_n s + Z.of_nat k) mod 2 ^ 32), repeat NORMAL k).
Proof.
  intros Hn H. apply w_step_normal in H as (_ & H).
  assert (G : forall k n, 0 <= n < 2 ^ 32 -> w_spot_steps u32 mf (with_counts s (s_Nt s) n) (repeat x k) = Ret (with_counts s (s_Nt s) ((n + Z.of_nat k) mod 2 ^ 32), repeat NORMAL k)).
  { clear k. induction k as [|k IH]; intros n Rn; cbn [repeat w_spot_steps].
    - rewrite Z.add_0_r, Z.mod_small by assumption. reflexivity.
    - rewrite H. cbn [bind]. rewrite IH by (unfold u32; apply Z.mod_pos_bound; lia). cbn [bind].
      change ((u32 (n + 1) + Z.of_nat k) mod 2 ^ 32) with (u32 (u32 (n + 1) + Z.of_nat k)). rewrite u32_add. unfold u32. do 4 f_equal. lia. }
  rewrite <- (with_counts_same s) at 1. apply G. exact Hn.
Qed.

(** ** Overflow of the size of the window *)
Lemma w_ubend_short_oob {N} cap (u : ubend N) xs :
  0 <= cap < 2 ^ 32 -> u_capacity u = cap -> u_filled u = 0 -> 0 <= u_cursor u <= Z.of_nat (length (u_data u)) ->
  Z.of_nat (length (u_data u)) < cap -> Z.of_nat (length (u_data u)) - u_cursor u < Z.of_nat (length xs) ->
  w_ubend_pushes u32 u xs = Undef OutOfBounds.
Proof.
  intros Hcap. revert u; induction xs as [|x xs IH]; intros u Hc Hf Hcur Hs Hl; cbn [length] in Hl; [lia|].
  cbn [w_ubend_pushes]. unfold w_ubend_push. rewrite Hf. cbn [Z.eqb bind].
  destruct (Z.eq_dec (u_cursor u) (Z.of_nat (length (u_data u)))) as [E|E].
  { rewrite wr_oob by lia. reflexivity. }
  rewrite wr_ok by lia. cbn [bind]. rewrite Hc. rewrite (u32_small (cap - 1)) by lia.
  destruct (Z.eqb_spec (u_cursor u) (cap - 1)) as [Ec|Ec]; [lia|]. rewrite u32_small by lia.
  rewrite IH; [reflexivity|..]; cbn [u_capacity u_filled u_cursor u_data]; try reflexivity; rewrite ?upd_length; try lia; auto.
Qed.
Lemma word_overflow {N} cap (xs : list (num N)) : 2 ^ 29 <= cap < 2 ^ 32 ->
  let blk := repeat None (Z.to_nat (w_ubend_bytes u32 cap / 8)) in
  Z.of_nat (length blk) < Z.of_nat (length xs) ->
  w_ubend_pushes u32 (fst (ubend_init (N := N) (Some blk) cap)) xs = Undef OutOfBounds.
Proof.
  intros Hc blk Hl. assert (B : Z.of_nat (length blk) < 2 ^ 29).
  { unfold blk. rewrite repeat_length. unfold w_ubend_bytes, u32. pose proof (Z.mod_pos_bound (cap * 8) (2 ^ 32) ltac:(lia)).
    assert (0 <= (cap * 8) mod 2 ^ 32 / 8) by (apply Z.div_pos; lia). rewrite Z2Nat.id by assumption. apply Z.div_lt_upper_bound; lia. }
  apply (w_ubend_short_oob cap); cbn [fst ubend_init u_capacity u_filled u_cursor u_data]; try lia; try reflexivity.
Qed.
(** through the interface: a window of a multiple of 2^29 excesses has a block of no cell at all *)
Lemma w_fit_fill_empty {N} et l : forall s : spot N, u_data (p_cont (t_peaks (s_tail s))) = [] -> u_filled (p_cont (t_peaks (s_tail s))) = 0 ->
  fit_excesses s et l <> [] -> w_fit_fill u32 et s l = Undef OutOfBounds.
Proof.
  induction l as [|x l IH]; intros s D F X; cbn [fit_excesses filter map] in X; [contradiction|]. cbn [w_fit_fill].
  unfold fit_excesses in *. cbn [map filter] in X. destruct (nlt _ _) eqn:E.
  - unfold w_tail_push, w_peaks_push, w_ubend_push. rewrite F. cbn [Z.eqb bind]. rewrite D. rewrite wr_oob; [reflexivity|]. cbn [length]. lia.
  - apply IH; assumption.
Qed.
