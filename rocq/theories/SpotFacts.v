(** * SpotFacts: facts about the detector that hold for any arithmetic *)
From Coq Require Import ZArith List Bool Lia Permutation.
From Verif Require Import Num NumFacts XMath Ubend UbendFacts Peaks PeaksFacts Brent Estimator Tail P2 P2Facts Spot Session.
Import ListNotations.
Open Scope Z_scope.

Section SpotFacts.
Context {N : NumOps} (mf : MathFns N).

Implicit Types s old : spot N.

Definition win (s : spot N) : ubend N := p_cont (t_peaks (s_tail s)).

(** ** Inversion of a step *)
Inductive step_case (s : spot N) (x : num N) (s' : spot N) (r : Z) : Prop :=
  | StepNaN : is_nan x = true -> s' = s -> r = - ERR_DATA_IS_NAN -> step_case s x s' r
  | StepAnomaly : is_nan x = false -> s_discard s <> 0 ->
      nlt (nofZ 0) (nmul (s_updown s) (nsub x (s_at s))) = true -> s' = s -> r = ANOMALY -> step_case s x s' r
  | StepNormal : is_nan x = false ->
      (s_discard s = 0 \/ nlt (nofZ 0) (nmul (s_updown s) (nsub x (s_at s))) = false) ->
      nle (nofZ 0) (nmul (s_updown s) (nsub x (s_et s))) = false ->
      s' = with_counts s (s_Nt s) (u64 (s_n s + 1)) -> r = NORMAL -> step_case s x s' r
  | StepExcess t1 t2 ll a : is_nan x = false ->
      (s_discard s = 0 \/ nlt (nofZ 0) (nmul (s_updown s) (nsub x (s_at s))) = false) ->
      nle (nofZ 0) (nmul (s_updown s) (nsub x (s_et s))) = true ->
      tail_push (s_tail s) (nmul (s_updown s) (nsub x (s_et s))) = Ret t1 ->
      tail_fit mf t1 = Ret (t2, ll) ->
      spot_quantile mf (with_tail (with_counts s (u64 (s_Nt s + 1)) (u64 (s_n s + 1))) t2) (s_q s) = Ret a ->
      s' = with_at (with_tail (with_counts s (u64 (s_Nt s + 1)) (u64 (s_n s + 1))) t2) a ->
      r = EXCESS -> step_case s x s' r.

Lemma step_inv s x s' r : spot_step mf s x = Ret (s', r) -> step_case s x s' r.
Proof.
  unfold spot_step. destruct (is_nan x) eqn:Nx.
  { intros H; injection H as <- <-. apply StepNaN; auto. }
  destruct (negb (Z.eqb (s_discard s) 0) && nlt (nofZ 0) (nmul (s_updown s) (nsub x (s_at s))))%bool eqn:C.
  { intros H; injection H as <- <-. apply andb_prop in C as [C1 C2].
    apply StepAnomaly; auto. intros E. rewrite E in C1. discriminate. }
  assert (C' : s_discard s = 0 \/ nlt (nofZ 0) (nmul (s_updown s) (nsub x (s_at s))) = false).
  { apply andb_false_iff in C as [C|C]; [left|right; assumption].
    apply negb_false_iff in C. apply Z.eqb_eq. assumption. }
  cbv zeta. cbn [s_updown s_et with_counts s_Nt s_n s_q s_tail].
  destruct (nle (nofZ 0) (nmul (s_updown s) (nsub x (s_et s)))) eqn:C2.
  2:{ intros H; injection H as <- <-. apply StepNormal; auto. }
  destruct (tail_push (s_tail s) (nmul (s_updown s) (nsub x (s_et s)))) as [t1|] eqn:E1; [|discriminate].
  cbn [bind].
  destruct (tail_fit mf t1) as [[t2 ll]|] eqn:E2; [|discriminate]. cbn [bind].
  cbn [s_q with_tail].
  destruct (spot_quantile mf _ _) as [a|] eqn:E3; [|discriminate]. cbn [bind].
  intros H; injection H as <- <-.
  eapply StepExcess; eauto.
Qed.

(** ** Inversion of a fit *)
Inductive fit_case (s : spot N) (data : list (num N)) (s' : spot N) (r : Z) : Prop :=
  | FitEtNaN et : p2_quantile (if Z.eqb (s_low s) 0 then s_level s else nsub (nofZ 1) (s_level s)) data = Ret et ->
      is_nan et = true -> s' = with_counts s 0 (Z.of_nat (length data)) ->
      r = - ERR_EXCESS_THRESHOLD_IS_NAN -> fit_case s data s' r
  | FitDone et s1 t2 ll a : p2_quantile (if Z.eqb (s_low s) 0 then s_level s else nsub (nofZ 1) (s_level s)) data = Ret et ->
      is_nan et = false ->
      fit_fill et (with_et (with_counts s 0 (Z.of_nat (length data))) et) data = Ret s1 ->
      tail_fit mf (s_tail s1) = Ret (t2, ll) ->
      spot_quantile mf (with_tail s1 t2) (s_q s1) = Ret a ->
      s' = with_at (with_tail s1 t2) a ->
      r = (if is_nan a then - ERR_ANOMALY_THRESHOLD_IS_NAN else 0) -> fit_case s data s' r.

Lemma fit_inv s data s' r : spot_fit mf s data = Ret (s', r) -> fit_case s data s' r.
Proof.
  unfold spot_fit. cbv zeta. cbn [s_low s_level with_counts].
  destruct (p2_quantile _ data) as [et|] eqn:E1; [|discriminate]. cbn [bind].
  destruct (is_nan et) eqn:Ne.
  { intros H; injection H as <- <-. eapply FitEtNaN; eauto. }
  destruct (fit_fill et _ data) as [s1|] eqn:E2; [|discriminate]. cbn [bind].
  destruct (tail_fit mf (s_tail s1)) as [[t2 ll]|] eqn:E3; [|discriminate]. cbn [bind].
  cbn [s_q with_tail].
  destruct (spot_quantile mf _ _) as [a|] eqn:E4; [|discriminate]. cbn [bind].
  intros H. eapply FitDone; eauto; destruct (is_nan a); congruence.
Qed.

(** fit_fill only changes Nt and the window. *)
Lemma fit_fill_frame et s data s' : fit_fill et s data = Ret s' ->
  s' = with_tail (with_counts s (s_Nt s') (s_n s)) (s_tail s') /\
  t_gamma (s_tail s') = t_gamma (s_tail s) /\ t_sigma (s_tail s') = t_sigma (s_tail s).
Proof.
  revert s; induction data as [|x data IH]; intros s; cbn [fit_fill].
  - intros H; injection H as <-. destruct s; auto.
  - destruct (nlt _ _).
    2: apply IH.
    unfold tail_push. destruct (peaks_push _ _) as [p|] eqn:E; cbn [bind]; [|discriminate].
    intros H. apply IH in H as (H1 & H2 & H3). destruct s; cbn in *. auto.
Qed.

(** Excesses pushed by fit, in order. *)
Definition fit_excesses (s : spot N) (et : num N) (data : list (num N)) : list (num N) :=
  filter (fun e => nlt (nofZ 0) e) (map (fun x => nmul (s_updown s) (nsub x et)) data).

Lemma fit_fill_counts et s data s' : fit_fill et s data = Ret s' -> 0 <= s_Nt s < 2 ^ 64 ->
  s_Nt s' = u64 (s_Nt s + Z.of_nat (length (fit_excesses s et data))).
Proof.
  unfold fit_excesses.
  revert s; induction data as [|x data IH]; intros s; cbn [fit_fill map filter].
  - intros H; injection H as <-. cbn. intros. rewrite Z.add_0_r, u64_small; auto.
  - destruct (nlt _ _).
    2: apply IH.
    unfold tail_push. destruct (peaks_push _ _) as [p|] eqn:E; cbn [bind]; [|discriminate].
    intros H HN. apply IH in H.
    + cbn [s_Nt s_updown with_tail with_counts] in H. rewrite H. cbn [length].
      unfold u64. rewrite Zplus_mod_idemp_l. f_equal. lia.
    + cbn. unfold u64. apply Z.mod_pos_bound. lia.
Qed.

(** ** Well-formed windows *)
Definition wf (cap : Z) (s : spot N) (l : list (num N)) : Prop := rep cap (win s) l.

Lemma fit_fill_wf cap et s data l : wf cap s l ->
  exists s', fit_fill et s data = Ret s' /\
    wf cap s' (fold_left (qpush cap) (fit_excesses s et data) l).
Proof.
  unfold fit_excesses.
  revert s l; induction data as [|x data IH]; intros s l W; cbn [fit_fill map filter].
  - exists s. split; [reflexivity|exact W].
  - destruct (nlt _ _).
    2:{ apply IH; assumption. }
    destruct (tail_push_total cap (s_tail s) l (nmul (s_updown s) (nsub x et)) W) as (t' & -> & W' & _).
    cbn [bind fold_left].
    destruct (IH (with_tail (with_counts s (u64 (s_Nt s + 1)) (s_n s)) t') _ W') as (s' & E & W2).
    exists s'. split; assumption.
Qed.

Lemma qpush_fold_lastn {A} cap (hist xs : list A) : 1 <= cap ->
  fold_left (qpush cap) xs (lastn (Z.to_nat cap) hist) = lastn (Z.to_nat cap) (hist ++ xs).
Proof.
  intros H. revert hist; induction xs as [|x xs IH]; intros hist; cbn [fold_left].
  - rewrite app_nil_r. reflexivity.
  - rewrite qpush_lastn by assumption. rewrite IH, <- app_assoc. reflexivity.
Qed.

Lemma wf_lastn cap s l : wf cap s l -> lastn (Z.to_nat cap) l = l.
Proof. intros W. apply lastn_all. apply rep_length in W. lia. Qed.

Lemma qpush_fold_wf cap s l (xs : list (num N)) : wf cap s l ->
  fold_left (qpush cap) xs l = lastn (Z.to_nat cap) (l ++ xs).
Proof.
  intros W. rewrite <- (wf_lastn cap s l W) at 1. apply qpush_fold_lastn.
  destruct W as (H & _). lia.
Qed.

(** What the fit leaves in the window. *)
Lemma fit_wf cap s data l s' r : wf cap s l -> spot_fit mf s data = Ret (s', r) ->
  (r = - ERR_EXCESS_THRESHOLD_IS_NAN /\ s' = with_counts s 0 (Z.of_nat (length data))) \/
  (r <> - ERR_EXCESS_THRESHOLD_IS_NAN /\ is_nan (s_et s') = false /\
   wf cap s' (lastn (Z.to_nat cap) (l ++ fit_excesses s (s_et s') data)) /\
   s_n s' = Z.of_nat (length data) /\
   s_Nt s' = u64 (Z.of_nat (length (fit_excesses s (s_et s') data))) /\
   s_q s' = s_q s /\ s_level s' = s_level s /\ s_low s' = s_low s /\ s_discard s' = s_discard s /\
   s_updown s' = s_updown s).
Proof.
  intros W H. apply fit_inv in H. destruct H as [et E1 Ne -> ->|et s1 t2 ll a E1 Ne E2 E3 E4 -> ->].
  - left. auto.
  - right. split. { destruct (is_nan a); discriminate. }
    destruct (fit_fill_wf cap et (with_et (with_counts s 0 (Z.of_nat (length data))) et) data l W) as (s1' & E2' & W').
    rewrite E2 in E2'. injection E2' as <-.
    pose proof (fit_fill_frame _ _ _ _ E2) as (F & _).
    pose proof (fit_fill_counts _ _ _ _ E2) as C. cbn [s_Nt with_et with_counts] in C.
    specialize (C ltac:(lia)).
    rewrite (qpush_fold_wf cap s l _ W) in W'.
    change (fit_excesses (with_et (with_counts s 0 (Z.of_nat (length data))) et) et data)
      with (fit_excesses s et data) in *.
    cbn [s_et with_at with_tail s_n s_Nt s_q s_level s_low s_discard s_updown].
    assert (Eet : s_et s1 = et) by (rewrite F; reflexivity).
    rewrite Eet. split; [assumption|]. split.
    { unfold wf, win in *. cbn [s_tail with_at with_tail]. rewrite (tail_fit_peaks mf _ _ _ E3). exact W'. }
    rewrite C. rewrite F. cbn. auto 10.
Qed.

(** ** Which undefined behaviour is possible *)
Definition exp_safe : Prop :=
  (forall x w, m_exp mf x = Undef w -> w = CastRange) /\
  (forall a x w, m_pow mf a x = Undef w -> w = CastRange).

Lemma spot_quantile_undef (X : exp_safe) s q w : spot_quantile mf s q = Undef w -> w = CastRange.
Proof.
  destruct X as (X1 & X2). unfold spot_quantile, tail_quantile. cbv zeta.
  destruct (neq _ _); cbn [bind]; [discriminate|].
  destruct (m_pow mf _ _) eqn:E; cbn [bind]; [discriminate|]. intros H; injection H as <-. eauto.
Qed.

Lemma spot_probability_undef (X : exp_safe) s z w : spot_probability mf s z = Undef w -> w = CastRange.
Proof.
  destruct X as (X1 & X2). unfold spot_probability, tail_probability. cbv zeta.
  destruct (neq _ _); cbn [bind].
  - destruct (m_exp mf _) eqn:E; cbn [bind]; [discriminate|]. intros H; injection H as <-. eauto.
  - destruct (m_pow mf _ _) eqn:E; cbn [bind]; [discriminate|]. intros H; injection H as <-. eauto.
Qed.

Lemma step_undef (X : exp_safe) cap s l x w : wf cap s l -> spot_step mf s x = Undef w -> w = CastRange.
Proof.
  intros W. unfold spot_step. destruct (is_nan x); [discriminate|].
  destruct (_ && _)%bool; [discriminate|]. cbv zeta.
  cbn [s_updown s_et with_counts s_Nt s_n s_q s_tail].
  destruct (nle _ _); [|discriminate].
  destruct (tail_push_total cap (s_tail s) l (nmul (s_updown s) (nsub x (s_et s))) W) as (t1 & -> & W' & _).
  cbn [bind]. destruct (tail_fit_total mf cap t1 _ W') as (t2 & ll & -> & _). cbn [bind s_q with_tail].
  destruct (spot_quantile mf _ _) eqn:E; cbn [bind]; [discriminate|].
  intros H; injection H as <-. eapply spot_quantile_undef; eauto.
Qed.

Lemma fit_undef (T : trunc_ok (N := N)) (X : exp_safe) cap s l data w :
  wf cap s l -> spot_fit mf s data = Undef w -> w = CastRange.
Proof.
  intros W. unfold spot_fit. cbv zeta. cbn [s_low s_level with_counts].
  destruct (p2_quantile_total T (if Z.eqb (s_low s) 0 then s_level s else nsub (nofZ 1) (s_level s)) data) as (et & ->).
  cbn [bind]. destruct (is_nan et); [discriminate|].
  destruct (fit_fill_wf cap et (with_et (with_counts s 0 (Z.of_nat (length data))) et) data l W) as (s1 & -> & W1).
  cbn [bind]. destruct (tail_fit_total mf cap (s_tail s1) _ W1) as (t2 & ll & -> & _). cbn [bind s_q with_tail].
  destruct (spot_quantile mf _ _) eqn:E; cbn [bind].
  - destruct (is_nan a); discriminate.
  - intros H; injection H as <-. eapply spot_quantile_undef; eauto.
Qed.

(** ** Invariants of a session *)
Definition same_config (s s' : spot N) : Prop :=
  s_q s' = s_q s /\ s_level s' = s_level s /\ s_low s' = s_low s /\ s_discard s' = s_discard s /\
  s_updown s' = s_updown s.

Lemma same_config_refl s : same_config s s.
Proof. repeat split. Qed.
Lemma same_config_trans a b c : same_config a b -> same_config b c -> same_config a c.
Proof. unfold same_config. intros (?&?&?&?&?) (?&?&?&?&?). repeat split; congruence. Qed.

Lemma step_wf cap s x l s' r : wf cap s l -> spot_step mf s x = Ret (s', r) ->
  same_config s s' /\ s_et s' = s_et s /\
  (r = EXCESS /\ wf cap s' (qpush cap l (nmul (s_updown s) (nsub x (s_et s)))) \/
   r <> EXCESS /\ s_tail s' = s_tail s).
Proof.
  intros W H. apply step_inv in H. destruct H as [Nx -> -> | Nx D C -> -> | Nx C C2 -> -> | t1 t2 ll a Nx C C2 E1 E2 E3 -> ->].
  - split; [apply same_config_refl|]. split; [reflexivity|]. right. split; [discriminate|reflexivity].
  - split; [apply same_config_refl|]. split; [reflexivity|]. right. split; [discriminate|reflexivity].
  - split; [repeat split|]. split; [reflexivity|]. right. split; [discriminate|reflexivity].
  - split; [repeat split|]. split; [reflexivity|]. left. split; [reflexivity|].
    destruct (tail_push_total cap (s_tail s) l (nmul (s_updown s) (nsub x (s_et s))) W) as (t1' & E1' & W' & _).
    rewrite E1 in E1'. injection E1' as <-.
    unfold wf, win. cbn [s_tail with_at with_tail]. rewrite (tail_fit_peaks mf _ _ _ E2). exact W'.
Qed.

Lemma do_call_wf cap s l c s' a : wf cap s l -> do_call mf s c = Ret (s', a) ->
  same_config s s' /\ exists l', wf cap s' l'.
Proof.
  intros W. destruct c as [data|x|q|z]; cbn [do_call].
  - destruct (spot_fit mf s data) as [[s1 r]|] eqn:E; cbn [bind]; [|discriminate].
    intros H; injection H as <- <-.
    destruct (fit_wf cap s data l s1 r W E) as [(_ & ->)|(_ & _ & W' & _ & _ & C)].
    + split; [repeat split|]. exists l. exact W.
    + split; [exact C|]. eauto.
  - destruct (spot_step mf s x) as [[s1 r]|] eqn:E; cbn [bind]; [|discriminate].
    intros H; injection H as <- <-.
    destruct (step_wf cap s x l s1 r W E) as (C & _ & [(_ & W')|(_ & W')]).
    + split; [assumption|]. eauto.
    + split; [assumption|]. exists l. unfold wf, win. rewrite W'. exact W.
  - destruct (spot_quantile mf s q); cbn [bind]; [|discriminate].
    intros H; injection H as <- <-. split; [repeat split|]. eauto.
  - destruct (spot_probability mf s z); cbn [bind]; [|discriminate].
    intros H; injection H as <- <-. split; [repeat split|]. eauto.
Qed.

Lemma do_call_undef (T : trunc_ok (N := N)) (X : exp_safe) cap s l c w :
  wf cap s l -> do_call mf s c = Undef w -> w = CastRange.
Proof.
  intros W. destruct c as [data|x|q|z]; cbn [do_call].
  - destruct (spot_fit mf s data) as [[s1 r]|] eqn:E; cbn [bind]; [discriminate|].
    intros H; injection H as <-. eapply fit_undef; eauto.
  - destruct (spot_step mf s x) as [[s1 r]|] eqn:E; cbn [bind]; [discriminate|].
    intros H; injection H as <-. eapply step_undef; eauto.
  - destruct (spot_quantile mf s q) eqn:E; cbn [bind]; [discriminate|].
    intros H; injection H as <-. eapply spot_quantile_undef; eauto.
  - destruct (spot_probability mf s z) eqn:E; cbn [bind]; [discriminate|].
    intros H; injection H as <-. eapply spot_probability_undef; eauto.
Qed.

Lemma session_wf cap s l cs s' as_ : wf cap s l -> session mf s cs = Ret (s', as_) ->
  same_config s s' /\ exists l', wf cap s' l'.
Proof.
  revert s l as_; induction cs as [|c cs IH]; intros s l as_ W; cbn [session].
  - intros H; injection H as <- <-. split; [repeat split|eauto].
  - destruct (do_call mf s c) as [[s1 a]|] eqn:E; cbn [bind]; [|discriminate].
    destruct (do_call_wf cap s l c s1 a W E) as (C & l1 & W1).
    destruct (session mf s1 cs) as [[s2 l2]|] eqn:E2; cbn [bind]; [|discriminate].
    intros H; injection H as <- <-.
    destruct (IH s1 l1 _ W1 E2) as (C2 & W2). split; [eapply same_config_trans; eauto|assumption].
Qed.

Lemma session_undef (T : trunc_ok (N := N)) (X : exp_safe) cap s l cs w :
  wf cap s l -> session mf s cs = Undef w -> w = CastRange.
Proof.
  revert s l; induction cs as [|c cs IH]; intros s l W; cbn [session]; [discriminate|].
  destruct (do_call mf s c) as [[s1 a]|] eqn:E; cbn [bind].
  - destruct (do_call_wf cap s l c s1 a W E) as (_ & l1 & W1).
    destruct (session mf s1 cs) as [[s2 l2]|] eqn:E2; cbn [bind]; [discriminate|].
    intros H; injection H as <-. eapply IH; eauto.
  - intros H; injection H as <-. eapply do_call_undef; eauto.
Qed.

(** Successful init gives a well-formed empty window. *)
Lemma init_wf old q low discard level cap blk s :
  1 <= cap < 2 ^ 61 -> Z.of_nat (length blk) = cap ->
  spot_init old q low discard level cap (fun _ => Some blk) = (s, 0) -> wf cap s [].
Proof.
  intros H1 H2. unfold spot_init. destruct (spot_check q level) as [code|] eqn:E.
  - intros H; injection H as _ ->. unfold spot_check in E.
    destruct (_ || _)%bool in E; [discriminate|]. destruct (_ || _)%bool in E; discriminate.
  - cbn. intros H; injection H as <-. apply (rep_init cap blk H1 H2).
Qed.

End SpotFacts.
