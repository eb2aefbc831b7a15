(** * RiskOnlyLemmas: proofs for C102 (the parameter q without discarding) *)
From Coq Require Import ZArith List Bool Lia.
From Verif Require Import Num XMath Ubend Peaks Brent Estimator Tail P2 Spot Session Spec.
Import ListNotations.
Open Scope Z_scope.

Section RiskOnly.
Context {N : NumOps}.
Variable mf : MathFns N.
(** the same struct with another q and another anomaly threshold *)
Definition with_risk (s : spot N) (q a : num N) : spot N :=
  MkSpot q (s_level s) (s_discard s) (s_low s) (s_updown s) a (s_et s) (s_Nt s) (s_n s) (s_tail s).
Definition codes_agree (a b : answer N) : Prop :=
  a = b \/ ((a = ACode 0 \/ a = ACode (- ERR_ANOMALY_THRESHOLD_IS_NAN)) /\ (b = ACode 0 \/ b = ACode (- ERR_ANOMALY_THRESHOLD_IS_NAN))).

Lemma fill_risk et q a : forall data s s', fit_fill et s data = Ret s' -> fit_fill et (with_risk s q a) data = Ret (with_risk s' q a).
Proof.
  induction data as [|x data IH]; intros s s' H; cbn [fit_fill] in *; [injection H as <-; reflexivity|].
  change (s_updown (with_risk s q a)) with (s_updown s). change (s_tail (with_risk s q a)) with (s_tail s).
  destruct (nlt _ _); [|exact (IH s s' H)]. destruct (tail_push (s_tail s) _) as [t|]; cbn [bind] in *; [|discriminate].
  exact (IH (with_tail (with_counts s (u64 (s_Nt s + 1)) (s_n s)) t) s' H).
Qed.
Lemma fill_keeps et : forall data (s s' : spot N), fit_fill et s data = Ret s' -> s_discard s' = s_discard s.
Proof.
  induction data as [|x data IH]; intros s s' H; cbn [fit_fill] in *; [injection H as <-; reflexivity|].
  destruct (nlt _ _); [|exact (IH s s' H)]. destruct (tail_push (s_tail s) _) as [t|]; cbn [bind] in *; [|discriminate].
  apply IH in H. exact H.
Qed.
Lemma step_risk s x s1 r q a s2 r2 : s_discard s = 0 -> spot_step mf s x = Ret (s1, r) -> spot_step mf (with_risk s q a) x = Ret (s2, r2) ->
  r2 = r /\ s_discard s1 = 0 /\ exists a', s2 = with_risk s1 q a'.
Proof.
  intros Z. unfold spot_step. destruct (is_nan x); [intros H H2; injection H as <- <-; injection H2 as <- <-; repeat split; auto; exists a; reflexivity|].
  change (s_discard (with_risk s q a)) with (s_discard s). rewrite Z. cbn [Z.eqb negb andb].
  change (s_tail (with_counts (with_counts (with_risk s q a) (s_Nt (with_risk s q a)) (u64 (s_n (with_risk s q a) + 1)))
    (u64 (s_Nt (with_counts (with_risk s q a) (s_Nt (with_risk s q a)) (u64 (s_n (with_risk s q a) + 1))) + 1))
    (s_n (with_counts (with_risk s q a) (s_Nt (with_risk s q a)) (u64 (s_n (with_risk s q a) + 1)))))) with (s_tail s).
  cbn [with_counts with_risk s_updown s_et s_tail s_Nt s_n].
  destruct (nle _ _); [|intros H H2; injection H as <- <-; injection H2 as <- <-; repeat split; auto; exists a; reflexivity].
  destruct (tail_push _ _) as [t1|]; cbn [bind]; [|discriminate]. destruct (tail_fit mf t1) as [[t2 ll]|]; cbn [bind]; [|discriminate].
  intros H H2. match type of H with bind ?e _ = _ => destruct e as [z|]; cbn [bind] in H; [|discriminate] end.
  match type of H2 with bind ?e _ = _ => destruct e as [z2|]; cbn [bind] in H2; [|discriminate] end.
  injection H as <- <-; injection H2 as <- <-. split; [reflexivity|]. split; [exact Z|]. exists z2. reflexivity.
Qed.
Lemma fit_risk s data s1 r q a s2 r2 : s_discard s = 0 -> spot_fit mf s data = Ret (s1, r) -> spot_fit mf (with_risk s q a) data = Ret (s2, r2) ->
  codes_agree (ACode r) (ACode r2) /\ s_discard s1 = 0 /\ exists a', s2 = with_risk s1 q a'.
Proof.
  intros Z. unfold spot_fit. change (s_low (with_counts (with_risk s q a) 0 (Z.of_nat (length data)))) with (s_low (with_counts s 0 (Z.of_nat (length data)))).
  change (s_level (with_counts (with_risk s q a) 0 (Z.of_nat (length data)))) with (s_level (with_counts s 0 (Z.of_nat (length data)))).
  destruct (p2_quantile _ data) as [et|]; cbn [bind]; [|discriminate]. destruct (is_nan et).
  { intros H H2; injection H as <- <-; injection H2 as <- <-. split; [left; reflexivity|]. split; [exact Z|]. exists a. reflexivity. }
  change (with_et (with_counts (with_risk s q a) 0 (Z.of_nat (length data))) et) with (with_risk (with_et (with_counts s 0 (Z.of_nat (length data))) et) q a).
  destruct (fit_fill et (with_et (with_counts s 0 (Z.of_nat (length data))) et) data) as [s3|] eqn:F; cbn [bind]; [|discriminate].
  rewrite (fill_risk _ q a _ _ _ F). cbn [bind]. apply fill_keeps in F. cbn [with_et with_counts s_discard] in F. rewrite Z in F.
  change (s_tail (with_risk s3 q a)) with (s_tail s3). destruct (tail_fit mf (s_tail s3)) as [[t ll]|]; cbn [bind]; [|discriminate].
  intros H H2. match type of H with bind ?e _ = _ => destruct e as [z|]; cbn [bind] in H; [|discriminate] end.
  match type of H2 with bind ?e _ = _ => destruct e as [z2|]; cbn [bind] in H2; [|discriminate] end.
  assert (E : s1 = with_at (with_tail s3 t) z /\ (r = 0 \/ r = - ERR_ANOMALY_THRESHOLD_IS_NAN)) by (destruct (is_nan z); injection H as <- <-; auto).
  assert (E2 : s2 = with_at (with_tail (with_risk s3 q a) t) z2 /\ (r2 = 0 \/ r2 = - ERR_ANOMALY_THRESHOLD_IS_NAN)) by (destruct (is_nan z2); injection H2 as <- <-; auto).
  destruct E as (-> & E). destruct E2 as (-> & E2). split; [right; destruct E as [-> | ->], E2 as [-> | ->]; auto|]. split; [exact F|]. exists z2. reflexivity.
Qed.
Lemma steps_risk : forall xs s s1 l q a s2 l2, s_discard s = 0 -> spot_steps mf s xs = Ret (s1, l) -> spot_steps mf (with_risk s q a) xs = Ret (s2, l2) ->
  l2 = l /\ exists a', s2 = with_risk s1 q a'.
Proof.
  induction xs as [|x xs IH]; intros s s1 l q a s2 l2 Z; cbn [spot_steps].
  { intros H H2; injection H as <- <-; injection H2 as <- <-. split; [reflexivity|]. exists a. reflexivity. }
  destruct (spot_step mf s x) as [[s3 r]|] eqn:E; cbn [bind]; [|discriminate]. destruct (spot_steps mf s3 xs) as [[s4 m]|] eqn:F; cbn [bind]; [|discriminate].
  destruct (spot_step mf (with_risk s q a) x) as [[s5 r2]|] eqn:E2; cbn [bind]; [|discriminate]. destruct (step_risk _ _ _ _ _ _ _ _ Z E E2) as (-> & Z3 & a' & ->).
  destruct (spot_steps mf (with_risk s3 q a') xs) as [[s6 m2]|] eqn:F2; cbn [bind]; [|discriminate]. destruct (IH _ _ _ _ _ _ _ Z3 F F2) as (-> & A).
  intros H H2; injection H as <- <-; injection H2 as <- <-. split; [reflexivity|exact A].
Qed.
Lemma session_risk : forall cs s s1 l q a s2 l2, s_discard s = 0 -> session mf s cs = Ret (s1, l) -> session mf (with_risk s q a) cs = Ret (s2, l2) ->
  Forall2 codes_agree l l2 /\ exists a', s2 = with_risk s1 q a'.
Proof.
  induction cs as [|c cs IH]; intros s s1 l q a s2 l2 Z; cbn [session].
  { intros H H2; injection H as <- <-; injection H2 as <- <-. split; [constructor|]. exists a. reflexivity. }
  destruct (do_call mf s c) as [[s3 r]|] eqn:E; cbn [bind]; [|discriminate]. destruct (session mf s3 cs) as [[s4 m]|] eqn:F; cbn [bind]; [|discriminate].
  destruct (do_call mf (with_risk s q a) c) as [[s5 r2]|] eqn:E2; cbn [bind]; [|discriminate].
  assert (C : codes_agree r r2 /\ s_discard s3 = 0 /\ exists a', s5 = with_risk s3 q a').
  { destruct c as [data|x|k|z]; cbn [do_call] in E, E2.
    - destruct (spot_fit mf s data) as [[u v]|] eqn:G; cbn [bind] in E; [|discriminate]. destruct (spot_fit mf (with_risk s q a) data) as [[u2 v2]|] eqn:G2; cbn [bind] in E2; [|discriminate].
      injection E as <- <-; injection E2 as <- <-. exact (fit_risk _ _ _ _ _ _ _ _ Z G G2).
    - destruct (spot_step mf s x) as [[u v]|] eqn:G; cbn [bind] in E; [|discriminate]. destruct (spot_step mf (with_risk s q a) x) as [[u2 v2]|] eqn:G2; cbn [bind] in E2; [|discriminate].
      injection E as <- <-; injection E2 as <- <-. destruct (step_risk _ _ _ _ _ _ _ _ Z G G2) as (-> & A). split; [left; reflexivity|exact A].
    - change (spot_quantile mf (with_risk s q a) k) with (spot_quantile mf s k) in E2. destruct (spot_quantile mf s k); cbn [bind] in *; [|discriminate].
      injection E as <- <-; injection E2 as <- <-. split; [left; reflexivity|]. split; [exact Z|]. exists a. reflexivity.
    - change (spot_probability mf (with_risk s q a) z) with (spot_probability mf s z) in E2. destruct (spot_probability mf s z); cbn [bind] in *; [|discriminate].
      injection E as <- <-; injection E2 as <- <-. split; [left; reflexivity|]. split; [exact Z|]. exists a. reflexivity. }
  destruct C as (C & Z3 & a' & ->). destruct (session mf (with_risk s3 q a') cs) as [[s6 m2]|] eqn:F2; cbn [bind]; [|discriminate].
  destruct (IH _ _ _ _ _ _ _ Z3 F F2) as (D & A). intros H H2; injection H as <- <-; injection H2 as <- <-. split; [constructor; [exact C|exact D]|exact A].
Qed.
End RiskOnly.
Lemma init_risk {N} old (q q2 : num N) low level cap alloc s s2 : spot_init old q low 0 level cap alloc = (s, 0) -> spot_init old q2 low 0 level cap alloc = (s2, 0) ->
  s_discard s = 0 /\ s2 = with_risk s q2 (s_at s).
Proof.
  assert (K : forall k, spot_check k level = Some 0 -> False).
  { intros k C. unfold spot_check in C. repeat (match type of C with (if ?b then _ else _) = _ => destruct b end; try discriminate C). }
  unfold spot_init. destruct (spot_check q level) as [c|] eqn:C; [intros H; exfalso; injection H as _ ->; exact (K _ C)|].
  destruct (spot_check q2 level) as [c|] eqn:C2; [intros _ H; exfalso; injection H as _ ->; exact (K _ C2)|].
  destruct (tail_init _ cap) as [t r]. destruct (r <? 0); intros H H2; [discriminate H|]. injection H as <-. injection H2 as <-. split; reflexivity.
Qed.
Lemma risk_only {N} (mf : MathFns N) old q q2 low level cap alloc s s2 cs s' l s2' l2 :
  spot_init old q low 0 level cap alloc = (s, 0) -> spot_init old q2 low 0 level cap alloc = (s2, 0) ->
  session mf s cs = Ret (s', l) -> session mf s2 cs = Ret (s2', l2) ->
  Forall2 (fun a b => a = b \/ ((a = ACode 0 \/ a = ACode (-1004)) /\ (b = ACode 0 \/ b = ACode (-1004)))) l l2 /\
  s_et s2' = s_et s' /\ s_Nt s2' = s_Nt s' /\ s_n s2' = s_n s' /\ s_tail s2' = s_tail s' /\
  s_level s2' = s_level s' /\ s_low s2' = s_low s' /\ s_updown s2' = s_updown s' /\ s_discard s2' = s_discard s'.
Proof.
  intros I I2 S S2. destruct (init_risk _ _ _ _ _ _ _ _ _ I I2) as (Z & ->). destruct (session_risk mf _ _ _ _ _ _ _ _ Z S S2) as (F & a & ->).
  split; [exact F|]. repeat split; reflexivity.
Qed.
Lemma risk_only_codes {N} (mf : MathFns N) old q q2 low level cap alloc s s2 cs s' l s2' l2 xs s3 rs s4 rs2 :
  spot_init old q low 0 level cap alloc = (s, 0) -> spot_init old q2 low 0 level cap alloc = (s2, 0) ->
  session mf s cs = Ret (s', l) -> session mf s2 cs = Ret (s2', l2) -> spot_steps mf s' xs = Ret (s3, rs) -> spot_steps mf s2' xs = Ret (s4, rs2) -> rs2 = rs.
Proof.
  intros I I2 S S2 T T2. destruct (init_risk _ _ _ _ _ _ _ _ _ I I2) as (Z & ->).
  assert (Z' : s_discard s' = 0).
  { clear - Z S. revert s s' l Z S. induction cs as [|c cs IH]; intros s s' l Z; cbn [session]; [intros H; injection H as <- <-; exact Z|].
    destruct (do_call mf s c) as [[s3 r]|] eqn:E; cbn [bind]; [|discriminate]. destruct (session mf s3 cs) as [[s4 m]|] eqn:F; cbn [bind]; [|discriminate].
    intros H; injection H as <- <-. refine (IH _ _ _ _ F). destruct c as [data|x|k|z]; cbn [do_call] in E.
    - destruct (spot_fit mf s data) as [[u v]|] eqn:G; cbn [bind] in E; [|discriminate]. injection E as <- <-.
      destruct (fit_risk mf s data u v (s_q s) (s_at s) u v Z G) as (_ & K & _); [destruct s; exact G|exact K].
    - destruct (spot_step mf s x) as [[u v]|] eqn:G; cbn [bind] in E; [|discriminate]. injection E as <- <-.
      destruct (step_risk mf s x u v (s_q s) (s_at s) u v Z G) as (_ & K & _); [destruct s; exact G|exact K].
    - destruct (spot_quantile mf s k); cbn [bind] in E; [|discriminate]. injection E as <- <-. exact Z.
    - destruct (spot_probability mf s z); cbn [bind] in E; [|discriminate]. injection E as <- <-. exact Z. }
  destruct (session_risk mf _ _ _ _ _ _ _ _ Z S S2) as (_ & a & ->). exact (proj1 (steps_risk mf _ _ _ _ _ _ _ _ Z' T T2)).
Qed.
