(** * DiscardLemmas: proofs for C100 (the option discard_anomalies) *)
From Coq Require Import ZArith List Bool.
From Flocq Require Import IEEE754.BinarySingleNaN.
From Verif Require Import Num XMath Ubend Peaks Brent Estimator Tail P2 Spot Session B64 Spec NumFacts SpotFacts SpotB64 DetectorLemmas StreamLemmas.
Import ListNotations.
Open Scope Z_scope.

(** the same struct with another value of discard_anomalies *)
Definition with_discard {N} (s : spot N) (k : Z) : spot N :=
  MkSpot (s_q s) (s_level s) k (s_low s) (s_updown s) (s_at s) (s_et s) (s_Nt s) (s_n s) (s_tail s).
Section Discard.
Context {N : NumOps}.
Variable mf : MathFns N.
Lemma step_discard s x s' r k : spot_step mf s x = Ret (s', r) -> r <> ANOMALY -> k = 0 \/ k = s_discard s ->
  spot_step mf (with_discard s k) x = Ret (with_discard s' k, r).
Proof.
  intros H NA K. unfold spot_step in *. destruct s as [q level dis low ud at_ et Nt n t]. cbn [with_discard s_q s_level s_discard s_low s_updown s_at s_et s_Nt s_n s_tail with_counts] in *.
  destruct (is_nan x); [injection H as <- <-; reflexivity|].
  destruct (negb (dis =? 0) && _)%bool eqn:A; [injection H as _ <-; contradiction|].
  assert (A' : (negb (k =? 0) && nlt (nofZ 0) (nmul ud (nsub x at_)))%bool = false) by (destruct K as [-> | ->]; [reflexivity|exact A]).
  rewrite A'. destruct (nle _ _); [|injection H as <- <-; reflexivity].
  destruct (tail_push t _) as [t1|]; cbn [bind] in *; [|discriminate]. destruct (tail_fit mf t1) as [[t2 ll]|]; cbn [bind] in *; [|discriminate].
  unfold spot_quantile in *. cbn [with_tail with_counts with_at s_q s_level s_discard s_low s_updown s_at s_et s_Nt s_n s_tail] in *.
  destruct (tail_quantile mf t2 _ q) as [tq|] eqn:TQ; cbn [bind] in H; [|discriminate]. injection H as <- <-. cbn [with_discard s_q s_updown s_et]. rewrite TQ. reflexivity.
Qed.
Lemma steps_discard : forall xs s s' rs, spot_steps mf s xs = Ret (s', rs) -> ~ In ANOMALY rs -> 
  spot_steps mf (with_discard s 0) xs = Ret (with_discard s' 0, rs).
Proof.
  induction xs as [|x xs IH]; intros s s' rs; cbn [spot_steps]; [intros H _; injection H as <- <-; reflexivity|].
  destruct (spot_step mf s x) as [[s1 r]|] eqn:E; cbn [bind]; [|discriminate].
  destruct (spot_steps mf s1 xs) as [[s2 l]|] eqn:E2; cbn [bind]; [|discriminate].
  intros H; injection H as <- <-. intros NA. rewrite (step_discard _ _ _ _ 0 E) by (auto; intros ->; apply NA; left; reflexivity). cbn [bind].
  rewrite (IH _ _ _ E2) by (intros I; apply NA; right; exact I). reflexivity.
Qed.
Lemma never_without_discard s x s' r : s_discard s = 0 -> spot_step mf s x = Ret (s', r) -> r <> ANOMALY.
Proof. intros Z E ->. apply step_inv in E. destruct E as [? ? E|? E ? ? ?|? ? ? ? E|? ? ? ? ? ? ? ? ? ? ? E]; try discriminate E. contradiction. Qed.
Lemma fill_discard (et : num N) k : forall data (s s' : spot N), fit_fill et s data = Ret s' -> fit_fill et (with_discard s k) data = Ret (with_discard s' k).
Proof.
  induction data as [|x data IH]; intros s s' H; cbn [fit_fill] in *; [injection H as <-; reflexivity|].
  change (s_updown (with_discard s k)) with (s_updown s). change (s_tail (with_discard s k)) with (s_tail s).
  destruct (nlt _ _); [|exact (IH s s' H)]. destruct (tail_push (s_tail s) _) as [t|]; cbn [bind] in *; [|discriminate].
  exact (IH (with_tail (with_counts s (u64 (s_Nt s + 1)) (s_n s)) t) s' H).
Qed.
Lemma quantile_discard s k q : spot_quantile mf (with_discard s k) q = spot_quantile mf s q.
Proof. reflexivity. Qed.
Lemma fit_discard s data s' r k : spot_fit mf s data = Ret (s', r) -> spot_fit mf (with_discard s k) data = Ret (with_discard s' k, r).
Proof.
  intros H. unfold spot_fit in *. change (s_low (with_counts (with_discard s k) 0 (Z.of_nat (length data)))) with (s_low (with_counts s 0 (Z.of_nat (length data)))).
  change (s_level (with_counts (with_discard s k) 0 (Z.of_nat (length data)))) with (s_level (with_counts s 0 (Z.of_nat (length data)))).
  destruct (p2_quantile _ data) as [et|]; cbn [bind] in *; [|discriminate]. destruct (is_nan et); [injection H as <- <-; reflexivity|].
  destruct (fit_fill et (with_et (with_counts s 0 (Z.of_nat (length data))) et) data) as [s1|] eqn:F; cbn [bind] in *; [|discriminate].
  apply (fill_discard et k) in F. change (with_discard (with_et (with_counts s 0 (Z.of_nat (length data))) et) k) with (with_et (with_counts (with_discard s k) 0 (Z.of_nat (length data))) et) in F.
  rewrite F. cbn [bind]. change (s_tail (with_discard s1 k)) with (s_tail s1). destruct (tail_fit mf (s_tail s1)) as [[t ll]|]; cbn [bind] in *; [|discriminate].
  change (s_q (with_tail (with_discard s1 k) t)) with (s_q (with_tail s1 t)). change (with_tail (with_discard s1 k) t) with (with_discard (with_tail s1 t) k). rewrite quantile_discard.
  destruct (spot_quantile mf (with_tail s1 t) _) as [a|]; cbn [bind] in *; [|discriminate]. destruct (is_nan a); injection H as <- <-; reflexivity.
Qed.
Lemma session_discard : forall cs (s s' : spot N) l, session mf s cs = Ret (s', l) -> ~ In (ACode ANOMALY) l ->
  session mf (with_discard s 0) cs = Ret (with_discard s' 0, l).
Proof.
  induction cs as [|c cs IH]; intros s s' l; cbn [session]; [intros H _; injection H as <- <-; reflexivity|].
  destruct (do_call mf s c) as [[s1 a]|] eqn:E; cbn [bind]; [|discriminate].
  destruct (session mf s1 cs) as [[s2 l2]|] eqn:E2; cbn [bind]; [|discriminate].
  intros H; injection H as <- <-. intros NA.
  assert (C : do_call mf (with_discard s 0) c = Ret (with_discard s1 0, a)).
  { destruct c as [data|x|q|z]; cbn [do_call] in *.
    - destruct (spot_fit mf s data) as [[s3 r]|] eqn:F; cbn [bind] in E; [|discriminate]. injection E as <- <-. rewrite (fit_discard _ _ _ _ 0 F). reflexivity.
    - destruct (spot_step mf s x) as [[s3 r]|] eqn:F; cbn [bind] in E; [|discriminate]. injection E as <- <-.
      rewrite (step_discard _ _ _ _ 0 F) by (auto; intros ->; apply NA; left; reflexivity). reflexivity.
    - rewrite quantile_discard. destruct (spot_quantile mf s q); cbn [bind] in *; [|discriminate]. injection E as <- <-. reflexivity.
    - change (spot_probability mf (with_discard s 0) z) with (spot_probability mf s z). destruct (spot_probability mf s z); cbn [bind] in *; [|discriminate]. injection E as <- <-. reflexivity. }
  rewrite C. cbn [bind]. rewrite (IH _ _ _ E2) by (intros I; apply NA; right; exact I). reflexivity.
Qed.
End Discard.
Lemma init_discard {N} old (q : num N) low discard level cap alloc s : spot_init old q low discard level cap alloc = (s, 0) ->
  spot_init old q low 0 level cap alloc = (with_discard s 0, 0).
Proof.
  unfold spot_init. destruct (spot_check q level) as [c|] eqn:C.
  { intros H. exfalso. injection H as _ H. subst c. unfold spot_check in C. repeat (match type of C with (if ?b then _ else _) = _ => destruct b end; try discriminate C). }
  destruct (tail_init _ cap) as [t r]. destruct (r <? 0)%Z eqn:E; intros H; injection H as <-; subst; try discriminate; reflexivity.
Qed.
Lemma until_first_anomaly {N} (mf : MathFns N) old q low discard level cap alloc s cs s' l :
  spot_init old q low discard level cap alloc = (s, 0) -> session mf s cs = Ret (s', l) -> ~ In (ACode ANOMALY) l ->
  exists s0 s1, spot_init old q low 0 level cap alloc = (s0, 0) /\ session mf s0 cs = Ret (s1, l) /\
    s_discard s1 = 0 /\ s_q s1 = s_q s' /\ s_level s1 = s_level s' /\ s_low s1 = s_low s' /\ s_updown s1 = s_updown s' /\
    s_at s1 = s_at s' /\ s_et s1 = s_et s' /\ s_Nt s1 = s_Nt s' /\ s_n s1 = s_n s' /\ s_tail s1 = s_tail s'.
Proof.
  intros I S NA. exists (with_discard s 0), (with_discard s' 0). split; [exact (init_discard _ _ _ _ _ _ _ _ I)|]. split; [exact (session_discard mf _ _ _ _ S NA)|].
  repeat split; reflexivity.
Qed.
