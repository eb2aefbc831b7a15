(** * StreamLemmas: proofs for C99 (what a detector keeps of a stream) *)
From Coq Require Import ZArith List Bool.
From Verif Require Import Num XMath Ubend Peaks Brent Estimator Tail P2 Spot NumFacts SpotFacts.
Import ListNotations.
Open Scope Z_scope.

Section Stream.
Context {N : NumOps}.
Variable mf : MathFns N.
Definition accepted (r : Z) : bool := (r =? NORMAL) || (r =? EXCESS).
Lemma rejected_unchanged s x s' r : spot_step mf s x = Ret (s', r) -> accepted r = false -> s' = s.
Proof.
  intros E A. apply step_inv in E. destruct E as [? E ?|? ? ? E ?|? ? ? ? E|t1 t2 ll a ? ? ? ? ? ? ? E]; try exact E; subst r; discriminate A.
Qed.
Lemma without_rejected : forall xs s s' rs, spot_steps mf s xs = Ret (s', rs) ->
  spot_steps mf s (map fst (filter (fun p => accepted (snd p)) (combine xs rs))) = Ret (s', filter accepted rs).
Proof.
  induction xs as [|x xs IH]; intros s s' rs; cbn [spot_steps]; [intros H; injection H as <- <-; reflexivity|].
  destruct (spot_step mf s x) as [[s1 r]|] eqn:E; cbn [bind]; [|discriminate].
  destruct (spot_steps mf s1 xs) as [[s2 l]|] eqn:E2; cbn [bind]; [|discriminate].
  intros H; injection H as <- <-. cbn [combine filter snd]. destruct (accepted r) eqn:A.
  - cbn [map fst spot_steps]. rewrite E. cbn [bind]. rewrite (IH _ _ _ E2). reflexivity.
  - rewrite (rejected_unchanged _ _ _ _ E A) in E2. exact (IH _ _ _ E2).
Qed.
Lemma steps_app : forall xs s ys s' rs, spot_steps mf s (xs ++ ys) = Ret (s', rs) ->
  exists s1 l1 l2, spot_steps mf s xs = Ret (s1, l1) /\ spot_steps mf s1 ys = Ret (s', l2) /\ rs = l1 ++ l2.
Proof.
  induction xs as [|x xs IH]; intros s ys s' rs; cbn [app spot_steps]; [intros H; exists s, [], rs; auto|].
  destruct (spot_step mf s x) as [[s1 r]|] eqn:E; cbn [bind]; [|discriminate].
  destruct (spot_steps mf s1 (xs ++ ys)) as [[s2 l]|] eqn:E2; cbn [bind]; [|discriminate].
  intros H; injection H as <- <-. destruct (IH _ _ _ _ E2) as (s3 & l1 & l2 & A & B & ->). exists s3, (r :: l1), l2. rewrite A. auto.
Qed.
Lemma app_steps : forall xs s ys s' s1 l1 l2, spot_steps mf s xs = Ret (s1, l1) -> spot_steps mf s1 ys = Ret (s', l2) ->
  spot_steps mf s (xs ++ ys) = Ret (s', l1 ++ l2).
Proof.
  induction xs as [|x xs IH]; intros s ys s' s1 l1 l2; cbn [app spot_steps]; [intros H; injection H as <- <-; auto|].
  destruct (spot_step mf s x) as [[s2 r]|] eqn:E; cbn [bind]; [|discriminate].
  destruct (spot_steps mf s2 xs) as [[s3 l]|] eqn:E2; cbn [bind]; [|discriminate].
  intros H; injection H as <- <-. intros H. rewrite (IH _ _ _ _ _ _ E2 H). reflexivity.
Qed.
Lemma normal_state s x s' : spot_step mf s x = Ret (s', NORMAL) -> s' = with_counts s (s_Nt s) (u64 (s_n s + 1)).
Proof. intros E. apply step_inv in E. destruct E as [? ? E|? ? ? ? E|? ? ? E ?|? ? ? ? ? ? ? ? ? ? ? E]; try discriminate E. exact E. Qed.
Lemma normal_counts s pre x y post s' rs s1 l1 sx sy : spot_steps mf s (pre ++ x :: post) = Ret (s', rs) -> spot_steps mf s pre = Ret (s1, l1) ->
  spot_step mf s1 x = Ret (sx, NORMAL) -> spot_step mf s1 y = Ret (sy, NORMAL) -> spot_steps mf s (pre ++ y :: post) = Ret (s', rs).
Proof.
  intros H P X Y. destruct (steps_app _ _ _ _ _ H) as (s2 & l2 & l3 & A & B & ->). rewrite P in A. injection A as <- <-.
  apply (app_steps _ _ _ _ s1); [exact P|]. cbn [spot_steps] in *. rewrite X in B. rewrite Y.
  rewrite (normal_state _ _ _ X) in B. rewrite (normal_state _ _ _ Y). exact B.
Qed.
End Stream.
