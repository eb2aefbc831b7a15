(** * CostLemmas: the work of a call (C95) *)
From Coq Require Import ZArith List Bool Lia.
From Verif Require Import Num XMath Ubend Peaks Brent Estimator Tail P2 Spot Session PeaksFacts SpotFacts SpotB64 Spec RefitLemmas WordLemmas WordApi CostSpec.
Import ListNotations.
Open Scope Z_scope.

Section Cost.
Context {N : NumOps}.
Implicit Types mf : MathFns N.

Lemma lc_mono {A} (F : MathFns N -> res A) mf k k' : log_calls F mf k -> k <= k' -> log_calls F mf k'.
Proof. intros (l & L & H) K. exists l. split; [lia|exact H]. Qed.
Lemma lc_ext {A} (F G : MathFns N -> res A) mf k : (forall m, F m = G m) -> log_calls F mf k -> log_calls G mf k.
Proof. intros E (l & L & H). exists l. split; [exact L|]. intros log A0. rewrite <- !E. exact (H log A0). Qed.
Lemma lc_const {A} (F : MathFns N -> res A) mf : (forall log, F (with_log mf log) = F mf) -> log_calls F mf 0.
Proof. intros H. exists []. split; [cbn; lia|]. intros log _. apply H. Qed.
Lemma lc_bind {A B} (F : MathFns N -> res A) (G : MathFns N -> A -> res B) mf k1 k2 : 0 <= k2 -> log_calls F mf k1 -> (forall a, F mf = Ret a -> log_calls (fun m => G m a) mf k2) ->
  log_calls (fun m => bind (F m) (G m)) mf (k1 + k2).
Proof.
  intros P (l1 & L1 & H1) H2. destruct (F mf) as [a|w] eqn:E.
  - destruct (H2 a eq_refl) as (l2 & L2 & H3). exists (l1 ++ l2). split; [rewrite app_length; lia|]. intros log A0.
    rewrite (H1 log) by (intros x I; apply A0, in_or_app; left; exact I). rewrite E. cbn [bind]. apply H3. intros x I. apply A0, in_or_app. right. exact I.
  - exists l1. split; [lia|]. intros log A0. rewrite (H1 log A0), E. reflexivity.
Qed.
Lemma lc_log {A} (F : num N -> res A) mf x : log_calls (fun m => F (m_log m x)) mf 1.
Proof. exists [x]. split; [cbn; lia|]. intros log H. cbn [m_log with_log]. rewrite (H x (or_introl eq_refl)). reflexivity. Qed.
Lemma lc_loop {S} (b : MathFns N -> Z -> S -> res S) mf k n : 0 <= k -> (forall i s, log_calls (fun m => b m i s) mf k) ->
  forall i s, log_calls (fun m => for_from n i (b m) s) mf (Z.of_nat n * k).
Proof.
  intros P H. induction n as [|n IH]; intros i s.
  - cbn [for_from]. apply (lc_mono _ _ 0); [apply lc_const; reflexivity|lia].
  - cbn [for_from]. apply (lc_mono _ _ (k + Z.of_nat n * k)); [|lia]. apply (lc_bind (fun m => b m i s) (fun m s' => for_from n (i + 1) (b m) s')); [lia|apply H|intros a _; apply IH].
Qed.
Lemma lc_for_lt {S} (b : MathFns N -> Z -> S -> res S) mf k n s : 0 <= k -> 0 <= n -> (forall i s, log_calls (fun m => b m i s) mf k) -> log_calls (fun m => for_lt n (b m) s) mf (n * k).
Proof. intros P Q H. unfold for_lt. pose proof (lc_loop b mf k (Z.to_nat n) P H 0 s) as L. rewrite Z2Nat.id in L by exact Q. exact L. Qed.

Section Window.
Variables (p : peaks N) (mf : MathFns N).
Notation n := (peaks_size p).
Hypothesis Pn : 0 <= n.

Lemma lc_likelihood g s : log_calls (fun m => log_likelihood m p g s) mf (n + 1).
Proof.
  unfold log_likelihood. destruct (neq g _).
  - apply (lc_mono _ _ 1); [|lia]. exact (lc_log (fun v => Ret (nsub (nmul (nopp (nofZ (ubend_size (p_cont p)))) v) (ndiv (p_e p) s))) mf s).
  - change (ubend_size (p_cont p)) with n. cbv zeta.
    assert (L : forall r, log_calls (fun m => for_lt n (fun i r => v <- rdcell (u_data (p_cont p)) i ;;
       Ret (nadd r (nmul (nopp (nadd (nofZ 1) (ndiv (nofZ 1) g))) (m_log m (nadd (nofZ 1) (nmul (ndiv g s) v)))))) r) mf (n * 1)).
    { intros r. apply (lc_for_lt (fun m i r => v <- rdcell (u_data (p_cont p)) i ;;
       Ret (nadd r (nmul (nopp (nadd (nofZ 1) (ndiv (nofZ 1) g))) (m_log m (nadd (nofZ 1) (nmul (ndiv g s) v))))))); [lia|exact Pn|]. intros i r0.
      destruct (rdcell _ _) as [v|]; cbn [bind]; [|apply (lc_mono _ _ 0); [apply lc_const; reflexivity|lia]].
      exact (lc_log (fun w => Ret (nadd r0 (nmul (nopp (nadd (nofZ 1) (ndiv (nofZ 1) g))) w))) mf _). }
    destruct (L (nmul (nopp (nofZ n)) (m_log mf s))) as (l & Ll & H). exists (s :: l). split; [cbn [length]; lia|]. intros log A0.
    cbn [m_log with_log] in *. rewrite (A0 s (or_introl eq_refl)). apply H. intros x I. apply A0. right. exact I.
Qed.
Lemma lc_mom : log_calls (fun m => mom_estimator m p) mf (n + 1).
Proof.
  unfold mom_estimator. cbv zeta. apply (lc_mono _ _ (n + 1 + 0)); [|lia].
  match goal with |- log_calls (fun m => bind (log_likelihood m p ?g ?s) ?G) _ _ => apply (lc_bind (fun m => log_likelihood m p g s) (fun _ => G)) end; [lia|apply lc_likelihood|intros a _; apply lc_const; reflexivity].
Qed.
Lemma lc_w x : log_calls (fun m => grimshaw_w m p x) mf n.
Proof.
  unfold grimshaw_w. cbv zeta. apply (lc_mono _ _ (n * 1 + 0)); [|lia].
  match goal with |- log_calls (fun m => bind (for_lt n (@?b m) ?s) ?G) _ _ => apply (lc_bind (fun m => for_lt n (b m) s) (fun _ => G)) end; [lia| |intros [u v] _; apply lc_const; reflexivity].
  match goal with |- log_calls (fun m => for_lt n (@?b m) ?s) _ _ => apply (lc_for_lt b) end; [lia|exact Pn|]. intros i [u v].
  destruct (rdcell _ _) as [y|]; cbn [bind]; [|apply (lc_mono _ _ 0); [apply lc_const; reflexivity|lia]].
  exact (lc_log (fun w => Ret (nadd u (ndiv (nofZ 1) (nadd (nofZ 1) (nmul x y))), nadd v w)) mf _).
Qed.
Lemma lc_v x : log_calls (fun m => grimshaw_v m p x) mf n.
Proof.
  unfold grimshaw_v. cbv zeta. apply (lc_mono _ _ (n * 1 + 0)); [|lia].
  match goal with |- log_calls (fun m => bind (for_lt n (@?b m) ?s) ?G) _ _ => apply (lc_bind (fun m => for_lt n (b m) s) (fun _ => G)) end; [lia| |intros v _; apply lc_const; reflexivity].
  match goal with |- log_calls (fun m => for_lt n (@?b m) ?s) _ _ => apply (lc_for_lt b) end; [lia|exact Pn|]. intros i v.
  destruct (rdcell _ _) as [y|]; cbn [bind]; [|apply (lc_mono _ _ 0); [apply lc_const; reflexivity|lia]].
  exact (lc_log (fun w => Ret (nadd v w)) mf _).
Qed.
Lemma lc_candidate x : log_calls (fun m => grimshaw_simplified_log_likelihood m x p) mf (2 * n + 1).
Proof.
  unfold grimshaw_simplified_log_likelihood. apply (lc_mono _ _ (n + (n + 1))); [|lia].
  match goal with |- log_calls (fun m => bind (@?F m) (@?G m)) _ _ => apply (lc_bind F G) end; [lia| |].
  - destruct (neq x _); [apply (lc_mono _ _ 0); [apply lc_const; reflexivity|exact Pn]|]. apply (lc_mono _ _ (n + 0)); [|lia].
    match goal with |- log_calls (fun m => bind (@?F m) ?G) _ _ => apply (lc_bind F (fun _ => G)) end; [lia|apply lc_v|intros a _; apply lc_const; reflexivity].
  - intros [g s] _. apply (lc_mono _ _ (n + 1 + 0)); [|lia].
    match goal with |- log_calls (fun m => bind (@?F m) ?G) _ _ => apply (lc_bind F (fun _ => G)) end; [lia|apply lc_likelihood|intros a _; apply lc_const; reflexivity].
Qed.
Lemma lc_zero : log_calls (fun m => grimshaw_simplified_log_likelihood m (nofZ 0) p) mf (2 * n + 1).
Proof. apply lc_candidate. Qed.
Lemma lc_better best cand : log_calls (fun m => grimshaw_better m p best cand) mf (2 * n + 1).
Proof.
  unfold grimshaw_better. destruct cand as [[|] root]; [|apply (lc_mono _ _ 0); [apply lc_const; reflexivity|lia]].
  apply (lc_mono _ _ (2 * n + 1 + 0)); [|lia].
  match goal with |- log_calls (fun m => bind (@?F m) ?G) _ _ => apply (lc_bind F (fun _ => G)) end; [lia|apply lc_candidate|intros [[a b] d] _; apply lc_const; reflexivity].
Qed.
Lemma lc_brent_loop fuel tol : forall s, log_calls (fun m => brent_loop (grimshaw_w m p) fuel tol s) mf (Z.of_nat fuel * n).
Proof.
  induction fuel as [|fuel IH]; intros s; cbn [brent_loop]; [apply (lc_mono _ _ 0); [apply lc_const; reflexivity|lia]|].
  cbv zeta. destruct (_ || _)%bool; [apply (lc_mono _ _ 0); [apply lc_const; reflexivity|lia]|]. destruct (brent_de _ _ _) as [d e].
  apply (lc_mono _ _ (n + Z.of_nat fuel * n)); [|lia].
  match goal with |- log_calls (fun m => bind (@?F m) (@?G m)) _ _ => apply (lc_bind F G) end; [lia|apply lc_w|intros fb _; apply IH].
Qed.
Lemma lc_brent x1 x2 tol : log_calls (fun m => brent (grimshaw_w m p) x1 x2 tol) mf (202 * n).
Proof.
  unfold brent. apply (lc_mono _ _ (n + (n + (200 * n + 0)))); [|lia].
  match goal with |- log_calls (fun m => bind (@?F m) (@?G m)) _ _ => apply (lc_bind F G) end; [lia|apply lc_w|intros fa _].
  match goal with |- log_calls (fun m => bind (@?F m) (@?G m)) _ _ => apply (lc_bind F G) end; [lia|apply lc_w|intros fb _].
  destruct (same_sign fa fb); [apply (lc_mono _ _ 0); [apply lc_const; reflexivity|lia]|].
  match goal with |- log_calls (fun m => bind (@?F m) ?G) _ _ => apply (lc_bind F (fun _ => G)) end; [lia|exact (lc_brent_loop 200 tol _)|intros [r|] _; apply lc_const; reflexivity].
Qed.
Lemma lc_grimshaw : log_calls (fun m => grimshaw_estimator m p) mf (410 * n + 3).
Proof.
  unfold grimshaw_estimator. cbv zeta. apply (lc_mono _ _ (202 * n + (202 * n + (2 * n + 1 + (2 * n + 1 + (2 * n + 1)))))); [|lia].
  match goal with |- log_calls (fun m => bind (@?F m) (@?G m)) _ _ => apply (lc_bind F G) end; [lia|apply lc_brent|intros lf _].
  match goal with |- log_calls (fun m => bind (@?F m) (@?G m)) _ _ => apply (lc_bind F G) end; [lia|apply lc_brent|intros rg _].
  match goal with |- log_calls (fun m => bind (@?F m) (@?G m)) _ _ => apply (lc_bind F G) end; [lia|apply lc_candidate|intros b0 _].
  match goal with |- log_calls (fun m => bind (@?F m) (@?G m)) _ _ => apply (lc_bind F G) end; [lia|apply lc_better|intros b1 _; apply lc_better].
Qed.
End Window.

Lemma lc_fit (t : tail N) mf : 0 <= peaks_size (t_peaks t) -> log_calls (fun m => tail_fit m t) mf (411 * peaks_size (t_peaks t) + 4).
Proof.
  intros P. unfold tail_fit, ESTIMATORS. cbn [tail_fit_loop].
  apply (lc_mono _ _ (peaks_size (t_peaks t) + 1 + (410 * peaks_size (t_peaks t) + 3 + 0))); [|lia].
  match goal with |- log_calls (fun m => bind (@?F m) (@?G m)) _ _ => apply (lc_bind F G) end; [lia|apply lc_mom; exact P|intros [[l1 g1] s1] _].
  destruct (_ || _)%bool; cbn [t_peaks].
  - match goal with |- log_calls (fun m => bind (@?F m) (@?G m)) _ _ => apply (lc_bind F G) end; [lia|apply lc_grimshaw; exact P|intros [[l2 g2] s2] _]. destruct (_ || _)%bool; apply lc_const; reflexivity.
  - match goal with |- log_calls (fun m => bind (@?F m) (@?G m)) _ _ => apply (lc_bind F G) end; [lia|apply lc_grimshaw; exact P|intros [[l2 g2] s2] _]. destruct (_ || _)%bool; apply lc_const; reflexivity.
Qed.
Lemma lc_quantile (s : spot N) q mf : log_calls (fun m => spot_quantile m s q) mf 1.
Proof.
  unfold spot_quantile, tail_quantile. cbv zeta. destruct (neq _ _).
  - cbn [bind]. exact (lc_log (fun v => Ret (nadd (s_et s) (nmul (s_updown s) (nmul (nopp (t_sigma (s_tail s))) v)))) mf _).
  - apply (lc_mono _ _ 0); [apply lc_const; reflexivity|lia].
Qed.

Lemma lc_step (s s' : spot N) x r mf : spot_step mf s x = Ret (s', r) -> 0 <= peaks_size (t_peaks (s_tail s')) ->
  log_calls (fun m => spot_step m s x) mf (if r =? EXCESS then 411 * peaks_size (t_peaks (s_tail s')) + 5 else 0).
Proof.
  unfold spot_step. destruct (is_nan x); [intros H _; injection H as <- <-; apply lc_const; reflexivity|].
  destruct (_ && _)%bool; [intros H _; injection H as <- <-; apply lc_const; reflexivity|]. cbv zeta.
  cbn [with_counts s_updown s_et s_Nt s_n s_tail s_q with_tail].
  destruct (nle _ _); [|intros H _; injection H as <- <-; apply lc_const; reflexivity].
  destruct (tail_push _ _) as [t|]; cbn [bind]; [|discriminate]. destruct (tail_fit mf t) as [[t2 l]|] eqn:F; cbn [bind]; [|discriminate].
  destruct (spot_quantile _ _ _) as [a|] eqn:Q; cbn [bind]; [|discriminate]. intros H P. injection H as <- <-. cbn [s_tail with_at with_tail] in *.
  rewrite (tail_fit_peaks mf _ _ _ F) in *. change (EXCESS =? EXCESS) with true. cbv iota.
  apply (lc_mono _ _ (411 * peaks_size (t_peaks t) + 4 + (1 + 0))); [|lia].
  match goal with |- log_calls (fun m => bind (@?F m) (@?G m)) _ _ => apply (lc_bind F G) end; [lia|apply lc_fit; exact P|intros [t3 l3] _].
  match goal with |- log_calls (fun m => bind (@?F m) (@?G m)) _ _ => apply (lc_bind F G) end; [lia|apply lc_quantile|intros b _; apply lc_const; reflexivity].
Qed.
Lemma lc_spot_fit (s s' : spot N) data r mf : spot_fit mf s data = Ret (s', r) -> 0 <= peaks_size (t_peaks (s_tail s')) ->
  log_calls (fun m => spot_fit m s data) mf (411 * peaks_size (t_peaks (s_tail s')) + 5).
Proof.
  unfold spot_fit. cbv zeta. destruct (p2_quantile _ _) as [et|]; cbn [bind]; [|discriminate].
  destruct (is_nan et); [intros H P; apply (lc_mono _ _ 0); [apply lc_const; reflexivity|lia]|].
  destruct (fit_fill _ _ _) as [s1|]; cbn [bind]; [|discriminate]. destruct (tail_fit mf (s_tail s1)) as [[t2 l]|] eqn:F; cbn [bind]; [|discriminate].
  destruct (spot_quantile _ _ _) as [a|] eqn:Q; cbn [bind]; [|discriminate]. intros H P.
  assert (E : t_peaks (s_tail s') = t_peaks (s_tail s1)) by (destruct (is_nan a); injection H as <- _; cbn [s_tail with_at with_tail]; exact (tail_fit_peaks mf _ _ _ F)).
  rewrite E in *. apply (lc_mono _ _ (411 * peaks_size (t_peaks (s_tail s1)) + 4 + (1 + 0))); [|lia].
  match goal with |- log_calls (fun m => bind (@?F m) (@?G m)) _ _ => apply (lc_bind F G) end; [lia|apply lc_fit; exact P|intros [t3 l3] _].
  match goal with |- log_calls (fun m => bind (@?F m) (@?G m)) _ _ => apply (lc_bind F G) end; [lia|apply lc_quantile|intros b _; apply lc_const; destruct (is_nan b); reflexivity].
Qed.

End Cost.

Lemma detector_size {N} (mf : MathFns N) q low discard level cap s : detector mf q low discard level cap s -> 0 <= peaks_size (t_peaks (s_tail s)) <= cap.
Proof.
  intros D. apply detector_cursor in D as (A & B). unfold peaks_size, ubend_size. rewrite A. destruct (_ =? _); lia.
Qed.
Lemma detector_step_cost {N} (mf : MathFns N) q low discard level cap s s' x r : detector mf q low discard level cap s -> spot_step mf s x = Ret (s', r) ->
  log_calls (fun m => spot_step m s x) mf (if r =? EXCESS then 411 * cap + 5 else 0).
Proof.
  intros D E. assert (D' : detector mf q low discard level cap s').
  { apply (detector_call mf q low discard level cap s (CStep x) s' (ACode r) D). cbn [do_call]. rewrite E. reflexivity. }
  apply detector_size in D'. pose proof (lc_step s s' x r mf E ltac:(lia)) as L. apply (lc_mono _ _ _ _ L). destruct (r =? EXCESS); lia.
Qed.
Lemma detector_fit_cost {N} (mf : MathFns N) q low discard level cap s s' data r : detector mf q low discard level cap s -> spot_fit mf s data = Ret (s', r) ->
  log_calls (fun m => spot_fit m s data) mf (411 * cap + 5).
Proof.
  intros D E. assert (D' : detector mf q low discard level cap s').
  { apply (detector_call mf q low discard level cap s (CFit data) s' (ACode r) D). cbn [do_call]. rewrite E. reflexivity. }
  apply detector_size in D'. pose proof (lc_spot_fit s s' data r mf E ltac:(lia)) as L. apply (lc_mono _ _ _ _ L). lia.
Qed.
