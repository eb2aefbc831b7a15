(** * PeaksFacts: the window statistics as pure functions of the window content *)
From Coq Require Import ZArith List Bool Lia Permutation.
From Verif Require Import Num NumFacts XMath Ubend UbendFacts Peaks Brent Estimator Tail.
Import ListNotations.
Open Scope Z_scope.
Open Scope num_scope.

Section PeaksFacts.
Context {N : NumOps} (mf : MathFns N).

(** [prep cap p l w]: the window holds the queue [l]; [w] is its content in array order. *)
Definition prep (cap : Z) (p : peaks N) (l w : list (num N)) : Prop :=
  rep cap (p_cont p) l /\
  firstn (length w) (u_data (p_cont p)) = map Some w /\
  Permutation w l /\
  ubend_size (p_cont p) = Z.of_nat (length w).

Lemma prep_exists cap (p : peaks N) l : rep cap (p_cont p) l -> exists w, prep cap p l w.
Proof.
  intros R. destruct (rep_stored _ _ _ R) as (w & H1 & H2 & H3 & _). exists w. repeat split; auto; apply R.
Qed.

Definition stats : Type := (num N * num N * num N * num N)%type.

(** Effect of one turn of the recomputation loop. *)
Definition stats_turn (s : stats) (v : num N) : stats :=
  let '(e, e2, mn, mx) := s in
  (e + v, v * v,
   if (is_nan mn || (v <? mn))%bool then v else mn,
   if (is_nan mx || (v >? mx))%bool then v else mx).
Definition stats_of (w : list (num N)) : stats := fold_left stats_turn w (#0, #0, c_nan, c_nan).
Definition set_stats (s : stats) (c : ubend N) : peaks N :=
  let '(e, e2, mn, mx) := s in MkPeaks e e2 mn mx c.

Lemma peaks_update_stats_eq p w :
  firstn (length w) (u_data (p_cont p)) = map Some w ->
  ubend_size (p_cont p) = Z.of_nat (length w) ->
  peaks_update_stats p = Ret (set_stats (stats_of w) (p_cont p)).
Proof.
  intros H1 H2. unfold peaks_update_stats.
  unfold for_lt. rewrite (for_from_ext _ _ _ (fun i s => bind (rdcell (u_data (p_cont p)) i) (fun v => Ret (stats_turn s v)))).
  - change (for_from (Z.to_nat (ubend_size (p_cont p))) 0) with (@for_lt stats (ubend_size (p_cont p))).
    rewrite (for_lt_fold stats_turn _ w) by auto.
    simpl. fold (stats_of w). unfold set_stats. destruct (stats_of w) as [[[e e2] mn] mx]. reflexivity.
  - intros j [[[e e2] mn] mx] _. unfold update_stats_body, stats_turn. reflexivity.
Qed.

(** The statistics before the eviction of [erased] is taken into account. *)
Definition push_mn (p : peaks N) (size : Z) (x : num N) : num N :=
  if (Z.eqb size 1 || (x <? p_min p))%bool then x else p_min p.
Definition push_mx (p : peaks N) (size : Z) (x : num N) : num N :=
  if (Z.eqb size 1 || (x >? p_max p))%bool then x else p_max p.

Lemma peaks_push_eq cap (p : peaks N) l x : rep cap (p_cont p) l ->
  exists c w,
    let er := if Z.ltb (Z.of_nat (length l)) cap then c_nan else hd x l in
    let mn := push_mn p (Z.of_nat (length w)) x in
    let mx := push_mx p (Z.of_nat (length w)) x in
    ubend_push (p_cont p) x = Ret (c, er) /\
    rep cap c (qpush cap l x) /\
    firstn (length w) (u_data c) = map Some w /\
    Permutation w (qpush cap l x) /\
    ubend_size c = Z.of_nat (length w) /\
    peaks_push p x = Ret
      (if is_nan er then MkPeaks (p_e p + x) (p_e2 p + x * x) mn mx c
       else if ((er <=? mn) || (er >=? mx))%bool then set_stats (stats_of w) c
       else MkPeaks (p_e p + x - er) (p_e2 p + x * x - er * er) mn mx c).
Proof.
  intros R. destruct (rep_push cap _ l x R) as (c & E & R').
  destruct (rep_stored _ _ _ R') as (w & H1 & H2 & H3 & _).
  exists c, w. cbv zeta. split; [assumption|]. split; [assumption|]. split; [assumption|].
  split; [assumption|]. split; [assumption|].
  unfold peaks_push. rewrite E. simpl bind.
  set (er := if Z.ltb _ _ then _ else _).
  rewrite H3. fold (push_mn p (Z.of_nat (length w)) x) (push_mx p (Z.of_nat (length w)) x).
  destruct (is_nan er); simpl negb; cbv iota; [reflexivity|].
  destruct (_ || _)%bool; [|reflexivity].
  apply peaks_update_stats_eq; assumption.
Qed.

(** Whatever the values, a push on a well-formed window succeeds and the window is the queue. *)
Lemma peaks_push_rep cap (p : peaks N) l x : rep cap (p_cont p) l ->
  exists p', peaks_push p x = Ret p' /\ rep cap (p_cont p') (qpush cap l x).
Proof.
  intros R. destruct (peaks_push_eq cap p l x R) as (c & w & _ & R' & _ & _ & _ & E).
  eexists; split; [exact E|].
  destruct (is_nan _); [exact R'|]. destruct (_ || _)%bool; [|exact R'].
  unfold set_stats. destruct (stats_of w) as [[[e e2] mn] mx]. exact R'.
Qed.

(** ** Likelihoods and Grimshaw's functions as sums over the content *)
Definition log_likelihood_of (e : num N) (w : list (num N)) (gamma sigma : num N) : num N :=
  if gamma ==? #0 then (- nofZ (Z.of_nat (length w))) * m_log mf sigma - e / sigma
  else fold_left (fun r v => r + (- (#1 + #1 / gamma)) * m_log mf (#1 + (gamma / sigma) * v)) w
         ((- nofZ (Z.of_nat (length w))) * m_log mf sigma).

Lemma log_likelihood_eq cap p l w gamma sigma : prep cap p l w ->
  log_likelihood mf p gamma sigma = Ret (log_likelihood_of (p_e p) w gamma sigma).
Proof.
  intros (R & H1 & H2 & H3). unfold log_likelihood, log_likelihood_of. rewrite H3.
  destruct (gamma ==? #0); [reflexivity|].
  cbv zeta. apply (for_lt_fold (fun r v => r + (- (#1 + #1 / gamma)) * m_log mf (#1 + (gamma / sigma) * v))); auto.
Qed.

Definition grimshaw_w_of (w : list (num N)) (x : num N) : num N :=
  let n := nofZ (Z.of_nat (length w)) in
  let '(u, v) := fold_left (fun uv y => let s := #1 + x * y in (fst uv + #1 / s, snd uv + m_log mf s)) w (#0, #0) in
  (u / n) * (#1 + v / n) - #1.

Lemma grimshaw_w_eq cap p l w x : prep cap p l w -> grimshaw_w mf p x = Ret (grimshaw_w_of w x).
Proof.
  intros (R & H1 & H2 & H3). unfold grimshaw_w, grimshaw_w_of, peaks_size. rewrite H3.
  unfold for_lt.
  rewrite (for_from_ext _ _ _ (fun i uv => bind (rdcell (u_data (p_cont p)) i)
     (fun y => Ret ((fun uv y => let s := #1 + x * y in (fst uv + #1 / s, snd uv + m_log mf s)) uv y)))).
  - change (for_from (Z.to_nat (Z.of_nat (length w))) 0) with (@for_lt (num N * num N) (Z.of_nat (length w))).
    rewrite (for_lt_fold (fun uv y => let s := #1 + x * y in (fst uv + #1 / s, snd uv + m_log mf s)) _ w) by auto.
    simpl bind. destruct (fold_left _ _ _) as [u v]. reflexivity.
  - intros j [u v] _. simpl. destruct (rdcell _ j); reflexivity.
Qed.

Definition grimshaw_v_of (w : list (num N)) (x : num N) : num N :=
  #1 + fold_left (fun v y => v + m_log mf (#1 + x * y)) w #0 / nofZ (Z.of_nat (length w)).

Lemma grimshaw_v_eq cap p l w x : prep cap p l w -> grimshaw_v mf p x = Ret (grimshaw_v_of w x).
Proof.
  intros (R & H1 & H2 & H3). unfold grimshaw_v, grimshaw_v_of, peaks_size. rewrite H3.
  rewrite (for_lt_fold (fun v y => v + m_log mf (#1 + x * y)) _ w) by auto. reflexivity.
Qed.

(** ** Totality of brent and of the estimators *)
Section BrentTotal.
Variable func : num N -> res (num N).
Hypothesis func_total : forall x, exists y, func x = Ret y.

Lemma brent_loop_total fuel tol s : exists r, brent_loop func fuel tol s = Ret r.
Proof.
  revert s; induction fuel as [|fuel IH]; intros s; simpl; [eauto|].
  destruct (_ || _)%bool; [eauto|].
  destruct (brent_de _ _ _) as [d e].
  destruct (func_total (brent_next (brent_tol1 tol (b_b (brent_rename s)))
              (c_half * (b_c (brent_rename s) - b_b (brent_rename s)))
              (b_b (brent_rename s)) d)) as [y ->].
  simpl. apply IH.
Qed.

Lemma brent_total x1 x2 tol : exists r, brent func x1 x2 tol = Ret r.
Proof.
  unfold brent. destruct (func_total x1) as [fa ->]. destruct (func_total x2) as [fb ->]. cbn [bind].
  destruct (same_sign fa fb); [eauto|].
  destruct (brent_loop_total BRENT_ITMAX tol (MkBst x1 x2 x2 #0 #0 fa fb fb)) as [r ->].
  cbn [bind]. destruct r; eauto.
Qed.
End BrentTotal.

Lemma mom_estimator_total cap (p : peaks N) l : rep cap (p_cont p) l -> exists r, mom_estimator mf p = Ret r.
Proof.
  intros R. destruct (prep_exists _ _ _ R) as (w & P). unfold mom_estimator.
  rewrite (log_likelihood_eq cap p l w) by assumption. cbn [bind]. eauto.
Qed.

Lemma gsll_total cap (p : peaks N) l x : rep cap (p_cont p) l ->
  exists r, grimshaw_simplified_log_likelihood mf x p = Ret r.
Proof.
  intros R. destruct (prep_exists _ _ _ R) as (w & P). unfold grimshaw_simplified_log_likelihood.
  destruct (x ==? #0); cbn [bind].
  - rewrite (log_likelihood_eq cap p l w) by assumption. cbn [bind]. eauto.
  - rewrite (grimshaw_v_eq cap p l w) by assumption. cbn [bind].
    rewrite (log_likelihood_eq cap p l w) by assumption. cbn [bind]. eauto.
Qed.

Lemma grimshaw_better_total cap (p : peaks N) l b c : rep cap (p_cont p) l ->
  exists r, grimshaw_better mf p b c = Ret r.
Proof.
  intros R. unfold grimshaw_better. destruct c as [[|] root]; [|eauto].
  destruct (gsll_total cap p l root R) as ([[ll g] s] & ->). cbn [bind]. destruct b as [[bll bg] bs]. eauto.
Qed.

Lemma grimshaw_estimator_total cap (p : peaks N) l : rep cap (p_cont p) l -> exists r, grimshaw_estimator mf p = Ret r.
Proof.
  intros R. destruct (prep_exists _ _ _ R) as (w & P). unfold grimshaw_estimator.
  assert (F : forall x, exists y, grimshaw_w mf p x = Ret y).
  { intros x. rewrite (grimshaw_w_eq cap p l w) by assumption. eauto. }
  destruct (brent_total _ F (#(-1) / p_max p + xmin BRENT_DEFAULT_EPSILON (c_half / p_max p))
    (- xmin BRENT_DEFAULT_EPSILON (c_half / p_max p)) BRENT_DEFAULT_EPSILON) as [r1 ->]. cbn [bind].
  destruct (brent_total _ F (xmin BRENT_DEFAULT_EPSILON (c_half / p_max p))
    (#2 * (peaks_mean p - p_min p) / (p_min p * p_min p)) BRENT_DEFAULT_EPSILON) as [r2 ->]. cbn [bind].
  destruct (gsll_total cap p l #0 R) as [b0 ->]. cbn [bind].
  destruct (grimshaw_better_total cap p l b0 r1 R) as [b1 ->]. cbn [bind].
  apply (grimshaw_better_total cap p l b1 r2 R).
Qed.

Lemma tail_fit_total cap (t : tail N) l : rep cap (p_cont (t_peaks t)) l ->
  exists t' ll, tail_fit mf t = Ret (t', ll) /\ t_peaks t' = t_peaks t.
Proof.
  intros R. unfold tail_fit, tail_fit_loop, ESTIMATORS.
  destruct (mom_estimator_total cap _ l R) as ([[ll1 g1] s1] & E1).
  destruct (grimshaw_estimator_total cap _ l R) as ([[ll2 g2] s2] & E2).
  rewrite E1. cbn [bind].
  destruct (is_nan c_nan || _)%bool; cbn [t_peaks]; rewrite E2; cbn [bind];
  destruct (_ || _)%bool; eauto.
Qed.

Lemma tail_push_total cap (t : tail N) l x : rep cap (p_cont (t_peaks t)) l ->
  exists t', tail_push t x = Ret t' /\ rep cap (p_cont (t_peaks t')) (qpush cap l x)
             /\ t_gamma t' = t_gamma t /\ t_sigma t' = t_sigma t.
Proof.
  intros R. unfold tail_push. destruct (peaks_push_rep cap _ l x R) as (p' & -> & R').
  simpl. eexists; split; [reflexivity|]. auto.
Qed.

(** tail_fit never touches the window, whatever the estimators return. *)
Lemma tail_fit_loop_peaks ests (t : tail N) m t' ll :
  tail_fit_loop ests t m = Ret (t', ll) -> t_peaks t' = t_peaks t.
Proof.
  revert t m; induction ests as [|est rest IH]; intros t m; simpl.
  - intros H; injection H as <- _; reflexivity.
  - destruct (est (t_peaks t)) as [[[l g] s]|]; simpl; [|discriminate].
    destruct (_ || _)%bool; intros H; apply IH in H; exact H.
Qed.

Lemma tail_fit_peaks (t t' : tail N) ll : tail_fit mf t = Ret (t', ll) -> t_peaks t' = t_peaks t.
Proof. apply tail_fit_loop_peaks. Qed.

End PeaksFacts.
