(** * CapacityLemmas: proofs for C101 (max_excess before the window is full) *)
From Coq Require Import ZArith List Bool Lia.
From Verif Require Import Num XMath Ubend Peaks Brent Estimator Tail P2 Spot Session Spec.
Import ListNotations.
Open Scope Z_scope.

Section Capacity.
Context {N : NumOps}.
Variable mf : MathFns N.

(** ** Two windows with the same content *)
Record urel (c : Z) (u v : ubend N) : Prop := {
  ur_cursor : u_cursor v = u_cursor u;
  ur_last : u_last v = u_last u;
  ur_filled : u_filled u = 0;
  ur_filled' : u_filled v = 0;
  ur_pos : 0 <= u_cursor u;
  ur_cells : forall i, 0 <= i < u_cursor u -> rdcell (u_data v) i = rdcell (u_data u) i;
  ur_cap : u_capacity v = c;
  ur_room : u_cursor u < c <= Z.of_nat (length (u_data v));
  ur_word : c < 2 ^ 64
}.
Record prel c (p p' : peaks N) : Prop := {
  pr_e : p_e p' = p_e p; pr_e2 : p_e2 p' = p_e2 p; pr_min : p_min p' = p_min p; pr_max : p_max p' = p_max p;
  pr_cont : urel c (p_cont p) (p_cont p')
}.
Definition trel c (t t' : tail N) : Prop := t_gamma t' = t_gamma t /\ t_sigma t' = t_sigma t /\ prel c (t_peaks t) (t_peaks t').

Lemma for_from_ext {S} (f g : Z -> S -> res S) : forall n i s, (forall j a, i <= j < i + Z.of_nat n -> f j a = g j a) -> for_from n i f s = for_from n i g s.
Proof.
  induction n as [|n IH]; intros i s H; cbn [for_from]; [reflexivity|]. rewrite (H i s) by lia. destruct (g i s); cbn [bind]; [|reflexivity].
  apply IH. intros j a0 J. apply H. lia.
Qed.
Lemma for_lt_ext {S} (f g : Z -> S -> res S) n s : (forall j a, 0 <= j < n -> f j a = g j a) -> for_lt n f s = for_lt n g s.
Proof. intros H. apply for_from_ext. intros j a J. apply H. lia. Qed.
Lemma bind_ext {A B} (x y : res A) (f g : A -> res B) : x = y -> (forall a, f a = g a) -> bind x f = bind y g.
Proof. intros -> H. destruct y; cbn [bind]; [apply H|reflexivity]. Qed.
Lemma size_eq c u v : urel c u v -> ubend_size v = ubend_size u.
Proof. intros R. unfold ubend_size. rewrite (ur_filled _ _ _ R), (ur_filled' _ _ _ R). exact (ur_cursor _ _ _ R). Qed.
Lemma size_cursor c u v : urel c u v -> ubend_size u = u_cursor u.
Proof. intros R. unfold ubend_size. rewrite (ur_filled _ _ _ R). reflexivity. Qed.
Lemma cells_eq c u v i : urel c u v -> 0 <= i < ubend_size u -> rdcell (u_data v) i = rdcell (u_data u) i.
Proof. intros R H. rewrite (size_cursor _ _ _ R) in H. exact (ur_cells _ _ _ R i H). Qed.

(** ** The functions that read the window *)
Section Read.
Variables (c : Z) (p p' : peaks N).
Hypothesis R : prel c p p'.
Lemma psize_eq : peaks_size p' = peaks_size p.
Proof. exact (size_eq _ _ _ (pr_cont _ _ _ R)). Qed.
Lemma mean_eq : peaks_mean p' = peaks_mean p.
Proof. unfold peaks_mean. rewrite psize_eq, (pr_e _ _ _ R). reflexivity. Qed.
Lemma var_eq : peaks_var p' = peaks_var p.
Proof. unfold peaks_var. rewrite psize_eq, (pr_e _ _ _ R), (pr_e2 _ _ _ R). reflexivity. Qed.
Lemma lik_eq g s : log_likelihood mf p' g s = log_likelihood mf p g s.
Proof.
  unfold log_likelihood. rewrite (size_eq _ _ _ (pr_cont _ _ _ R)), (pr_e _ _ _ R). destruct (neq g _); [reflexivity|].
  apply for_lt_ext. intros j a J. rewrite (cells_eq _ _ _ _ (pr_cont _ _ _ R) J). reflexivity.
Qed.
Lemma w_eq x : grimshaw_w mf p' x = grimshaw_w mf p x.
Proof.
  unfold grimshaw_w. rewrite psize_eq. erewrite for_lt_ext; [reflexivity|]. intros j [a b] J.
  rewrite (cells_eq _ _ _ _ (pr_cont _ _ _ R) J). reflexivity.
Qed.
Lemma v_eq x : grimshaw_v mf p' x = grimshaw_v mf p x.
Proof.
  unfold grimshaw_v. rewrite psize_eq. erewrite for_lt_ext; [reflexivity|]. intros j a J.
  rewrite (cells_eq _ _ _ _ (pr_cont _ _ _ R) J). reflexivity.
Qed.
Lemma mom_eq : mom_estimator mf p' = mom_estimator mf p.
Proof. unfold mom_estimator. rewrite mean_eq, var_eq, lik_eq. reflexivity. Qed.
Lemma gsll_eq x : grimshaw_simplified_log_likelihood mf x p' = grimshaw_simplified_log_likelihood mf x p.
Proof.
  unfold grimshaw_simplified_log_likelihood. rewrite mean_eq, v_eq. destruct (if neq x _ then _ else _) as [[g s]|]; cbn [bind]; [|reflexivity].
  rewrite lik_eq. reflexivity.
Qed.
Lemma better_eq b k : grimshaw_better mf p' b k = grimshaw_better mf p b k.
Proof. unfold grimshaw_better. destruct k as [[|] r]; [|reflexivity]. rewrite gsll_eq. reflexivity. Qed.
Lemma brent_loop_ext (f g : num N -> res (num N)) : (forall x, f x = g x) -> forall n tol s, brent_loop f n tol s = brent_loop g n tol s.
Proof.
  intros H. induction n as [|n IH]; intros tol s; cbn [brent_loop]; [reflexivity|]. destruct (_ || _)%bool; [reflexivity|].
  destruct (brent_de _ _ _) as [d e]. rewrite H. destruct (g _); cbn [bind]; [apply IH|reflexivity].
Qed.
Lemma brent_ext (f g : num N -> res (num N)) a b tol : (forall x, f x = g x) -> brent f a b tol = brent g a b tol.
Proof.
  intros H. unfold brent. rewrite !H. destruct (g a); cbn [bind]; [|reflexivity]. destruct (g b); cbn [bind]; [|reflexivity].
  destruct (same_sign _ _); [reflexivity|]. rewrite (brent_loop_ext f g H). reflexivity.
Qed.
Lemma grimshaw_eq : grimshaw_estimator mf p' = grimshaw_estimator mf p.
Proof.
  unfold grimshaw_estimator. rewrite (pr_min _ _ _ R), (pr_max _ _ _ R), mean_eq, gsll_eq.
  apply bind_ext; [exact (brent_ext _ _ _ _ _ w_eq)|]. intros l. apply bind_ext; [exact (brent_ext _ _ _ _ _ w_eq)|]. intros r.
  apply bind_ext; [reflexivity|]. intros b. apply bind_ext; [apply better_eq|]. intros k. apply better_eq.
Qed.
End Read.
Lemma fit_eq c t t' t1 ll : trel c t t' -> tail_fit mf t = Ret (t1, ll) -> exists t1', tail_fit mf t' = Ret (t1', ll) /\ trel c t1 t1' /\ t_peaks t1 = t_peaks t.
Proof.
  intros (G & S & P). unfold tail_fit, ESTIMATORS. cbn [tail_fit_loop]. rewrite (mom_eq _ _ _ P).
  destruct (mom_estimator mf (t_peaks t)) as [[[l1 g1] s1]|]; cbn [bind]; [|discriminate].
  destruct (_ || _)%bool; cbn [t_peaks]; rewrite (grimshaw_eq _ _ _ P); (destruct (grimshaw_estimator mf (t_peaks t)) as [[[l2 g2] s2]|]; cbn [bind]; [|discriminate]);
    destruct (_ || _)%bool; intros E; injection E as <- <-; eexists; (split; [reflexivity|]); (split; [|reflexivity]); repeat split; cbn [t_gamma t_sigma t_peaks]; auto; apply P.
Qed.

(** ** What a push does to the cursor *)
Definition W (u : ubend N) : Prop := 0 <= u_cursor u < u_capacity u /\ u_capacity u < 2 ^ 64.
Definition M (u v : ubend N) : Prop := u_capacity v = u_capacity u /\ (W u -> W v /\ (u_filled v = 0 -> u_filled u = 0 /\ u_cursor u <= u_cursor v)).
Lemma M_refl u : M u u.
Proof. split; [reflexivity|]. intros H. split; [exact H|]. intros F. split; [exact F|lia]. Qed.
Lemma M_trans u v w : M u v -> M v w -> M u w.
Proof.
  intros (C1 & H1) (C2 & H2). split; [congruence|]. intros Hu. destruct (H1 Hu) as (Hv & A). destruct (H2 Hv) as (Hw & B). split; [exact Hw|].
  intros F. destruct (B F) as (F1 & L1). destruct (A F1) as (F2 & L2). split; [exact F2|lia].
Qed.
Lemma push_M u x v e : ubend_push u x = Ret (v, e) -> M u v.
Proof.
  unfold ubend_push. destruct (if u_filled u =? 0 then _ else _) as [l|]; cbn [bind]; [|discriminate].
  destruct (wr _ _ _) as [d|]; cbn [bind]; [|discriminate]. intros H. injection H as <- <-. unfold M, W.
  destruct (Z.eqb_spec (u_cursor u) (u64 (u_capacity u - 1))) as [E|E]; cbn [u_cursor u_capacity u_filled]; (split; [reflexivity|]); intros ((A & B) & C).
  - split; [lia|discriminate].
  - unfold u64 in *. rewrite Z.mod_small in E by lia. rewrite Z.mod_small by lia. split; [lia|]. intros F. split; [exact F|lia].
Qed.
Lemma stats_cont (p p' : peaks N) : peaks_update_stats p = Ret p' -> p_cont p' = p_cont p.
Proof. unfold peaks_update_stats. destruct (for_lt _ _ _) as [[[[e e2] mn] mx]|]; cbn [bind]; [|discriminate]. intros H; injection H as <-. reflexivity. Qed.
Lemma ppush_cont (p : peaks N) x p' : peaks_push p x = Ret p' -> exists e, ubend_push (p_cont p) x = Ret (p_cont p', e).
Proof.
  unfold peaks_push. destruct (ubend_push (p_cont p) x) as [[u e]|]; cbn [bind]; [|discriminate].
  destruct (negb _); [destruct (_ || _)%bool|]; intros H; exists e; [apply stats_cont in H; cbn [p_cont] in H; rewrite H; reflexivity| |]; injection H as <-; reflexivity.
Qed.
Definition win (s : spot N) : ubend N := p_cont (t_peaks (s_tail s)).
Lemma tpush_M (t : tail N) x t' : tail_push t x = Ret t' -> M (p_cont (t_peaks t)) (p_cont (t_peaks t')).
Proof.
  unfold tail_push. destruct (peaks_push (t_peaks t) x) as [p|] eqn:E; cbn [bind]; [|discriminate]. intros H; injection H as <-.
  apply ppush_cont in E. destruct E as (e & E). exact (push_M _ _ _ _ E).
Qed.
Lemma tfit_peaks t t' ll : tail_fit mf t = Ret (t', ll) -> t_peaks t' = t_peaks t.
Proof.
  unfold tail_fit, ESTIMATORS. cbn [tail_fit_loop]. destruct (mom_estimator mf (t_peaks t)) as [[[l1 g1] s1]|]; cbn [bind]; [|discriminate].
  destruct (_ || _)%bool; cbn [t_peaks]; (destruct (grimshaw_estimator mf (t_peaks t)) as [[[l2 g2] s2]|]; cbn [bind]; [|discriminate]);
    destruct (_ || _)%bool; intros E; injection E as <- <-; reflexivity.
Qed.
Lemma fill_M et : forall data (s s' : spot N), fit_fill et s data = Ret s' -> M (win s) (win s').
Proof.
  induction data as [|x data IH]; intros s s'; cbn [fit_fill]; [intros H; injection H as <-; apply M_refl|].
  destruct (nlt _ _); [|apply IH]. destruct (tail_push (s_tail s) _) as [t|] eqn:E; cbn [bind]; [|discriminate]. intros H. apply IH in H.
  eapply M_trans; [|exact H]. exact (tpush_M _ _ _ E).
Qed.
Lemma fit_M s data s' r : spot_fit mf s data = Ret (s', r) -> M (win s) (win s').
Proof.
  unfold spot_fit. destruct (p2_quantile _ data) as [et|]; cbn [bind]; [|discriminate]. destruct (is_nan et); [intros H; injection H as <- <-; apply M_refl|].
  destruct (fit_fill et _ data) as [s1|] eqn:F; cbn [bind]; [|discriminate]. apply fill_M in F. destruct (tail_fit mf (s_tail s1)) as [[t ll]|] eqn:T; cbn [bind]; [|discriminate].
  apply tfit_peaks in T. destruct (spot_quantile mf _ _) as [a|]; cbn [bind]; [|discriminate].
  destruct (is_nan a); intros H; injection H as <- <-; unfold win in *; cbn [with_at with_tail s_tail]; rewrite T; exact F.
Qed.
Lemma step_M s x s' r : spot_step mf s x = Ret (s', r) -> M (win s) (win s').
Proof.
  unfold spot_step. destruct (is_nan x); [intros H; injection H as <- <-; apply M_refl|].
  destruct (_ && _)%bool; [intros H; injection H as <- <-; apply M_refl|]. destruct (nle _ _); [|intros H; injection H as <- <-; apply M_refl].
  destruct (tail_push _ _) as [t1|] eqn:P; cbn [bind]; [|discriminate]. apply tpush_M in P. destruct (tail_fit mf t1) as [[t2 ll]|] eqn:T; cbn [bind]; [|discriminate].
  apply tfit_peaks in T. destruct (spot_quantile mf _ _) as [a|]; cbn [bind]; [|discriminate]. intros H; injection H as <- <-.
  unfold win; cbn [with_at with_tail s_tail]. rewrite T. exact P.
Qed.
Lemma call_M s k s' a : do_call mf s k = Ret (s', a) -> M (win s) (win s').
Proof.
  destruct k as [data|x|q|z]; cbn [do_call].
  - destruct (spot_fit mf s data) as [[s1 r]|] eqn:E; cbn [bind]; [|discriminate]. intros H; injection H as <- <-. exact (fit_M _ _ _ _ E).
  - destruct (spot_step mf s x) as [[s1 r]|] eqn:E; cbn [bind]; [|discriminate]. intros H; injection H as <- <-. exact (step_M _ _ _ _ E).
  - destruct (spot_quantile mf s q); cbn [bind]; [|discriminate]. intros H; injection H as <- <-. apply M_refl.
  - destruct (spot_probability mf s z); cbn [bind]; [|discriminate]. intros H; injection H as <- <-. apply M_refl.
Qed.
Lemma session_M : forall cs s s' l, session mf s cs = Ret (s', l) -> M (win s) (win s').
Proof.
  induction cs as [|k cs IH]; intros s s' l; cbn [session]; [intros H; injection H as <- <-; apply M_refl|].
  destruct (do_call mf s k) as [[s1 a]|] eqn:E; cbn [bind]; [|discriminate]. destruct (session mf s1 cs) as [[s2 l2]|] eqn:E2; cbn [bind]; [|discriminate].
  intros H; injection H as <- <-. eapply M_trans; [exact (call_M _ _ _ _ E)|exact (IH _ _ _ E2)].
Qed.

(** ** The same calls on the two detectors *)
Definition ok (c : Z) (u : ubend N) : Prop := u_filled u = 0 /\ u_cursor u < c.
Lemma ok_back c u v : M u v -> W u -> ok c v -> ok c u /\ W v.
Proof. intros (_ & H) Hu (F & L). destruct (H Hu) as (Hv & A). destruct (A F) as (F' & L'). split; [split; [exact F'|lia]|exact Hv]. Qed.
Lemma upd_length {A} : forall (l : list A) n a, length (upd l n a) = length l.
Proof. induction l as [|b l IH]; intros [|n] a; cbn [upd length]; auto. Qed.
Lemma nth_upd {A} : forall (l : list A) n a m, (n < length l)%nat -> nth_error (upd l n a) m = if Nat.eqb m n then Some a else nth_error l m.
Proof.
  induction l as [|b l IH]; intros [|n] a [|m] H; cbn [upd length nth_error Nat.eqb] in *; try lia; try reflexivity.
  apply IH. lia.
Qed.
Lemma rdcell_wr {A} (d d1 : list (option A)) k x i : wr d k (Some x) = Ret d1 -> rdcell d1 i = if i =? k then Ret x else rdcell d i.
Proof.
  unfold wr. destruct (_ && _)%bool eqn:B; [|discriminate]. intros H; injection H as <-. apply andb_true_iff in B. destruct B as (B1 & B2).
  apply Z.leb_le in B1. apply Z.ltb_lt in B2. unfold rdcell, rd. rewrite upd_length. destruct (Z.eqb_spec i k) as [->|NE].
  - rewrite (proj2 (Z.leb_le 0 k) B1), (proj2 (Z.ltb_lt _ _) B2). cbn [andb]. rewrite nth_upd, Nat.eqb_refl by lia. reflexivity.
  - destruct (Z.leb_spec 0 i) as [I|I]; [|reflexivity]. destruct (i <? _); [|reflexivity]. cbn [andb]. rewrite nth_upd by lia.
    destruct (Nat.eqb_spec (Z.to_nat i) (Z.to_nat k)); [lia|reflexivity].
Qed.
Lemma push_sim c u v x u1 e : urel c u v -> W u -> ubend_push u x = Ret (u1, e) -> ok c u1 ->
  exists v1, ubend_push v x = Ret (v1, e) /\ urel c u1 v1.
Proof.
  intros R Hu P (F & L). destruct R as [Rc Rl Rf Rf' Rp Rd Ra Rr Rw]. unfold ubend_push in *. rewrite Rf in P. rewrite Rf', Rc, Ra, Rl. cbn [Z.eqb bind] in *.
  destruct (wr (u_data u) _ _) as [d|] eqn:D; cbn [bind] in P; [|discriminate].
  destruct (wr (u_data v) (u_cursor u) (Some x)) as [d'|] eqn:D'.
  2: { unfold wr in D'. rewrite (proj2 (Z.leb_le _ _) Rp) in D'. rewrite (proj2 (Z.ltb_lt (u_cursor u) (Z.of_nat (length (u_data v))))) in D' by lia. discriminate. }
  cbn [bind]. destruct (Z.eqb_spec (u_cursor u) (u64 (u_capacity u - 1))) as [E|E]; injection P as <- <-; cbn [u_filled u_cursor] in F, L; [discriminate|].
  unfold u64 in *. rewrite Z.mod_small in L by lia. destruct (Z.eqb_spec (u_cursor u) ((c - 1) mod 2 ^ 64)) as [E'|E']; [rewrite Z.mod_small in E' by lia; lia|].
  rewrite !Z.mod_small by lia. eexists. split; [reflexivity|]. constructor; cbn [u_cursor u_capacity u_last u_filled u_data]; auto; try lia.
  - intros i I. rewrite (rdcell_wr _ _ _ _ _ D), (rdcell_wr _ _ _ _ _ D'). destruct (Z.eqb_spec i (u_cursor u)); [reflexivity|]. apply Rd. lia.
  - unfold wr in D'. destruct (_ && _)%bool; [|discriminate]. injection D' as <-. rewrite upd_length. lia.
Qed.
Lemma stats_sim c (p p' p1 : peaks N) : prel c p p' -> peaks_update_stats p = Ret p1 -> exists p1', peaks_update_stats p' = Ret p1' /\ prel c p1 p1'.
Proof.
  intros R. unfold peaks_update_stats. rewrite (size_eq _ _ _ (pr_cont _ _ _ R)).
  rewrite (for_lt_ext (update_stats_body (u_data (p_cont p'))) (update_stats_body (u_data (p_cont p)))).
  2: { intros j [[[a b] f] g] J. unfold update_stats_body. rewrite (cells_eq _ _ _ _ (pr_cont _ _ _ R) J). reflexivity. }
  destruct (for_lt _ _ _) as [[[[e e2] mn] mx]|]; cbn [bind]; [|discriminate]. intros H; injection H as <-. eexists. split; [reflexivity|].
  constructor; try reflexivity. exact (pr_cont _ _ _ R).
Qed.
Lemma ppush_sim c (p p' : peaks N) x p1 : prel c p p' -> W (p_cont p) -> peaks_push p x = Ret p1 -> ok c (p_cont p1) ->
  exists p1', peaks_push p' x = Ret p1' /\ prel c p1 p1'.
Proof.
  intros R Hu P O. destruct (ppush_cont _ _ _ P) as (e & U). destruct (push_sim _ _ _ _ _ _ (pr_cont _ _ _ R) Hu U O) as (v & V & RV).
  unfold peaks_push in *. rewrite U in P. rewrite V. cbn [bind] in *. rewrite (size_eq _ _ _ RV), (pr_e _ _ _ R), (pr_e2 _ _ _ R), (pr_min _ _ _ R), (pr_max _ _ _ R).
  destruct (negb _); [destruct (_ || _)%bool|].
  - eapply stats_sim; [|exact P]. constructor; try reflexivity. exact RV.
  - injection P as P. eexists. split; [reflexivity|]. rewrite <- P. constructor; try reflexivity. exact RV.
  - injection P as P. eexists. split; [reflexivity|]. rewrite <- P. constructor; try reflexivity. exact RV.
Qed.
Lemma tpush_sim c (t t' : tail N) x t1 : trel c t t' -> W (p_cont (t_peaks t)) -> tail_push t x = Ret t1 -> ok c (p_cont (t_peaks t1)) ->
  exists t1', tail_push t' x = Ret t1' /\ trel c t1 t1'.
Proof.
  intros (G & S & R) Hu. unfold tail_push. destruct (peaks_push (t_peaks t) x) as [p|] eqn:P; cbn [bind]; [|discriminate]. intros H; injection H as <-. cbn [t_peaks]. intros O.
  destruct (ppush_sim _ _ _ _ _ R Hu P O) as (p' & P' & R'). rewrite P'. cbn [bind]. eexists. split; [reflexivity|]. repeat split; cbn [t_gamma t_sigma t_peaks]; auto; apply R'.
Qed.
Lemma quantile_sim c s t q : trel c (s_tail s) t -> spot_quantile mf (with_tail s t) q = spot_quantile mf s q.
Proof. intros (G & S & _). unfold spot_quantile, tail_quantile. cbn [with_tail s_tail s_Nt s_n s_et s_updown]. rewrite G, S. reflexivity. Qed.
Lemma probability_sim c s t z : trel c (s_tail s) t -> spot_probability mf (with_tail s t) z = spot_probability mf s z.
Proof. intros (G & S & _). unfold spot_probability, tail_probability. cbn [with_tail s_tail s_Nt s_n s_et s_updown]. rewrite G, S. reflexivity. Qed.
Lemma fill_sim c et : forall data s s1 t, trel c (s_tail s) t -> W (win s) -> fit_fill et s data = Ret s1 -> ok c (win s1) ->
  exists t1, fit_fill et (with_tail s t) data = Ret (with_tail s1 t1) /\ trel c (s_tail s1) t1.
Proof.
  induction data as [|x data IH]; intros s s1 t R Hu F O; cbn [fit_fill] in *; [injection F as <-; exists t; split; [reflexivity|exact R]|].
  change (s_updown (with_tail s t)) with (s_updown s). destruct (nlt _ _); [|exact (IH s s1 t R Hu F O)].
  destruct (tail_push (s_tail s) _) as [t1|] eqn:P; cbn [bind] in F; [|discriminate].
  pose proof (fill_M _ _ _ _ F) as MF. pose proof (tpush_M _ _ _ P) as MP.
  destruct (ok_back _ _ _ MF (proj1 (proj2 MP Hu)) O) as (O1 & _).
  destruct (tpush_sim _ _ _ _ _ R Hu P O1) as (t1' & P' & R'). change (s_tail (with_tail s t)) with t. rewrite P'. cbn [bind].
  exact (IH (with_tail (with_counts s (u64 (s_Nt s + 1)) (s_n s)) t1) s1 t1' R' (proj1 (proj2 MP Hu)) F O).
Qed.
Lemma fit_sim c s t data s1 r : trel c (s_tail s) t -> W (win s) -> spot_fit mf s data = Ret (s1, r) -> ok c (win s1) ->
  exists t1, spot_fit mf (with_tail s t) data = Ret (with_tail s1 t1, r) /\ trel c (s_tail s1) t1.
Proof.
  intros R Hu. unfold spot_fit. change (s_low (with_counts (with_tail s t) 0 (Z.of_nat (length data)))) with (s_low (with_counts s 0 (Z.of_nat (length data)))).
  change (s_level (with_counts (with_tail s t) 0 (Z.of_nat (length data)))) with (s_level (with_counts s 0 (Z.of_nat (length data)))).
  destruct (p2_quantile _ data) as [et|]; cbn [bind]; [|discriminate]. destruct (is_nan et).
  { intros H O. injection H as <- <-. exists t. split; [reflexivity|exact R]. }
  destruct (fit_fill et (with_et (with_counts s 0 (Z.of_nat (length data))) et) data) as [s2|] eqn:F; cbn [bind]; [|discriminate].
  destruct (tail_fit mf (s_tail s2)) as [[t2 ll]|] eqn:T; cbn [bind]; [|discriminate].
  destruct (spot_quantile mf (with_tail s2 t2) (s_q (with_tail s2 t2))) as [a|] eqn:Q; cbn [bind]; [|discriminate]. intros H O.
  assert (O2 : ok c (win s2)).
  { apply tfit_peaks in T. unfold win. rewrite <- T. destruct (is_nan a); injection H as <- <-; exact O. }
  destruct (fill_sim c et data (with_et (with_counts s 0 (Z.of_nat (length data))) et) _ t R Hu F O2) as (t1 & F' & R1).
  change (with_et (with_counts (with_tail s t) 0 (Z.of_nat (length data))) et) with (with_tail (with_et (with_counts s 0 (Z.of_nat (length data))) et) t).
  rewrite F'. cbn [bind]. change (s_tail (with_tail s2 t1)) with t1. destruct (fit_eq _ _ _ _ _ R1 T) as (t3 & T' & R3 & _). rewrite T'. cbn [bind].
  change (with_tail (with_tail s2 t1) t3) with (with_tail (with_tail s2 t2) t3). rewrite (quantile_sim c (with_tail s2 t2) t3) by exact R3.
  change (s_q (with_tail (with_tail s2 t2) t3)) with (s_q (with_tail s2 t2)). rewrite Q. cbn [bind].
  destruct (is_nan a); injection H as <- <-; exists t3; (split; [reflexivity|exact R3]).
Qed.
Lemma step_sim c s t x s1 r : trel c (s_tail s) t -> W (win s) -> spot_step mf s x = Ret (s1, r) -> ok c (win s1) ->
  exists t1, spot_step mf (with_tail s t) x = Ret (with_tail s1 t1, r) /\ trel c (s_tail s1) t1.
Proof.
  intros R Hu. unfold spot_step. destruct (is_nan x); [intros H O; injection H as <- <-; exists t; split; [reflexivity|exact R]|].
  change (s_discard (with_tail s t)) with (s_discard s). change (s_updown (with_tail s t)) with (s_updown s). change (s_at (with_tail s t)) with (s_at s).
  destruct (negb (s_discard s =? 0) && _)%bool; [intros H O; injection H as <- <-; exists t; split; [reflexivity|exact R]|].
  cbn [with_counts with_tail s_updown s_et s_tail]. destruct (nle _ _); [|intros H O; injection H as <- <-; exists t; split; [reflexivity|exact R]].
  destruct (tail_push (s_tail s) _) as [t1|] eqn:P; cbn [bind]; [|discriminate]. destruct (tail_fit mf t1) as [[t2 ll]|] eqn:T; cbn [bind]; [|discriminate].
  intros H O. match type of H with bind ?e _ = _ => destruct e as [z|] eqn:Q; cbn [bind] in H; [|discriminate] end. injection H as <- <-.
  assert (O1 : ok c (p_cont (t_peaks t1))) by (apply tfit_peaks in T; rewrite <- T; exact O).
  destruct (tpush_sim _ _ _ _ _ R Hu P O1) as (t1' & P' & R1). rewrite P'. cbn [bind]. destruct (fit_eq _ _ _ _ _ R1 T) as (t3 & T' & R3 & _). rewrite T'. cbn [bind].
  match type of Q with spot_quantile mf ?a ?b = _ => rewrite <- (quantile_sim c a t3 b R3) in Q end. exists t3.
  match goal with |- bind ?e _ = _ /\ _ => assert (Q' : e = Ret z) by exact Q; rewrite Q' end. cbn [bind].
  split; [reflexivity|exact R3].
Qed.
Lemma session_sim c : forall cs s t s1 l, trel c (s_tail s) t -> W (win s) -> session mf s cs = Ret (s1, l) -> ok c (win s1) ->
  exists t1, session mf (with_tail s t) cs = Ret (with_tail s1 t1, l) /\ trel c (s_tail s1) t1.
Proof.
  induction cs as [|k cs IH]; intros s t s1 l R Hu; cbn [session]; [intros H O; injection H as <- <-; exists t; split; [reflexivity|exact R]|].
  destruct (do_call mf s k) as [[s2 a]|] eqn:E; cbn [bind]; [|discriminate]. destruct (session mf s2 cs) as [[s3 l2]|] eqn:E2; cbn [bind]; [|discriminate].
  intros H O; injection H as <- <-. pose proof (call_M _ _ _ _ E) as MC. pose proof (session_M _ _ _ _ E2) as MS.
  pose proof (proj1 (proj2 MC Hu)) as Hu2. destruct (ok_back _ _ _ MS Hu2 O) as (O2 & _).
  assert (C : exists t2, do_call mf (with_tail s t) k = Ret (with_tail s2 t2, a) /\ trel c (s_tail s2) t2).
  { destruct k as [data|x|q|z]; cbn [do_call] in *.
    - destruct (spot_fit mf s data) as [[s4 r]|] eqn:F; cbn [bind] in E; [|discriminate]. injection E as <- <-.
      destruct (fit_sim _ _ _ _ _ _ R Hu F O2) as (t2 & F' & R2). exists t2. rewrite F'. split; [reflexivity|exact R2].
    - destruct (spot_step mf s x) as [[s4 r]|] eqn:F; cbn [bind] in E; [|discriminate]. injection E as <- <-.
      destruct (step_sim _ _ _ _ _ _ R Hu F O2) as (t2 & F' & R2). exists t2. rewrite F'. split; [reflexivity|exact R2].
    - rewrite (quantile_sim _ _ _ _ R). destruct (spot_quantile mf s q); cbn [bind] in *; [|discriminate]. injection E as <- <-. exists t. split; [reflexivity|exact R].
    - rewrite (probability_sim _ _ _ _ R). destruct (spot_probability mf s z); cbn [bind] in *; [|discriminate]. injection E as <- <-. exists t. split; [reflexivity|exact R]. }
  destruct C as (t2 & C & R2). rewrite C. cbn [bind]. destruct (IH _ _ _ _ R2 Hu2 E2 O) as (t3 & S3 & R3). rewrite S3. exists t3. split; [reflexivity|exact R3].
Qed.
End Capacity.
Lemma init_parts {N} old (q : num N) low discard level cap alloc s : spot_init old q low discard level cap alloc = (s, 0) ->
  exists d, alloc (ubend_bytes cap) = Some d /\ s_tail s = MkTail c_nan c_nan (MkPeaks (nofZ 0) (nofZ 0) c_nan c_nan (MkUbend 0 cap c_nan 0 d)) /\
  forall cap' alloc' d', alloc' (ubend_bytes cap') = Some d' ->
    spot_init old q low discard level cap' alloc' = (with_tail s (MkTail c_nan c_nan (MkPeaks (nofZ 0) (nofZ 0) c_nan c_nan (MkUbend 0 cap' c_nan 0 d'))), 0).
Proof.
  unfold spot_init, tail_init, peaks_init, ubend_init. destruct (spot_check q level) as [c|] eqn:C.
  { intros H. exfalso. injection H as _ H. subst c. unfold spot_check in C. repeat (match type of C with (if ?b then _ else _) = _ => destruct b end; try discriminate C). }
  destruct (alloc (ubend_bytes cap)) as [d|]; cbn [Z.ltb Z.compare]; intros H; [|discriminate H]. injection H as <-. exists d. split; [reflexivity|]. split; [reflexivity|].
  intros cap' alloc' d' ->. reflexivity.
Qed.
Lemma until_full {N} (mf : MathFns N) old q low discard level cap alloc s cs s' l cap' alloc' d' :
  1 <= cap < 2 ^ 64 -> cap' < 2 ^ 64 ->
  spot_init old q low discard level cap alloc = (s, 0) -> session mf s cs = Ret (s', l) ->
  peaks_size (t_peaks (s_tail s')) < cap -> peaks_size (t_peaks (s_tail s')) < cap' ->
  alloc' (ubend_bytes cap') = Some d' -> cap' <= Z.of_nat (length d') ->
  exists s0 s1, spot_init old q low discard level cap' alloc' = (s0, 0) /\ session mf s0 cs = Ret (s1, l) /\
    s_q s1 = s_q s' /\ s_level s1 = s_level s' /\ s_discard s1 = s_discard s' /\ s_low s1 = s_low s' /\ s_updown s1 = s_updown s' /\
    s_at s1 = s_at s' /\ s_et s1 = s_et s' /\ s_Nt s1 = s_Nt s' /\ s_n s1 = s_n s' /\
    t_gamma (s_tail s1) = t_gamma (s_tail s') /\ t_sigma (s_tail s1) = t_sigma (s_tail s') /\
    p_e (t_peaks (s_tail s1)) = p_e (t_peaks (s_tail s')) /\ p_e2 (t_peaks (s_tail s1)) = p_e2 (t_peaks (s_tail s')) /\
    p_min (t_peaks (s_tail s1)) = p_min (t_peaks (s_tail s')) /\ p_max (t_peaks (s_tail s1)) = p_max (t_peaks (s_tail s')) /\
    peaks_size (t_peaks (s_tail s1)) = peaks_size (t_peaks (s_tail s')) /\
    forall i, 0 <= i < peaks_size (t_peaks (s_tail s')) ->
      rdcell (u_data (p_cont (t_peaks (s_tail s1)))) i = rdcell (u_data (p_cont (t_peaks (s_tail s')))) i.
Proof.
  intros Hc Hc' I S L L' A D. destruct (init_parts _ _ _ _ _ _ _ _ I) as (d & _ & T & I'). specialize (I' _ _ _ A).
  assert (Hu : W (win s)) by (unfold W, win; rewrite T; cbn [t_peaks p_cont u_cursor u_capacity]; lia).
  pose proof (session_M mf _ _ _ _ S) as (C & MS). destruct (MS Hu) as (Hv & B).
  assert (C2 : u_capacity (p_cont (t_peaks (s_tail s'))) = cap) by (unfold win in C; rewrite C, T; reflexivity).
  assert (O : ok cap' (win s')).
  { unfold peaks_size, ubend_size in L, L'. unfold ok, win. destruct (Z.eqb_spec (u_filled (p_cont (t_peaks (s_tail s')))) 0) as [F|F]; [split; [exact F|exact L']|lia]. }
  assert (Hcur : 0 <= u_cursor (win s')) by apply Hv.
  assert (R : trel cap' (s_tail s) (MkTail c_nan c_nan (MkPeaks (nofZ 0) (nofZ 0) c_nan c_nan (MkUbend 0 cap' c_nan 0 d')))).
  { rewrite T. repeat split; cbn [t_gamma t_sigma t_peaks p_cont u_cursor u_capacity u_filled u_data u_last]; auto; try lia; destruct O; lia. }
  destruct (session_sim mf _ _ _ _ _ _ R Hu S O) as (t1 & S1 & (G & Sg & P)). eexists. exists (with_tail s' t1). split; [exact I'|]. split; [exact S1|].
  do 9 (split; [reflexivity|]). cbn [with_tail s_tail]. split; [exact G|]. split; [exact Sg|]. split; [apply P|]. split; [apply P|]. split; [apply P|]. split; [apply P|].
  split; [exact (psize_eq _ _ _ P)|]. intros i Hi. exact (cells_eq _ _ _ _ (pr_cont _ _ _ P) Hi).
Qed.
