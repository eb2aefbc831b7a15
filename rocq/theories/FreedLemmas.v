(** * FreedLemmas: proofs for C96 *)
From stdpp Require Import gmap.
From Coq Require Import ZArith List Bool Lia.
From Flocq Require Import IEEE754.BinarySingleNaN.
From Verif Require Import Num XMath Ubend Peaks Brent Estimator Tail P2 Spot B64 Heap PeaksFacts P2Facts WindowLemmas Spec DetectorLemmas SpotB64 LogAcc FreedSpec.
Import ListNotations.
Open Scope Z_scope.

Notation nan := (B754_nan : b64).
Lemma mulN_l (x : b64) : b64_mult nan x = nan. Proof. destruct x; reflexivity. Qed.
Lemma mulN_r (x : b64) : b64_mult x nan = nan. Proof. destruct x; reflexivity. Qed.
Lemma addN_l (x : b64) : b64_plus nan x = nan. Proof. destruct x; reflexivity. Qed.
Lemma addN_r (x : b64) : b64_plus x nan = nan. Proof. destruct x; reflexivity. Qed.
Lemma subN_l (x : b64) : b64_minus nan x = nan. Proof. destruct x; reflexivity. Qed.
Lemma subN_r (x : b64) : b64_minus x nan = nan. Proof. destruct x; reflexivity. Qed.
Lemma divN_l (x : b64) : b64_div nan x = nan. Proof. destruct x; reflexivity. Qed.
Lemma divN_r (x : b64) : b64_div x nan = nan. Proof. destruct x; reflexivity. Qed.

Section Freed.
Variable fu : FloatUtils B64.
Let mf := c_math fu.
Lemma exp_nan : m_exp mf nan = Ret nan. Proof. reflexivity. Qed.
Lemma pow_nan_l (y : b64) : m_pow mf nan y = Ret nan.
Proof. change (m_pow mf nan y) with (xexp (N := B64) fu (b64_mult y (xlog (N := B64) fu nan))). rewrite xlog_nan_or_negative by (left; reflexivity). rewrite mulN_r. reflexivity. Qed.
Lemma pow_nan_r (x : b64) : m_pow mf x nan = Ret nan.
Proof. change (m_pow mf x nan) with (xexp (N := B64) fu (b64_mult nan (xlog (N := B64) fu x))). rewrite mulN_l. reflexivity. Qed.

(** the shape and the scale that can be in a freed detector *)
Definition void (g s : num B64) : Prop := (g = nan \/ b64_eqb g (b64_ofZ 0) = true) /\ s = nan.
Definition dead_peaks (p : peaks B64) : Prop := p_e p = nan /\ u_capacity (p_cont p) = 0 /\ u_filled (p_cont p) = -1.
Lemma dead_size p : dead_peaks p -> peaks_size p = 0.
Proof. intros (_ & C & F). unfold peaks_size, ubend_size. rewrite F. exact C. Qed.
Lemma dead_mean p : dead_peaks p -> peaks_mean p = nan.
Proof. intros (E & _). unfold peaks_mean. rewrite E. apply divN_l. Qed.
Lemma dead_ll p g s : dead_peaks p -> exists l, log_likelihood mf p g s = Ret l.
Proof. intros D. pose proof (dead_size p D) as Z. unfold peaks_size in Z. unfold log_likelihood. cbv zeta. rewrite Z. destruct (neq _ _); eexists; reflexivity. Qed.
Lemma dead_w p x : dead_peaks p -> exists y, grimshaw_w mf p x = Ret y.
Proof. intros D. unfold grimshaw_w. cbv zeta. rewrite (dead_size p D). eexists; reflexivity. Qed.
Lemma dead_v p x : dead_peaks p -> grimshaw_v mf p x = Ret nan.
Proof. intros D. unfold grimshaw_v. cbv zeta. rewrite (dead_size p D). reflexivity. Qed.
Lemma dead_gsll p x : dead_peaks p -> exists (ll g s : num B64), grimshaw_simplified_log_likelihood mf x p = Ret (ll, g, s) /\ void g s.
Proof.
  intros D. unfold grimshaw_simplified_log_likelihood. destruct (neq x _); cbn [bind].
  - rewrite (dead_mean p D). destruct (dead_ll p (nofZ 0) nan D) as (l & ->). cbn [bind]. eexists _, _, _. split; [reflexivity|]. split; [right; reflexivity|reflexivity].
  - rewrite (dead_v p x D). cbn [bind]. cbv zeta. change (@nsub B64) with b64_minus. rewrite subN_l.
    change (@ndiv B64) with b64_div. rewrite divN_l.
    destruct (dead_ll p nan nan D) as (l & ->). cbn [bind]. eexists _, _, _. split; [reflexivity|]. split; [left; reflexivity|reflexivity].
Qed.
Lemma dead_better p (ll g s : num B64) c : dead_peaks p -> void g s -> exists (ll' g' s' : num B64), grimshaw_better mf p (ll, g, s) c = Ret (ll', g', s') /\ void g' s'.
Proof.
  intros D V. destruct c as [[|] root]; unfold grimshaw_better.
  - destruct (dead_gsll p root D) as (l & g' & s' & -> & V'). cbn [bind]. destruct (nlt _ _); eauto 10.
  - eauto 10.
Qed.
Lemma dead_grimshaw p : dead_peaks p -> exists (ll g s : num B64), grimshaw_estimator mf p = Ret (ll, g, s) /\ void g s.
Proof.
  intros D. unfold grimshaw_estimator. cbv zeta.
  pose proof (fun x => dead_w p x D) as F.
  match goal with |- context [brent (grimshaw_w mf p) ?a ?b ?t] => destruct (brent_total _ F a b t) as [r1 ->] end. cbn [bind].
  match goal with |- context [brent (grimshaw_w mf p) ?a ?b ?t] => destruct (brent_total _ F a b t) as [r2 ->] end. cbn [bind].
  destruct (dead_gsll p (nofZ 0) D) as (l0 & g0 & s0 & -> & V0). cbn [bind].
  destruct (dead_better p l0 g0 s0 r1 D V0) as (l1 & g1 & s1 & -> & V1). cbn [bind]. exact (dead_better p l1 g1 s1 r2 D V1).
Qed.
Lemma dead_mom p : dead_peaks p -> exists (ll g s : num B64), mom_estimator mf p = Ret (ll, g, s) /\ void g s.
Proof.
  intros D. unfold mom_estimator. cbv zeta. rewrite (dead_mean p D).
  change (@nmul B64) with b64_mult. change (@ndiv B64) with b64_div. change (@nsub B64) with b64_minus. change (@nadd B64) with b64_plus.
  rewrite !mulN_l, !divN_l. rewrite ?addN_r, ?subN_r, ?mulN_r. destruct (dead_ll p nan nan D) as (l & ->). cbn [bind].
  eexists _, _, _. split; [reflexivity|]. split; [left|]; reflexivity.
Qed.
Lemma dead_fit (t : tail B64) : dead_peaks (t_peaks t) -> void (t_gamma t) (t_sigma t) ->
  exists t' l, tail_fit mf t = Ret (t', l) /\ t_peaks t' = t_peaks t /\ void (t_gamma t') (t_sigma t').
Proof.
  intros D V. unfold tail_fit, ESTIMATORS. cbn [tail_fit_loop].
  destruct (dead_mom _ D) as (l1 & g1 & s1 & -> & V1). cbn [bind].
  destruct (dead_grimshaw _ D) as (l2 & g2 & s2 & G & V2).
  destruct (_ || _)%bool; cbn [t_peaks]; rewrite G; cbn [bind]; destruct (_ || _)%bool; eexists _, _; (split; [reflexivity|]); split; try reflexivity; assumption.
Qed.

Definition dead (s : spot B64) : Prop := s_q s = nan /\ s_updown s = nan /\ dead_peaks (t_peaks (s_tail s)) /\ void (t_gamma (s_tail s)) (t_sigma (s_tail s)).
Lemma dead_quantile s q : dead s -> spot_quantile mf s q = Ret nan.
Proof.
  intros (_ & U & _ & G & S). unfold spot_quantile, tail_quantile. cbv zeta. rewrite U, S.
  change (@neq B64) with b64_eqb. change (@nopp B64) with b64_opp.
  change (@nofZ B64 0) with (b64_ofZ 0). destruct (b64_eqb (t_gamma (s_tail s)) (b64_ofZ 0)) eqn:E; cbn [bind].
  - change (@nadd B64) with b64_plus. change (@nmul B64) with b64_mult. rewrite !mulN_l, addN_r. reflexivity.
  - destruct G as [G|G]; [|congruence]. rewrite G. change (b64_opp nan) with nan. rewrite pow_nan_r. cbn [bind].
    change (@nadd B64) with b64_plus. change (@nmul B64) with b64_mult. rewrite !mulN_l, addN_r. reflexivity.
Qed.
Lemma dead_probability s z : dead s -> spot_probability mf s z = Ret nan.
Proof.
  intros (_ & U & _ & G & S). unfold spot_probability, tail_probability. cbv zeta. rewrite U, S.
  change (@neq B64) with b64_eqb. change (@nopp B64) with b64_opp. change (@ndiv B64) with b64_div. change (@nadd B64) with b64_plus. change (@nmul B64) with b64_mult.
  rewrite !mulN_l, ?divN_r, addN_r. destruct (b64_eqb _ _).
  - rewrite exp_nan. cbn [bind]. rewrite mulN_r. reflexivity.
  - rewrite pow_nan_l. cbn [bind]. rewrite mulN_r. reflexivity.
Qed.
Lemma dead_step s x : dead s -> exists s', spot_step mf s x = Ret (s', if is_NaN x then -1005 else NORMAL) /\ dead s' /\ get_data s' = get_data s.
Proof.
  intros (Q & U & D & V). unfold spot_step. rewrite is_NaN_model. destruct (is_NaN x).
  - exists s. repeat split; assumption || apply D || apply V.
  - cbv zeta. cbn [s_updown s_et with_counts]. rewrite U. change (@nmul B64) with b64_mult. rewrite !mulN_l.
    change (@nlt B64 (nofZ 0) nan) with false. change (@nle B64 (nofZ 0) nan) with false. rewrite andb_false_r.
    eexists. split; [reflexivity|]. repeat split; assumption || apply D || apply V.
Qed.
Lemma dead_fill et : forall data s, dead s -> fit_fill (N := B64) et s data = Ret s.
Proof.
  induction data as [|x data IH]; intros s D; cbn [fit_fill]; [reflexivity|]. cbv zeta. destruct D as (Q & U & D). rewrite U at 1.
  change (@nmul B64) with b64_mult. rewrite mulN_l. change (@nlt B64 (nofZ 0) nan) with false. apply IH. repeat split; assumption || apply D.
Qed.
Lemma dead_spot_fit s data : dead s -> exists s' c, spot_fit mf s data = Ret (s', c) /\ (c = -1003 \/ c = -1004) /\ dead s' /\ get_data s' = get_data s.
Proof.
  intros (Q & U & D & V). unfold spot_fit. cbv zeta.
  match goal with |- context [p2_quantile ?p data] => destruct (C23_lemma p data) as (et & E) end.
  change (num B64) with b64 in *. rewrite E. cbn [bind]. destruct (@is_nan B64 et).
  - eexists _, _. split; [reflexivity|]. split; [left; reflexivity|]. repeat split; assumption || apply D || apply V.
  - rewrite dead_fill by (repeat split; assumption || apply D || apply V). cbn [bind].
    cbn [s_tail with_et with_counts]. destruct (dead_fit (s_tail s) D V) as (t' & l & -> & P & V'). cbn [bind].
    match goal with |- context [spot_quantile mf ?a _] => set (s1 := a) end.
    assert (D1 : dead s1) by (unfold s1; repeat split; cbn [s_q s_updown s_tail with_tail with_et with_counts]; rewrite ?P; assumption || apply D || apply V').
    rewrite (dead_quantile s1 _ D1). cbn [bind]. change (@is_nan B64 nan) with true. eexists _, _. split; [reflexivity|]. split; [right; reflexivity|].
    split; [destruct D1 as (? & ? & ? & ?); repeat split; assumption || apply H1 || apply H2|]. unfold get_data. cbn. rewrite P. reflexivity.
Qed.
End Freed.

(** ** In the world *)
Definition dead_inst (w : world B64) (i : Z) : Prop := dead (cs_spot (w_inst w i)).
Lemma dead_load (w : world B64) i : dead_inst w i -> dead (load (w_heap w) (w_inst w i)).
Proof. intros (Q & U & D & V). unfold load, set_data. repeat split; cbn; assumption || apply D || apply V. Qed.
Lemma store_deref (h : heap B64) p : store_data h p (deref h p) = h.
Proof. unfold store_data, deref. destruct p as [a|]; [|reflexivity]. destruct (h !! a) eqn:E; [|reflexivity]. unfold heap in *. apply (insert_id (M := gmap Z)). exact E. Qed.
Lemma get_load (h : heap B64) c : get_data (load h c) = deref h (cs_data c).
Proof. reflexivity. Qed.

Lemma freed_use (w : world B64) i o : dead_inst w i -> uses i o ->
  exists w' a, w_step w o = Ret (w', a) /\ answer_of_freed o a /\ w_heap w' = w_heap w /\ w_log w' = w_log w /\
    (forall j, j <> i -> w_inst w' j = w_inst w j) /\ dead_inst w' i.
Proof.
  intros D U. pose proof (dead_load w i D) as L.
  destruct o as [m f|l f|j q low disc level cap|j data|j x|j q|j z|j]; cbn [uses] in U; try contradiction; subst j; cbn [w_step].
  - destruct (dead_spot_fit (w_utils w) _ data L) as (s' & c & E & C & D' & G). unfold w_math. rewrite E. cbn [bind].
    eexists _, _. split; [reflexivity|]. split; [cbn [answer_of_freed]; destruct C as [-> | ->]; auto|].
    unfold w_store. cbn [w_heap w_log w_inst]. split; [rewrite G, get_load; apply store_deref|]. split; [reflexivity|].
    split; [intros j J; unfold set_inst; apply Z.eqb_neq in J; rewrite J; reflexivity|]. unfold dead_inst. cbn [w_inst]. unfold set_inst. rewrite Z.eqb_refl. exact D'.
  - destruct (dead_step (w_utils w) _ x L) as (s' & E & D' & G). unfold w_math. rewrite E. cbn [bind].
    eexists _, _. split; [reflexivity|]. split; [reflexivity|].
    unfold w_store. cbn [w_heap w_log w_inst]. split; [rewrite G, get_load; apply store_deref|]. split; [reflexivity|].
    split; [intros j J; unfold set_inst; apply Z.eqb_neq in J; rewrite J; reflexivity|]. unfold dead_inst. cbn [w_inst]. unfold set_inst. rewrite Z.eqb_refl. exact D'.
  - unfold w_math. rewrite (dead_quantile (w_utils w) _ q L). cbn [bind]. eexists _, _. split; [reflexivity|]. repeat split; try reflexivity; apply D.
  - unfold w_math. rewrite (dead_probability (w_utils w) _ z L). cbn [bind]. eexists _, _. split; [reflexivity|]. repeat split; try reflexivity; apply D.
Qed.
Lemma other_use (w : world B64) i o w' a : ~ revives i o -> ~ uses i o -> w_step w o = Ret (w', a) -> w_inst w' i = w_inst w i.
Proof.
  assert (S : forall w j s, j <> i -> set_inst (N := B64) w j s i = w_inst w i) by (intros w0 j s J; unfold set_inst; destruct (Z.eqb_spec i j); [congruence|reflexivity]).
  destruct o as [m f|l f|j q low disc level cap|j data|j x|j q|j z|j]; cbn [uses revives w_step]; intros R U H.
  - injection H as <- _. reflexivity.
  - injection H as <- _. reflexivity.
  - unfold w_init in H. destruct (spot_check q level); [injection H as <- _; reflexivity|]. destruct (xmalloc _ _) as [[h p] ev]. destruct (spot_init _ _ _ _ _ _ _) as [s r].
    injection H as <- _. cbn [w_inst]. apply S. exact R.
  - destruct (spot_fit _ _ _) as [[s r]|]; cbn [bind] in H; [|discriminate H]. injection H as <- _. apply S. exact U.
  - destruct (spot_step _ _ _) as [[s r]|]; cbn [bind] in H; [|discriminate H]. injection H as <- _. apply S. exact U.
  - destruct (spot_quantile _ _ _); cbn [bind] in H; [|discriminate H]. injection H as <- _. reflexivity.
  - destruct (spot_probability _ _ _); cbn [bind] in H; [|discriminate H]. injection H as <- _. reflexivity.
  - destruct (w_free_spot w j) as [w1|] eqn:F; cbn [bind] in H; [|discriminate H]. injection H as <- _. unfold w_free_spot in F.
    destruct (cs_data (w_inst w j)); [destruct (xfree _ _) as [[h ev]|]; cbn [bind] in F; [|discriminate F]|]; injection F as <-; cbn [w_inst]; apply S; exact R.
Qed.
Lemma uses_dec i o : {uses i o} + {~ uses i o}.
Proof. destruct o; cbn [uses]; try (right; tauto); apply Z.eq_dec. Qed.
Lemma dead_run i : forall ops w w' outs, dead_inst w i -> (forall o, In o ops -> ~ revives i o) -> w_run w ops = Ret (w', outs) -> dead_inst w' i.
Proof.
  induction ops as [|o ops IH]; intros w w' outs D R H; cbn [w_run] in H; [injection H as <- _; exact D|].
  destruct (w_step w o) as [[w1 a]|] eqn:E; cbn [bind] in H; [|discriminate H]. destruct (w_run w1 ops) as [[w2 l]|] eqn:E2; cbn [bind] in H; [|discriminate H].
  injection H as <- _. refine (IH w1 w2 l _ (fun o I => R o (or_intror I)) E2).
  destruct (uses_dec i o) as [U|U].
  - destruct (freed_use w i o D U) as (w1' & a' & E' & _ & _ & _ & _ & D'). rewrite E in E'. injection E' as <- _. exact D'.
  - unfold dead_inst. rewrite (other_use w i o w1 a (R o (or_introl eq_refl)) U E). exact D.
Qed.
Lemma freed_dead (w : world B64) i w' r : w_step w (OFree i) = Ret (w', r) -> dead_inst w' i.
Proof.
  cbn [w_step]. destruct (w_free_spot w i) as [w1|] eqn:F; cbn [bind]; [|discriminate]. intros H. injection H as <- _. unfold w_free_spot in F.
  assert (S : forall s, set_inst (N := B64) w i s i = s) by (intros s; unfold set_inst; rewrite Z.eqb_refl; reflexivity).
  assert (D : dead (spot_free (cs_spot (w_inst w i)))) by (repeat split; try reflexivity; left; reflexivity).
  destruct (cs_data (w_inst w i)); [destruct (xfree _ _) as [[h ev]|]; cbn [bind] in F; [|discriminate F]|]; injection F as <-; unfold dead_inst; cbn [w_inst]; rewrite S; exact D.
Qed.
Lemma after_free (w : world B64) i w1 r ops w2 outs o : w_step w (OFree i) = Ret (w1, r) -> (forall o, In o ops -> ~ revives i o) ->
  w_run w1 ops = Ret (w2, outs) -> uses i o ->
  exists w3 a, w_step w2 o = Ret (w3, a) /\ answer_of_freed o a /\ w_heap w3 = w_heap w2 /\ w_log w3 = w_log w2 /\ forall j, j <> i -> w_inst w3 j = w_inst w2 j.
Proof.
  intros F R H U. destruct (freed_use w2 i o (dead_run i ops w1 w2 outs (freed_dead w i w1 r F) R H) U) as (w3 & a & E & A & B & C & I & _).
  exists w3, a. auto.
Qed.
Lemma freed_fields (w : world B64) i w1 r : w_step w (OFree i) = Ret (w1, r) ->
  let s := cs_spot (w_inst w1 i) in let t := s_tail s in let p := t_peaks t in
  (forall x, In x [s_q s; s_level s; s_at s; s_et s; t_gamma t; t_sigma t; p_e p; p_e2 p; p_min p; p_max p; u_last (p_cont p)] -> x = (B754_nan : b64)) /\
  s_Nt s = 0 /\ s_n s = 0 /\ u_cursor (p_cont p) = 0 /\ u_capacity (p_cont p) = 0 /\ cs_data (w_inst w1 i) = cs_data (w_inst w i).
Proof.
  cbn [w_step]. destruct (w_free_spot w i) as [w2|] eqn:F; cbn [bind]; [|discriminate]. intros H. injection H as <- _. unfold w_free_spot in F.
  assert (S : forall s, set_inst (N := B64) w i s i = s) by (intros s; unfold set_inst; rewrite Z.eqb_refl; reflexivity).
  assert (I : w_inst w2 i = MkCspot (spot_free (cs_spot (w_inst w i))) (cs_data (w_inst w i))).
  { destruct (cs_data (w_inst w i)); [destruct (xfree _ _) as [[h ev]|]; cbn [bind] in F; [|discriminate F]|]; injection F as <-; cbn [w_inst]; apply S. }
  rewrite I. cbv zeta. split; [|repeat split]. intros x H. cbn [In] in H. repeat (destruct H as [<-|H]; [reflexivity|]). contradiction.
Qed.
