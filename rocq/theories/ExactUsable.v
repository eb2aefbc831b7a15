(** * ExactUsable: in exact arithmetic every refit gives usable parameters (C82) *)
From Coq Require Import ZArith List Bool Lia Reals Lra.
From Flocq Require Import Core.Core.
From Verif Require Import Num NumFacts XMath Ubend UbendFacts Session Peaks PeaksFacts Brent Estimator Tail P2 Spot SpotFacts RNum Spec ExactWindow
  SpotB64 DetectorLemmas WindowLemmas FitEffect HistoryLemmas RefitLemmas TailSpec ExactTail GrimshawExact.
Import ListNotations.
Open Scope Z_scope.

Definition history_r (cap : Z) (s : spot RNum) : Prop :=
  exists blk (hist : list R), Z.of_nat (length blk) = cap /\
    peaks_pushes (N := RNum) (fst (peaks_init (Some blk) cap)) (map Some hist) = Ret (t_peaks (s_tail s)) /\ forall v, In v hist -> (0 <= v)%R.

Lemma le0_some (v : num RNum) : nle (nofZ 0) v = true -> exists r, v = Some r /\ (0 <= r)%R.
Proof. destruct v as [r|]; cbn; [|discriminate]. intros H. exists r. split; [reflexivity|]. apply Rle_bool_true_iff || idtac. revert H. case Rle_bool_spec; [auto|discriminate]. Qed.
Lemma lt0_some (v : num RNum) : nlt (nofZ 0) v = true -> exists r, v = Some r /\ (0 < r)%R.
Proof. destruct v as [r|]; cbn; [|discriminate]. intros H. exists r. split; [reflexivity|]. revert H. case Rlt_bool_spec; [auto|discriminate]. Qed.
Lemma all_some (l : list (num RNum)) (P : R -> Prop) : (forall v, In v l -> exists r, v = Some r /\ P r) -> exists h : list R, l = map Some h /\ forall r, In r h -> P r.
Proof.
  induction l as [|v l IH]; intros H; [exists []; split; [reflexivity|intros r []]|].
  destruct IH as (h & -> & K); [intros w I; apply H; right; exact I|]. destruct (H v (or_introl eq_refl)) as (r & -> & Hr). exists (r :: h). split; [reflexivity|].
  intros r' [<-|I]; [exact Hr|apply K, I].
Qed.

Lemma history_r_call mf cap (s : spot RNum) c s' a : history_r cap s -> do_call mf s c = Ret (s', a) -> history_r cap s'.
Proof.
  intros (blk & hist & HB & HP & HN) H. destruct c as [data|x|q|z]; cbn [do_call] in H.
  - destruct (spot_fit mf s data) as [[s1 r]|] eqn:E; cbn [bind] in H; [|discriminate]. injection H as <- <-.
    apply fit_inv in E. destruct E as [et E Ne -> ->|et s1' t2 ll a' E Ne E2 E3 E4 -> ->].
    + exists blk, hist. auto.
    + pose proof (fit_fill_pushes _ _ _ _ E2) as P. apply tail_fit_peaks in E3.
      destruct (all_some (fit_excesses (with_et (with_counts s 0 (Z.of_nat (length data))) et) et data) (fun r => 0 <= r)%R) as (h & EH & KH).
      { intros v I. apply filter_In in I as (_ & I). apply lt0_some in I as (r & -> & Hr). exists r. split; [reflexivity|lra]. }
      rewrite EH in P. cbn [s_tail with_et with_counts] in P. exists blk, (hist ++ h). split; [exact HB|]. split.
      * rewrite map_app. etransitivity; [exact (peaks_pushes_app (N := RNum) (map Some hist) (map Some h) _ _ HP)|]. cbn [s_tail with_at with_tail]. rewrite E3. exact P.
      * intros v Hv. apply in_app_or in Hv as [Hv|Hv]; auto.
  - destruct (spot_step mf s x) as [[s1 r]|] eqn:E; cbn [bind] in H; [|discriminate]. injection H as <- <-.
    apply step_inv in E. destruct E as [? -> ?|? ? ? -> ?|? ? ? -> ?|t1 t2 ll a' ? ? C E1 E2 E3 -> ?]; try (exists blk, hist; solve [auto]).
    apply le0_some in C as (v & EV & Hv). exists blk, (hist ++ [v]). split; [exact HB|]. split.
    + rewrite map_app. etransitivity; [exact (peaks_pushes_app (N := RNum) (map Some hist) (map Some [v]) _ _ HP)|]. cbn [map peaks_pushes s_tail with_at with_tail]. apply tail_fit_peaks in E2. rewrite E2.
      unfold tail_push in E1. change (num RNum) with xr in *. rewrite EV in E1. destruct (peaks_push (t_peaks (s_tail s)) _) as [p|]; cbn [bind] in E1 |- *; [|discriminate]. injection E1 as <-. reflexivity.
    + intros w Hw. apply in_app_or in Hw as [Hw|[<-|[]]]; auto.
  - destruct (spot_quantile mf s q); cbn [bind] in H; [|discriminate]. injection H as <- _. exists blk, hist; auto.
  - destruct (spot_probability mf s z); cbn [bind] in H; [|discriminate]. injection H as <- _. exists blk, hist; auto.
Qed.
Lemma history_r_lemma mf q low discard level cap (s : spot RNum) : detector mf q low discard level cap s -> history_r cap s.
Proof.
  intros D. pose proof D as (old & blk & s0 & calls & answers & H1 & H2 & H3 & H4).
  eapply (session_invariant mf (history_r cap)); [|clear H4|exact H4].
  - intros; eapply history_r_call; eauto.
  - apply init_fields in H3 as (_ & _ & _ & _ & _ & _ & _ & _ & _ & blk' & A & T). injection A as <-.
    exists blk, []. split; [exact H2|]. split; [|intros v []]. rewrite T. reflexivity.
Qed.

Lemma map_Some_inj {A} (l l' : list A) : map Some l = map Some l' -> l = l'.
Proof. revert l'. induction l as [|x l IH]; intros [|y l'] H; try discriminate; [reflexivity|]. injection H as -> H. f_equal. apply IH, H. Qed.

Open Scope R_scope.
Lemma exact_usable (q : R) low discard level cap (s s' : spot RNum) (w : list R) :
  detector exact_math (Some q : num RNum) low discard level cap s ->
  (exists x, spot_step exact_math s x = Ret (s', EXCESS)) \/
  (exists data r, spot_fit exact_math s data = Ret (s', r) /\ r <> (- ERR_EXCESS_THRESHOLD_IS_NAN)%Z) ->
  (0 < s_Nt s')%Z -> (0 < s_n s')%Z ->
  oldest_first (window s') = map Some (map Some w : list (num RNum)) -> w <> [] -> (forall y, In y w -> 0 < y) ->
  exists et sg g z, real_detector s' et (if (low =? 0)%Z then 1 else -1) sg g /\ (forall y, In y w -> gpd_support g sg y) /\
    gpd_log_likelihood 0 (mean w) w <= gpd_log_likelihood g sg w /\
    s_at s' = Some z /\ spot_quantile exact_math s' (Some q : num RNum) = Ret (Some z).
Proof.
  intros D R H1 H2 W Ne Pos. assert (RF : refit exact_math s s').
  { exact R. }
  pose proof (refit_detector _ _ _ _ _ _ _ _ D RF) as D'. destruct (history_r_lemma _ _ _ _ _ _ _ D') as (blk & hist & HB & HP & HN).
  assert (C : (1 <= cap < 2 ^ 61)%Z) by (destruct D as (? & ? & ? & ? & ? & C & _); exact C).
  assert (WH : w = last_k cap hist).
  { apply map_Some_inj. apply (map_Some_inj (A := xr)). etransitivity; [symmetry; exact W|].
    pose proof (rwindow cap blk hist _ C HB HP) as (RI & _). exact (rep_oldest_first cap _ _ RI). }
  destruct (refit_tail exact_math s s' RF) as (g0 & t0 & ll & TF & Q).
  destruct (C52_fit_lemma cap blk hist (MkTail (N := RNum) g0 t0 (t_peaks (s_tail s')))) as (g & sg & TF' & SG & SP & LL & _); cbn [t_peaks]; try assumption.
  { rewrite <- WH. exact Ne. } { rewrite <- WH. exact Pos. }
  rewrite TF in TF'. injection TF' as ET _. rewrite <- WH in SP, LL.
  apply detector_facts in D' as (Q1 & _ & _ & _ & U & _).
  assert (Hq : 0 < q).
  { destruct D as (? & ? & ? & ? & ? & _ & _ & D & _). unfold spot_init in D. destruct (spot_check _ _) eqn:SC in D.
    - injection D as _ ->. unfold spot_check in SC. destruct (_ || _)%bool in SC; [discriminate|]. destruct (_ || _)%bool in SC; discriminate.
    - unfold spot_check in SC. destruct (_ || _)%bool in SC; [discriminate|]. destruct (_ || _)%bool eqn:OB in SC; [discriminate|].
      apply orb_false_iff in OB as (_ & OB). cbn in OB. revert OB. case Rle_bool_spec; [discriminate|auto]. }
  assert (E : exists et, s_et s' = Some et).
  { destruct R as [(x & R)|(data & r & R & Hr)].
    - apply step_inv in R. destruct R as [? ? X|? ? ? ? X|? ? ? ? X|t1 t2 l2 a ? ? X _ _ _ -> ?]; try discriminate.
      cbn [s_et with_at with_tail with_counts]. destruct (s_et s) as [e|]; [exists e; reflexivity|]. exfalso. revert X. cbn. destruct x; cbn; destruct (s_updown s); discriminate.
    - apply fit_inv in R. destruct R as [e X Y -> Z0|e s1 t2 l2 a X Y FF _ _ -> Z0]; [contradiction|].
      apply fit_fill_frame in FF as (FF & _). rewrite FF. cbn [s_et with_at with_tail with_counts with_et]. destruct e as [e|]; [exists e; reflexivity|discriminate]. } destruct E as (et & E).
  assert (RD : real_detector s' et (if (low =? 0)%Z then 1 else -1) sg g).
  { split; [exact E|]. split; [rewrite U; destruct (low =? 0)%Z; reflexivity|]. split; [destruct (low =? 0)%Z; auto|]. rewrite ET. repeat split; assumption. }
  exists et, sg, g. rewrite Q1 in Q. rewrite (quantile_eq _ _ _ _ _ RD q Hq) in Q |- *. injection Q as Q. eexists. split; [exact RD|]. split; [exact SP|]. split; [exact LL|]. split; [symmetry; exact Q|reflexivity].
Qed.

Lemma exact_fit_code (q : R) low discard level cap (s s' : spot RNum) data r (w : list R) :
  detector exact_math (Some q : num RNum) low discard level cap s -> spot_fit exact_math s data = Ret (s', r) -> r <> (- ERR_EXCESS_THRESHOLD_IS_NAN)%Z ->
  (0 < s_Nt s')%Z -> (0 < s_n s')%Z ->
  oldest_first (window s') = map Some (map Some w : list (num RNum)) -> w <> [] -> (forall y, In y w -> 0 < y) -> r = 0%Z.
Proof.
  intros D F Hr H1 H2 W Ne Pos.
  destruct (exact_usable q low discard level cap s s' w D (or_intror (ex_intro _ data (ex_intro _ r (conj F Hr)))) H1 H2 W Ne Pos) as (et & sg & g & z & _ & _ & _ & Z0 & _).
  apply fit_inv in F. destruct F as [e X Y _ ->|e s1 t2 l2 a X Y _ _ _ -> ->]; [contradiction|]. cbn [s_at with_at] in Z0. rewrite Z0, is_nan_R. reflexivity.
Qed.
