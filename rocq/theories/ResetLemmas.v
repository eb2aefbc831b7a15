(** * ResetLemmas: proofs for C98 (evicting an extreme forgets the past) *)
From Coq Require Import ZArith List Bool Reals Lia Lra Permutation.
From Flocq Require Import Core.Core IEEE754.BinarySingleNaN.
From Verif Require Import Num XMath Ubend Peaks Brent Estimator Tail P2 Spot Session B64 Spec NumFacts UbendFacts PeaksFacts B64Facts SpotFacts SpotB64
  DetectorLemmas WindowLemmas FitEffect HistoryLemmas RefitLemmas ExactWindow.
Import ListNotations.
Open Scope Z_scope.

(** the sums recomputed from the cells; only the last square remains *)
Definition fresh (p : peaks B64) (w : list b64) : Prop :=
  cells (p_cont p) = map Some w /\ p_e p = fold_left b64_plus w (b64_ofZ 0) /\ p_e2 p = b64_mult (last w (b64_ofZ 0)) (last w (b64_ofZ 0)).
Lemma fold_fresh : forall (w : list b64) (a : stats (N := B64)),
  fst (fst (fst (fold_left (stats_turn (N := B64)) w a))) = fold_left b64_plus w (fst (fst (fst a))) /\
  (w <> [] -> snd (fst (fst (fold_left (stats_turn (N := B64)) w a))) = b64_mult (last w (b64_ofZ 0)) (last w (b64_ofZ 0))).
Proof.
  induction w as [|y w IH]; intros a; cbn [fold_left]; [split; [reflexivity|intros []; reflexivity]|].
  destruct (IH (stats_turn (N := B64) a y)) as (A & B). rewrite A. destruct a as [[[e e2] mn] mx]. split; [reflexivity|]. intros _.
  destruct w as [|z w]; [reflexivity|]. rewrite B by discriminate. reflexivity.
Qed.
Lemma reset_push cap (p p' : peaks B64) v l x : rep cap (p_cont p) (v :: l) -> Z.of_nat (length (v :: l)) = cap ->
  (forall y, In y (v :: l) -> nan64 y = false) -> minmax_ok p (v :: l) ->
  (forall y, In y (l ++ [x]) -> b64_leb v y = true) \/ (forall y, In y (l ++ [x]) -> b64_leb y v = true) ->
  peaks_push p x = Ret p' -> exists w, fresh p' w.
Proof.
  intros R LC NN M EX E. destruct (peaks_push_eq cap p (v :: l) x R) as (c & w & EQ). cbv zeta in EQ. destruct EQ as (_ & R' & C & W & SZ & E').
  rewrite E in E'. clear E. assert (X : Z.of_nat (length (v :: l)) <? cap = false) by (apply Z.ltb_ge; lia).
  change (num B64) with b64 in *. unfold qpush in W. rewrite X in *. cbn [hd tl] in *.
  assert (NV : @is_nan B64 v = false) by (rewrite is_nan_b64; apply NN; left; reflexivity). rewrite NV in E'.
  assert (VV : b64_leb v v = true) by (specialize (NN v (or_introl eq_refl)); rewrite leb_xval by assumption; apply Rle_bool_true; apply Rle_refl).
  destruct (M ltac:(discriminate)) as ((M1 & _) & (M2 & _)).
  assert (K : (@nle B64 v (push_mn p (Z.of_nat (length w)) x) || @nle B64 (push_mx p (Z.of_nat (length w)) x) v)%bool = true).
  { change (@nle B64) with b64_leb. apply orb_true_iff. destruct EX as [EX|EX]; [left|right].
    - unfold push_mn. match goal with |- context [if ?b then x else _] => destruct b end; [apply EX, in_or_app; right; left; reflexivity|]. destruct M1 as [M1|M1]; [rewrite <- M1; exact VV|apply EX, in_or_app; left; exact M1].
    - unfold push_mx. match goal with |- context [if ?b then x else _] => destruct b end; [apply EX, in_or_app; right; left; reflexivity|]. destruct M2 as [M2|M2]; [rewrite <- M2; exact VV|apply EX, in_or_app; left; exact M2]. }
  rewrite K in E'.
  assert (RI : forall a b : peaks B64, Ret a = Ret b -> a = b) by (intros a b H; injection H; auto). apply RI in E'. subst p'.
  exists w. destruct (fold_fresh w (nofZ 0, nofZ 0, c_nan, c_nan)) as (A & B). change (fold_left (stats_turn (N := B64)) w (nofZ 0, nofZ 0, c_nan, c_nan)) with (stats_of (N := B64) w) in A, B.
  assert (NW : w <> []) by (intros ->; apply Permutation_length in W; rewrite app_length in W; cbn in W; lia). specialize (B NW).
  unfold set_stats. destruct (stats_of (N := B64) w) as [[[e e2] mn] mx]. cbn [fst snd] in A, B. split; [exact (cells_prep (N := B64) c w C SZ)|]. split; [exact A|exact B].
Qed.
Lemma det_minmax mf q low discard level cap (s : spot B64) : detector mf q low discard level cap s ->
  exists l : list b64, rep cap (window s) l /\ (forall y, In y l -> nan64 y = false) /\ minmax_ok (t_peaks (s_tail s)) l.
Proof.
  intros D. destruct (history_lemma _ _ _ _ _ _ _ D) as (blk & hist & HB & HP & HN).
  assert (C : 1 <= cap < 2 ^ 61) by (destruct D as (? & ? & ? & ? & ? & C & _); exact C).
  pose proof (rep_init (N := B64) cap blk C HB) as R.
  destruct (peaks_pushes_minmax cap (fst (peaks_init (Some blk) cap)) [] hist) as (p & E & R' & M).
  - exact R.
  - intros y Hy. rewrite <- is_NaN_eq. apply HN. exact Hy.
  - intros X. exfalso. apply X. reflexivity.
  - rewrite HP in E. injection E as <-. cbn [app] in *. exists (last_k cap hist). split; [exact R'|]. split; [|exact M].
    intros y Y. rewrite <- is_NaN_eq. apply HN. eapply lastn_incl. exact Y.
Qed.
Lemma reset_step mf q low discard level cap (s s' : spot B64) x v rest : detector mf q low discard level cap s ->
  spot_step mf s x = Ret (s', EXCESS) -> oldest_first (window s) = Some v :: rest -> Z.of_nat (length (oldest_first (window s))) = cap ->
  (forall y, In (Some y) (oldest_first (window s')) -> b64_leb v y = true) \/ (forall y, In (Some y) (oldest_first (window s')) -> b64_leb y v = true) ->
  exists w, fresh (t_peaks (s_tail s')) w.
Proof.
  intros D E O LC EX. destruct (det_minmax _ _ _ _ _ _ _ D) as (l & R & NN & M). rewrite (rep_oldest_first cap _ _ R) in O, LC.
  destruct l as [|v' l]; [discriminate O|]. cbn [map] in O. injection O as -> <-. rewrite map_length in LC.
  apply step_inv in E. destruct E as [? ? E|? ? ? ? E|? ? ? ? E|t1 t2 ll a ? ? ? E1 E2 E3 -> ?]; try discriminate.
  pose proof (tail_fit_peaks _ _ _ _ E2) as P. unfold window in EX. cbn [s_tail with_at with_tail] in *. rewrite P in *.
  unfold tail_push in E1. destruct (peaks_push (t_peaks (s_tail s)) _) as [p'|] eqn:E4; cbn [bind] in E1; [|discriminate]. injection E1 as <-. cbn [t_peaks] in *.
  destruct (peaks_push_rep cap _ _ (nmul (s_updown s) (nsub x (s_et s))) R) as (p2 & E5 & R5). rewrite E4 in E5. injection E5 as <-.
  rewrite (rep_oldest_first cap _ _ R5) in EX. unfold qpush in EX. assert (X : Z.of_nat (length (v :: l)) <? cap = false) by (apply Z.ltb_ge; change (num B64) with b64 in *; lia).
  change (num B64) with b64 in *. rewrite X in EX. cbn [tl] in EX.
  refine (reset_push cap _ _ v l _ R LC NN M _ E4). destruct EX as [EX|EX]; [left|right]; intros y Y; apply EX; apply in_map; exact Y.
Qed.
Lemma reset_infinite mf q low discard level cap (s s' : spot B64) x rest : detector mf q low discard level cap s ->
  spot_step mf s x = Ret (s', EXCESS) -> oldest_first (window s) = Some (B754_infinity false : b64) :: rest -> Z.of_nat (length (oldest_first (window s))) = cap ->
  exists w, fresh (t_peaks (s_tail s')) w.
Proof.
  intros D E O LC. apply (reset_step _ _ _ _ _ _ _ _ _ _ _ D E O LC). right. intros y Y.
  assert (D' : detector mf q low discard level cap s') by (eapply (detector_call _ _ _ _ _ _ _ (CStep x)); [exact D|cbn [do_call]; rewrite E; reflexivity]).
  destruct (det_minmax _ _ _ _ _ _ _ D') as (l & R & NN & _). rewrite (rep_oldest_first cap _ _ R) in Y. apply in_map_iff in Y as (z & Z & Y). injection Z as ->.
  specialize (NN y Y). destruct y as [[|]|[|]| |[|]]; try discriminate NN; reflexivity.
Qed.
