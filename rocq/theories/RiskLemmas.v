(** * RiskLemmas: two detectors that differ by their risk only (C79) *)
From Coq Require Import ZArith List Bool Lia Reals Lra.
From Flocq Require Import Core.Core.
From Verif Require Import Num NumFacts XMath Ubend Session Peaks Brent Estimator Tail P2 Spot SpotFacts RNum Spec TailSpec ExactTail RefitLemmas DetectorLemmas RiskSpec.
Import ListNotations.
Open Scope Z_scope.

Section Risk.
Context {N : NumOps}.
Variable mf : MathFns N.
Definition other (s : spot N) (q a : num N) : spot N :=
  MkSpot q (s_level s) (s_discard s) (s_low s) (s_updown s) a (s_et s) (s_Nt s) (s_n s) (s_tail s).
Lemma same_other (s t : spot N) : same_but_q s t -> t = other s (s_q t) (s_at t).
Proof. destruct s, t. unfold same_but_q, other. cbn. intros (-> & -> & -> & -> & -> & -> & -> & ->). reflexivity. Qed.
Lemma other_same (s : spot N) q a : same_but_q s (other s q a).
Proof. repeat split. Qed.
Lemma fill_other et data : forall (s : spot N) q a, fit_fill et (other s q a) data = (s1 <- fit_fill et s data ;; Ret (other s1 q a)).
Proof.
  induction data as [|x data IH]; intros s q a; [reflexivity|]. cbn [fit_fill]. cbv zeta. cbn [other s_updown s_tail s_Nt s_n].
  destruct (nlt (nofZ 0) (nmul (s_updown s) (nsub x et))) eqn:E; [|apply IH].
  destruct (tail_push (s_tail s) (nmul (s_updown s) (nsub x et))) as [t|w]; cbn [bind]; [|reflexivity]. rewrite <- IH. reflexivity.
Qed.
Lemma quantile_other (s : spot N) q a p : spot_quantile mf (other s q a) p = spot_quantile mf s p.
Proof. reflexivity. Qed.
Lemma fill_q et data : forall (s s1 : spot N), fit_fill et s data = Ret s1 -> s_q s1 = s_q s /\ s_n s1 = s_n s.
Proof.
  induction data as [|x data IH]; intros s s1; cbn [fit_fill]; [intros H; injection H as <-; auto|]. cbv zeta.
  destruct (nlt _ _); [|apply IH]. destruct (tail_push _ _) as [t|]; cbn [bind]; [|discriminate]. intros H. apply IH in H. exact H.
Qed.

(** the anomaly thresholds are the quantiles of the two risks in one common earlier state *)
Definition twins (a b : spot N) (k : Z) : Prop :=
  same_but_q a b /\ 0 < k <= s_n a /\
  spot_quantile mf (with_counts a (s_Nt a) k) (s_q a) = Ret (s_at a) /\
  spot_quantile mf (with_counts a (s_Nt a) k) (s_q b) = Ret (s_at b).

Lemma fit_twins (a b a1 b1 : spot N) data : same_but_q a b -> data <> [] -> spot_fit mf a data = Ret (a1, 0) -> spot_fit mf b data = Ret (b1, 0) ->
  twins a1 b1 (s_n a1) /\ s_q a1 = s_q a /\ s_q b1 = s_q b /\ s_n a1 = Z.of_nat (length data).
Proof.
  intros S Dn HA HB. rewrite (same_other a b S) in HB. revert HA HB. unfold spot_fit. cbv zeta.
  change (s_low (with_counts (other a (s_q b) (s_at b)) 0 (Z.of_nat (length data)))) with (s_low a).
  change (s_level (with_counts (other a (s_q b) (s_at b)) 0 (Z.of_nat (length data)))) with (s_level a).
  cbn [s_low s_level with_counts].
  destruct (p2_quantile _ data) as [et|]; cbn [bind]; [|discriminate]. destruct (is_nan et); [discriminate|].
  change (with_et (with_counts (other a (s_q b) (s_at b)) 0 (Z.of_nat (length data))) et)
    with (other (with_et (with_counts a 0 (Z.of_nat (length data))) et) (s_q b) (s_at b)).
  rewrite fill_other. set (s0 := with_et _ et). destruct (fit_fill et s0 data) as [s1|] eqn:F; cbn [bind]; [|discriminate].
  apply fill_q in F. destruct F as (FQ & FN). cbn [other s_tail]. destruct (tail_fit mf (s_tail s1)) as [[t ll]|]; cbn [bind]; [|discriminate].
  cbn [s_q with_tail other].
  change (spot_quantile mf (with_tail (other s1 (s_q b) (s_at b)) t) (s_q b)) with (spot_quantile mf (with_tail s1 t) (s_q b)).
  destruct (spot_quantile mf (with_tail s1 t) (s_q s1)) as [za|] eqn:QA; cbn [bind]; [|discriminate].
  destruct (spot_quantile mf (with_tail s1 t) (s_q b)) as [zb|] eqn:QB; cbn [bind]; [|intros; discriminate].
  destruct (is_nan za); [discriminate|]. destruct (is_nan zb); [discriminate|]. intros HA HB. injection HA as <-. injection HB as <-.
  cbn [s_q s_n with_at with_tail other]. subst s0. cbn [s_q s_n with_et with_counts] in FQ, FN. split; [|auto].
  unfold twins. cbn [s_q s_n s_at with_at with_tail other]. rewrite FN. split; [repeat split|]. split.
  { destruct data; [congruence|]. cbn [length]. lia. }
  split.
  - rewrite <- QA. unfold spot_quantile. cbn [s_Nt s_n s_tail s_et s_updown with_counts with_at with_tail]. rewrite FN. reflexivity.
  - rewrite <- QB. unfold spot_quantile. cbn [s_Nt s_n s_tail s_et s_updown with_counts with_at with_tail]. rewrite FN. reflexivity.
Qed.

Lemma step_twins (a b a1 b1 : spot N) k x r : twins a b k -> 0 <= s_n a < 2 ^ 64 - 1 -> spot_step mf a x = Ret (a1, r) -> spot_step mf b x = Ret (b1, r) ->
  exists k', twins a1 b1 k' /\ s_q a1 = s_q a /\ s_q b1 = s_q b /\ 0 <= s_n a1 <= s_n a + 1.
Proof.
  intros (S & K & QA & QB) B HA HB. pose proof (same_other a b S) as Eb. rewrite Eb in HB.
  assert (U : u64 (s_n a + 1) = s_n a + 1) by (apply Z.mod_small; lia).
  apply step_inv in HA. apply step_inv in HB.
  destruct HA as [Nx -> E|? ? ? -> E|? ? ? -> E|t1 t2 ll z Nx C1 C2 T1 T2 Q -> E]; subst r;
  destruct HB as [Nx' E' E|? ? ? E' E|? ? ? E' E|t1' t2' ll' z' Nx' C1' C2' T1' T2' Q' E' E]; try discriminate.
  - rewrite <- Eb in E'. subst b1. exists k. split; [exact (conj S (conj K (conj QA QB)))|]. repeat split; lia.
  - rewrite <- Eb in E'. subst b1. exists k. split; [exact (conj S (conj K (conj QA QB)))|]. repeat split; lia.
  - subst b1. exists k. unfold twins. cbn [s_q s_at s_n s_Nt with_counts other]. rewrite U. split; [|repeat split; lia].
    split; [repeat split|]. split; [lia|]. split; [exact QA|exact QB].
  - cbn [other s_tail s_updown s_et s_Nt s_n s_q] in T1', Q'. rewrite T1 in T1'. injection T1' as <-. rewrite T2 in T2'. injection T2' as <- <-.
    subst b1. exists (s_n a + 1). unfold twins. cbn [s_q s_at s_n s_Nt with_counts with_at with_tail other]. rewrite U in *. split; [|repeat split; lia].
    split; [repeat split|]. split; [lia|]. split; [exact Q|exact Q'].
Qed.

Lemma steps_twins xs : forall (a b a1 b1 : spot N) k rs, twins a b k -> 0 <= s_n a -> s_n a + Z.of_nat (length xs) < 2 ^ 64 ->
  spot_steps mf a xs = Ret (a1, rs) -> spot_steps mf b xs = Ret (b1, rs) ->
  exists k', twins a1 b1 k' /\ s_q a1 = s_q a /\ s_q b1 = s_q b.
Proof.
  induction xs as [|x xs IH]; intros a b a1 b1 k rs T B L; cbn [spot_steps].
  - intros HA HB. injection HA as <- _. injection HB as <- _. exists k. auto.
  - cbn [length] in L. destruct (spot_step mf a x) as [[a2 r]|] eqn:EA; cbn [bind]; [|discriminate].
    destruct (spot_steps mf a2 xs) as [[a3 l]|] eqn:EA2; cbn [bind]; [|discriminate]. intros H; injection H as <- <-.
    destruct (spot_step mf b x) as [[b2 r']|] eqn:EB; cbn [bind]; [|discriminate].
    destruct (spot_steps mf b2 xs) as [[b3 l']|] eqn:EB2; cbn [bind]; [|discriminate]. intros H; injection H as <- -> ->.
    destruct (step_twins _ _ _ _ _ _ _ T ltac:(lia) EA EB) as (k' & T' & Q1 & Q2 & B').
    destruct (IH a2 b2 a3 b3 k' l T' ltac:(lia) ltac:(lia) EA2 EB2) as (k2 & T2 & Q3 & Q4). exists k2. split; [exact T2|]. split; congruence.
Qed.
End Risk.

Lemma first_disagreement (a0 b0 a1 b1 a2 b2 a3 b3 : spot RNum) qa qb data xs rs x ra rb et dir sigma gamma :
  same_but_q a0 b0 -> s_q a0 = Some qa -> s_q b0 = Some qb -> (0 < qa < qb)%R -> data <> [] ->
  Z.of_nat (length data) + Z.of_nat (length xs) < 2 ^ 64 ->
  spot_fit exact_math a0 data = Ret (a1, 0) -> spot_fit exact_math b0 data = Ret (b1, 0) ->
  spot_steps exact_math a1 xs = Ret (a2, rs) -> spot_steps exact_math b1 xs = Ret (b2, rs) ->
  real_detector a2 et dir sigma gamma ->
  spot_step exact_math a2 x = Ret (a3, ra) -> spot_step exact_math b2 x = Ret (b3, rb) -> ra <> rb ->
  rb = ANOMALY.
Proof.
  intros S QA QB Hq Dn L FA FB SA SB RD HA HB NE.
  destruct (fit_twins exact_math _ _ _ _ _ S Dn FA FB) as (T & Q1 & Q2 & Nn).
  destruct (steps_twins exact_math xs _ _ _ _ _ _ T ltac:(lia) ltac:(lia) SA SB) as (k & (S2 & K & ZA & ZB) & Q3 & Q4).
  rewrite Q3, Q1, QA in ZA. rewrite Q4, Q2, QB in ZB.
  assert (RK : real_detector (with_counts a2 (s_Nt a2) k) et dir sigma gamma).
  { destruct RD as (D1 & D2 & D3 & D4 & D5 & D6 & D7 & D8). repeat split; try assumption. cbn [s_n with_counts]. lia. }
  rewrite (quantile_eq _ _ _ _ _ RK) in ZA by lra. rewrite (quantile_eq _ _ _ _ _ RK) in ZB by lra.
  injection ZA as ZA. injection ZB as ZB. pose proof (offset_decreasing _ _ _ _ _ RK qa qb ltac:(lra) ltac:(lra)) as O.
  set (za := zq (with_counts a2 (s_Nt a2) k) et dir sigma gamma qa) in *. set (zb := zq (with_counts a2 (s_Nt a2) k) et dir sigma gamma qb) in *.
  pose proof (same_other _ _ S2) as Eb. rewrite Eb in HB. destruct RD as (D1 & D2 & D3 & _).
  apply step_inv in HA. apply step_inv in HB.
  destruct HB as [Nx' E' E|Nx' Di Cb E' E|Nx' Db Cb E' E|t1' t2' ll' z' Nx' Db Cb T1' T2' Q' E' E]; [| exact E | |];
  destruct HA as [Nx Ea Er|Nx Da Ca Ea Er|Nx Da Ca Ea Er|t1 t2 ll z Nx Da Ca T1 T2 Q Ea Er]; subst; try congruence; exfalso;
  cbn [other s_updown s_et s_discard s_at] in *; try congruence;
  (destruct Db as [Db|Db]; [congruence|]); rewrite <- ZA in Ca; rewrite <- ZB in Db; rewrite D2 in Ca, Db;
  (destruct x as [x|]; [|discriminate]); cbn in Ca, Db;
  match type of Ca with Rlt_bool ?u ?v = true => destruct (Rlt_bool_spec u v); [|discriminate] end;
  match type of Db with Rlt_bool ?u ?v = false => destruct (Rlt_bool_spec u v); [discriminate|] end; lra.
Qed.
