(** * OrderApi: C67 on streams *)
From Coq Require Import ZArith List Bool Reals Lra Lia Permutation.
From Flocq Require Import Core.Core.
From Verif Require Import Num NumFacts XMath Ubend UbendFacts Session Peaks PeaksFacts Brent Estimator Tail P2 P2Facts Spot SpotFacts RNum Spec
  DetectorLemmas WindowLemmas HistoryLemmas RefitLemmas ExactWindow OrderLemmas.
Import ListNotations.
Open Scope Z_scope.

Section Stream.
Variable mf : MathFns RNum.

Definition isx (ud et : num RNum) (x : num RNum) : bool := nle (nofZ 0) (nmul ud (nsub x et)).
Definition code (ud et : num RNum) (x : num RNum) : Z := if is_nan x then - ERR_DATA_IS_NAN else if isx ud et x then EXCESS else NORMAL.
Definition exc (ud et : num RNum) (x : num RNum) : list R :=
  if is_nan x then [] else if isx ud et x then match (nmul ud (nsub x et) : xr) with Some r => [r] | None => [] end else [].
Definition counted (x : num RNum) : nat := if is_nan x then 0%nat else 1%nat.
Definition incr (k : nat) (z : Z) : Z := Nat.iter k (fun z => u64 (z + 1)) z.
Definition excs ud et (xs : list (num RNum)) : list R := flat_map (exc ud et) xs.
Definition counteds (xs : list (num RNum)) : nat := fold_right (fun x k => (counted x + k)%nat) 0%nat xs.

Lemma incr_add a b z : incr (a + b) z = incr a (incr b z).
Proof. induction a as [|a IH]; [reflexivity|]. exact (f_equal (fun z => u64 (z + 1)) IH). Qed.
Lemma incr_comm a b z : incr a (incr b z) = incr b (incr a z).
Proof. rewrite <- !incr_add. f_equal. lia. Qed.

Lemma counteds_perm xs ys : Permutation xs ys -> counteds xs = counteds ys.
Proof. unfold counteds. induction 1; cbn [fold_right]; try lia. Qed.

Lemma stream_inv xs : forall s s' rs, spot_steps mf s xs = Ret (s', rs) -> s_discard s = 0 ->
  let ud := s_updown s in let et := s_et s in
  rs = map (code ud et) xs /\ s_et s' = et /\ s_updown s' = ud /\ s_discard s' = 0 /\ s_q s' = s_q s /\
  s_n s' = incr (counteds xs) (s_n s) /\ s_Nt s' = incr (length (excs ud et xs)) (s_Nt s) /\
  peaks_pushes (t_peaks (s_tail s)) (map Some (excs ud et xs)) = Ret (t_peaks (s_tail s')) /\
  (excs ud et xs = [] -> s_tail s' = s_tail s) /\
  (excs ud et xs <> [] -> exists g0 s0 ll, tail_fit mf (MkTail g0 s0 (t_peaks (s_tail s'))) = Ret (s_tail s', ll)) /\
  length (excs ud et xs) = count_occ Z.eq_dec rs EXCESS.
Proof.
  induction xs as [|x xs IH]; intros s s' rs; cbn [spot_steps].
  - intros H D; injection H as <- <-. cbn. repeat split; auto. intros []; reflexivity.
  - destruct (spot_step mf s x) as [[s1 r]|] eqn:E; cbn [bind]; [|discriminate].
    destruct (spot_steps mf s1 xs) as [[s2 l]|] eqn:E2; cbn [bind]; [|discriminate].
    intros H D; injection H as <- <-. cbv zeta.
    apply step_inv in E.
    destruct E as [Nx -> ->|Nx D' ? -> ->|Nx ? C -> ->|t1 t2 ll a Nx ? C P1 P2 P3 -> ->].
    + specialize (IH _ _ _ E2 D). cbv zeta in IH. destruct IH as (A1 & A2 & A3 & A4 & A5 & A6 & A7 & A8 & A9 & A10 & A11).
      cbn [map excs flat_map counteds fold_right]. unfold code at 1, exc at 1 3 5 7 9, counted at 1. rewrite Nx. cbn [app Nat.add].
      fold (excs (s_updown s) (s_et s) xs) (counteds xs). rewrite A1 at 1. repeat (split; [first [reflexivity|assumption]|]). exact A11.
    + congruence.
    + specialize (IH _ _ _ E2 D). cbv zeta in IH. cbn [s_updown s_et s_q s_n s_Nt s_tail with_counts] in IH. destruct IH as (A1 & A2 & A3 & A4 & A5 & A6 & A7 & A8 & A9 & A10 & A11).
      cbn [map excs flat_map counteds fold_right]. unfold code at 1, exc at 1 3 5 7 9, counted at 1, isx. rewrite Nx, C. cbn [app].
      fold (excs (s_updown s) (s_et s) xs) (counteds xs). rewrite A1 at 1. repeat (split; [first [reflexivity|assumption|idtac]|]).
      * rewrite A6. rewrite incr_add, incr_comm. reflexivity.
      * exact A11.
    + specialize (IH _ _ _ E2 D). cbv zeta in IH. cbn [s_updown s_et s_q s_n s_Nt s_tail with_counts with_at with_tail] in IH. destruct IH as (A1 & A2 & A3 & A4 & A5 & A6 & A7 & A8 & A9 & A10 & A11).
      pose proof (tail_fit_peaks _ _ _ _ P2) as TP. unfold tail_push in P1.
      destruct (nmul (s_updown s) (nsub x (s_et s)) : xr) as [r|] eqn:V; [|change (nle (nofZ 0) (None : num RNum) = true) in C; discriminate].
      destruct (peaks_push (t_peaks (s_tail s)) (Some r : num RNum)) as [p|] eqn:EP; cbn [bind] in P1; [|discriminate]. injection P1 as <-. cbn [t_peaks] in TP.
      assert (X : exc (s_updown s) (s_et s) x = [r]) by (unfold exc, isx; rewrite Nx, V, C; reflexivity).
      assert (X2 : code (s_updown s) (s_et s) x = EXCESS) by (unfold code, isx; rewrite Nx, V, C; reflexivity).
      cbn [map excs flat_map counteds fold_right]. rewrite X, X2. unfold counted at 1. rewrite Nx. cbn [app map length].
      fold (excs (s_updown s) (s_et s) xs) (counteds xs). rewrite A1 at 1. repeat (split; [first [reflexivity|assumption|idtac]|]).
      * rewrite A6. rewrite incr_add, incr_comm. reflexivity.
      * rewrite A7. change (S ?k) with (1 + k)%nat. rewrite incr_add, incr_comm. reflexivity.
      * cbn [peaks_pushes]. rewrite EP. cbn [bind]. rewrite <- TP. exact A8.
      * discriminate.
      * intros _. destruct (excs (s_updown s) (s_et s) xs) as [|z zs] eqn:EX.
        -- rewrite (A9 eq_refl). do 3 eexists. rewrite TP. exact P2.
        -- apply A10. discriminate.
      * cbn [count_occ]. destruct (Z.eq_dec EXCESS EXCESS); [|congruence]. rewrite A11. reflexivity.
Qed.

Lemma wf_of q low level cap s : detector mf q low 0 level cap s -> s_discard s = 0 /\ exists l, rep cap (p_cont (t_peaks (s_tail s))) l.
Proof.
  intros (old & blk & s0 & calls & answers & H1 & H2 & H3 & H4). pose proof (init_wf _ _ _ _ _ _ _ _ H1 H2 H3) as W.
  destruct (session_wf mf cap s0 [] calls s answers W H4) as ((_ & _ & _ & Dd & _) & l & R). split; [|exists l; exact R].
  rewrite Dd. revert H3. unfold spot_init. destruct (spot_check q level) eqn:SC; [|].
  - intros H; injection H as _ ->. unfold spot_check in SC.
    destruct (_ || _)%bool in SC; [discriminate|]. destruct (_ || _)%bool in SC; discriminate.
  - cbn. intros H; injection H as <-. reflexivity.
Qed.

(** the state after two permuted streams *)
Definition same_state (s1 s2 : spot RNum) : Prop :=
  s_et s1 = s_et s2 /\ s_Nt s1 = s_Nt s2 /\ s_n s1 = s_n s2 /\ t_gamma (s_tail s1) = t_gamma (s_tail s2) /\ t_sigma (s_tail s1) = t_sigma (s_tail s2) /\
  Permutation (oldest_first (window s1)) (oldest_first (window s2)).

Lemma C67_full q low level cap s xs ys s1 s2 r1 r2 : detector mf q low 0 level cap s -> Permutation xs ys ->
  spot_steps mf s xs = Ret (s1, r1) -> spot_steps mf s ys = Ret (s2, r2) ->
  Z.of_nat (length (oldest_first (window s))) + Z.of_nat (count_occ Z.eq_dec r1 EXCESS) <= cap ->
  same_state s1 s2 /\ s_updown s1 = s_updown s2 /\ s_q s1 = s_q s2 /\ s_discard s1 = 0 /\ s_discard s2 = 0 /\
  (exists l1 l2, same_window cap (t_peaks (s_tail s1)) (t_peaks (s_tail s2)) l1 l2 /\
     Z.of_nat (length l1) = Z.of_nat (length (oldest_first (window s))) + Z.of_nat (count_occ Z.eq_dec r1 EXCESS)) /\
  exists f, r1 = map f xs /\ r2 = map f ys.
Proof.
  intros Dt P H1 H2 L. destruct (wf_of _ _ _ _ _ Dt) as (Dd & l & R).
  pose proof (stream_inv _ _ _ _ H1 Dd) as S1. pose proof (stream_inv _ _ _ _ H2 Dd) as S2. cbv zeta in S1, S2.
  set (ud := s_updown s) in *. set (et := s_et s) in *.
  destruct S1 as (A1 & A2 & A3 & A4 & A5 & A6 & A7 & A8 & A9 & A10 & A11). destruct S2 as (B1 & B2 & B3 & B4 & B5 & B6 & B7 & B8 & B9 & B10 & B11).
  assert (PE : Permutation (excs ud et xs) (excs ud et ys)) by (apply Permutation_flat_map; exact P).
  pose proof (rep_oldest_first _ _ _ R) as OF. fold (window s) in OF.
  assert (LL : length (oldest_first (window s)) = length l) by (rewrite OF; apply map_length).
  destruct (same_pushes cap _ _ PE (t_peaks (s_tail s)) (t_peaks (s_tail s)) l l (same_refl cap _ l R)) as (p1 & p2 & Q1 & Q2 & SW).
  { rewrite A11. change (num RNum) with xr in *. lia. }
  change (num RNum) with xr in *.
  rewrite A8 in Q1. injection Q1 as <-. rewrite B8 in Q2. injection Q2 as <-.
  assert (GS : t_gamma (s_tail s1) = t_gamma (s_tail s2) /\ t_sigma (s_tail s1) = t_sigma (s_tail s2)).
  { destruct (excs ud et xs) as [|z zs] eqn:EX.
    - apply Permutation_nil in PE. rewrite (A9 eq_refl), (B9 PE). split; reflexivity.
    - destruct (A10 ltac:(discriminate)) as (g0 & t0 & l0 & F1).
      destruct (B10 ltac:(intros Z0; rewrite Z0 in PE; apply Permutation_sym, Permutation_nil in PE; discriminate)) as (g0' & t0' & l0' & F2).
      pose proof (same_fit mf cap _ _ _ _ g0 t0 g0' t0' SW) as SF. rewrite F1, F2 in SF. split; apply SF. }
  split; [|split; [congruence|split; [congruence|split; [assumption|split; [assumption|split]]]]].
  - unfold same_state. split; [congruence|]. split; [rewrite A7, B7, (Permutation_length PE); reflexivity|]. split; [rewrite A6, B6, (counteds_perm _ _ P); reflexivity|].
    split; [apply GS|]. split; [apply GS|].
    destruct SW as (_ & _ & _ & _ & R1 & R2 & PW). unfold window. rewrite (rep_oldest_first _ _ _ R1), (rep_oldest_first _ _ _ R2). apply Permutation_map. exact PW.
  - do 2 eexists. split; [exact SW|]. rewrite app_length, map_length, A11. change (num RNum) with xr in *. lia.
  - exists (code ud et). split; assumption.
Qed.

Lemma steps_snoc xs : forall s x s' rs, spot_steps mf s (xs ++ [x]) = Ret (s', rs) ->
  exists s1 r1 r, spot_steps mf s xs = Ret (s1, r1) /\ spot_step mf s1 x = Ret (s', r) /\ rs = r1 ++ [r].
Proof.
  induction xs as [|y xs IH]; intros s x s' rs; cbn [spot_steps app].
  - destruct (spot_step mf s x) as [[s1 r]|] eqn:E0; cbn [bind]; [|discriminate]. intros H; injection H as <- <-. exists s, [], r. auto.
  - destruct (spot_step mf s y) as [[s1 r]|]; cbn [bind]; [|discriminate].
    destruct (spot_steps mf s1 (xs ++ [x])) as [[s2 l]|] eqn:E; cbn [bind]; [|discriminate]. intros H; injection H as <- <-.
    apply IH in E as (s3 & r3 & r' & E3 & E4 & ->). rewrite E3. cbn [bind]. exists s3, (r :: r3), r'. auto.
Qed.

Lemma C67_threshold q low level cap s xs ys x s1 s2 r1 r2 : detector mf q low 0 level cap s -> Permutation xs ys ->
  spot_steps mf s (xs ++ [x]) = Ret (s1, r1 ++ [EXCESS]) -> spot_steps mf s (ys ++ [x]) = Ret (s2, r2) ->
  Z.of_nat (length (oldest_first (window s))) + Z.of_nat (count_occ Z.eq_dec r1 EXCESS) + 1 <= cap ->
  s_at s1 = s_at s2 /\ same_state s1 s2.
Proof.
  intros Dt P H1 H2 L.
  assert (PP : Permutation (xs ++ [x]) (ys ++ [x])) by (apply Permutation_app_tail; exact P).
  destruct (C67_full q low level cap s _ _ _ _ _ _ Dt PP H1 H2) as (SS & UD & Q & _ & _ & _ & _).
  { rewrite count_occ_app. cbn [count_occ]. destruct (Z.eq_dec EXCESS EXCESS); [lia|congruence]. }
  split; [|exact SS].
  apply steps_snoc in H1 as (a & ra & c & Ha & Hx & E). apply app_inj_tail in E as (<- & <-).
  apply steps_snoc in H2 as (b & rb & c' & Hb & Hy & ->).
  destruct (C67_full q low level cap s _ _ _ _ _ _ Dt P Ha Hb ltac:(lia)) as ((ET & _) & UD' & _ & _ & Db & _ & _).
  apply step_inv in Hx. destruct Hx as [? ? E|? ? ? ? E|? ? ? ? E|t1 t2 ll al Nx ? C E1 E2 E3 -> _]; try discriminate.
  apply step_inv in Hy. destruct Hy as [Ny|? D'|Ny ? C'|t1' t2' ll' al' Ny ? C' E1' E2' E3' -> _]; try congruence.
  cbn [s_at with_at]. destruct SS as (F1 & F2 & F3 & F4 & F5 & _). cbn [s_et s_Nt s_n s_tail with_at with_tail with_counts s_updown s_q] in *.
  assert (K : forall (u v : spot RNum) k, s_et u = s_et v -> s_updown u = s_updown v -> s_Nt u = s_Nt v -> s_n u = s_n v ->
    t_gamma (s_tail u) = t_gamma (s_tail v) -> t_sigma (s_tail u) = t_sigma (s_tail v) -> spot_quantile mf u k = spot_quantile mf v k).
  { intros u v k K1 K2 K3 K4 K5 K6. unfold spot_quantile, tail_quantile. rewrite K1, K2, K3, K4, K5, K6. reflexivity. }
  rewrite Q in E3. erewrite K in E3; [rewrite E3' in E3; injection E3 as <-; reflexivity| | | | | |]; assumption.
Qed.

Lemma C67_lemma q low level cap s s1 s2 xs ys r1 r2 : detector mf q low 0 level cap s -> Permutation xs ys ->
  spot_steps mf s xs = Ret (s1, r1) -> spot_steps mf s ys = Ret (s2, r2) ->
  Z.of_nat (length (oldest_first (window s))) + Z.of_nat (count_occ Z.eq_dec r1 EXCESS) <= cap ->
  (exists answer, r1 = map answer xs /\ r2 = map answer ys) /\ same_state s1 s2.
Proof. intros D P H1 H2 L. destruct (C67_full q low level cap s xs ys s1 s2 r1 r2 D P H1 H2 L) as (A & _ & _ & _ & _ & _ & B). split; assumption. Qed.
Lemma C67_threshold_lemma q low level cap s s1 s2 xs ys x r1 r2 : detector mf q low 0 level cap s -> Permutation xs ys ->
  spot_steps mf s (xs ++ [x]) = Ret (s1, r1 ++ [EXCESS]) -> spot_steps mf s (ys ++ [x]) = Ret (s2, r2) ->
  Z.of_nat (length (oldest_first (window s))) + Z.of_nat (count_occ Z.eq_dec r1 EXCESS) + 1 <= cap -> s_at s1 = s_at s2.
Proof. intros D P H1 H2 L. exact (proj1 (C67_threshold q low level cap s xs ys x s1 s2 r1 r2 D P H1 H2 L)). Qed.
End Stream.
