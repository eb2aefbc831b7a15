(** * P2Lemmas: proofs of C22, C42, C50 *)
From Coq Require Import ZArith List Bool Lia Reals Lra Permutation Sorted.
From Flocq Require Import Core.Core IEEE754.BinarySingleNaN.
From Verif Require Import Num NumFacts XMath Ubend Peaks Brent Estimator Tail P2 P2Facts Spot SpotFacts B64 B64Facts Session Spec SpotB64
  WindowLemmas SortLemmas P2Spec P2B64.
Import ListNotations.
Open Scope Z_scope.

Lemma is_finite_eq x : is_finite x = finite64 x.
Proof. destruct x; reflexivity. Qed.

Lemma leb_finite x y : finite64 x = true -> finite64 y = true -> (B2R64 x <= B2R64 y)%R -> b64_leb x y = true.
Proof. intros Fx Fy H. apply leb_true_iff. rewrite !xval_finite by assumption. repeat split; auto using finite_not_nan. Qed.
Lemma eqb_finite x y : finite64 x = true -> finite64 y = true -> (B2R64 x = B2R64 y)%R -> b64_eqb x y = true.
Proof. intros Fx Fy H. apply eqb_true_iff. rewrite !xval_finite by assumption. repeat split; auto using finite_not_nan. Qed.

Lemma C50_lemma (p : b64) xs : bounded_batch xs ->
  exists q0 s,
    sort5 (N := B64) (firstn 5 xs) = Ret q0 /\
    p2_run (N := B64) (with_markers (init_p2 (N := B64) p) q0) (skipn 5 xs) = Ret s /\
    p2_quantile (N := B64) p xs = rd (m_q s) 2 /\
    (* the markers are sorted *)
    length (m_q s) = 5%nat /\
    (forall i j, (i < j < 5)%nat -> b64_leb (nth i (m_q s) (d 0)) (nth j (m_q s) (d 0)) = true) /\
    (* the outer ones are the extremes of the data *)
    (exists x, In x xs /\ b64_eqb x (nth 0 (m_q s) (d 0)) = true) /\
    (exists x, In x xs /\ b64_eqb x (nth 4 (m_q s) (d 0)) = true) /\
    (forall x, In x xs -> b64_leb (nth 0 (m_q s) (d 0)) x = true /\ b64_leb x (nth 4 (m_q s) (d 0)) = true) /\
    (* positions are increasing integers *)
    exists zs, m_n s = map b64_ofZ zs /\ length zs = 5%nat /\ StronglySorted Z.lt zs /\
      forall z, In z zs -> 0 <= z < Z.of_nat (length xs).
Proof.
  intros (HL & HF & HD).
  destruct (p2_state_markers p xs) as (s & lo & hi & E & Q & M & G1 & G2).
  { lia. } { lia. } { intros x Hx. rewrite <- is_finite_eq. auto. } { intros x y Hx Hy. rewrite <- is_finite_eq. auto. }
  unfold p2_state in E. destruct (sort5 (N := B64) (firstn 5 xs)) as [q0|] eqn:Es; cbn [bind] in E; [|discriminate].
  exists q0, s. split; [reflexivity|]. split; [exact E|]. split; [exact Q|].
  destruct M as (m0 & m1 & m2 & m3 & m4 & z0 & z1 & z2 & z3 & z4 & Eq & En & _ & _ & (F0 & F1 & F2 & F3 & F4) & (B0 & B1 & B2 & B3 & B4 & B5) & Z0 & Z1 & Z2 & Z3 & Z4 & Z5).
  rewrite Eq, En. split; [reflexivity|].
  destruct G1 as ((a & Ia & Ea) & Hlo), G2 as ((b & Ib & Eb) & Hhi).
  assert (HF' : forall x, In x xs -> finite64 x = true) by (intros; rewrite <- is_finite_eq; auto).
  split.
  { intros i j Hij. destruct i as [|[|[|[|[|i]]]]]; destruct j as [|[|[|[|[|j]]]]]; try lia; cbn [nth]; apply leb_finite; try assumption; lra. }
  split. { exists a. split; [assumption|]. cbn [nth]. apply eqb_finite; [auto|assumption|congruence]. }
  split. { exists b. split; [assumption|]. cbn [nth]. apply eqb_finite; [auto|assumption|congruence]. }
  split. { intros x Hx. cbn [nth]. split; apply leb_finite; auto; [rewrite B0|rewrite B5]; auto. }
  exists [z0; z1; z2; z3; z4]. split; [reflexivity|]. split; [reflexivity|]. split.
  { repeat constructor; lia. }
  intros z Hz. cbn in Hz. lia.
Qed.

Lemma C22_p2_lemma (p : b64) xs : bounded_batch xs ->
  exists v, p2_quantile (N := B64) p xs = Ret v /\ is_finite v = true /\
    (exists x, In x xs /\ b64_leb x v = true) /\ (exists x, In x xs /\ b64_leb v x = true).
Proof.
  intros (HL & HF & HD).
  destruct (p2_state_markers p xs) as (s & lo & hi & E & Q & M & G1 & G2).
  { lia. } { lia. } { intros x Hx. rewrite <- is_finite_eq. auto. } { intros x y Hx Hy. rewrite <- is_finite_eq. auto. }
  destruct M as (m0 & m1 & m2 & m3 & m4 & z0 & z1 & z2 & z3 & z4 & Eq & En & _ & _ & (F0 & F1 & F2 & F3 & F4) & (B0 & B1 & B2 & B3 & B4 & B5) & _).
  rewrite Q, Eq. exists m2. split; [reflexivity|].
  destruct G1 as ((a & Ia & Ea) & Hlo), G2 as ((b & Ib & Eb) & Hhi).
  assert (HF' : forall x, In x xs -> finite64 x = true) by (intros; rewrite <- is_finite_eq; auto).
  rewrite is_finite_eq. split; [assumption|].
  split; [exists a|exists b]; (split; [assumption|]); apply leb_finite; auto; lra.
Qed.

(** ** What spot_fit does with the quantile *)
Lemma fit_threshold {N} mf (s : spot N) data s' r : spot_fit mf s data = Ret (s', r) ->
  exists v, p2_quantile (if s_low s =? 0 then s_level s else nsub (nofZ 1) (s_level s)) data = Ret v /\
    (is_nan v = true -> r = -1003) /\ (is_nan v = false -> s_et s' = v /\ r <> -1003).
Proof.
  intros H. unfold spot_fit in H. cbn [s_low s_level with_counts] in H.
  destruct (p2_quantile _ data) as [v|]; cbn [bind] in H; [|discriminate].
  exists v. split; [reflexivity|]. destruct (is_nan v).
  { injection H as <- <-. split; [reflexivity|discriminate]. }
  split; [discriminate|]. intros _.
  destruct (fit_fill v _ data) as [s1|] eqn:E2; cbn [bind] in H; [|discriminate].
  destruct (tail_fit mf (s_tail s1)) as [[t l]|]; cbn [bind] in H; [|discriminate].
  destruct (spot_quantile mf _ _) as [a|]; cbn [bind] in H; [|discriminate].
  apply fit_fill_frame in E2 as (E2 & _).
  assert (Et : s_et (with_at (with_tail s1 t) a) = v) by (rewrite E2; reflexivity).
  destruct (is_nan a); injection H as <- <-; (split; [exact Et|discriminate]).
Qed.

Lemma C22_lemma mf (s : spot B64) xs s' r : bounded_batch xs -> spot_fit mf s xs = Ret (s', r) ->
  r <> -1003 /\ is_finite (s_et s') = true /\
  (exists x, In x xs /\ b64_leb x (s_et s') = true) /\ (exists x, In x xs /\ b64_leb (s_et s') x = true).
Proof.
  intros HB H. destruct (fit_threshold mf s xs s' r H) as (v & E & _ & HV).
  destruct (C22_p2_lemma (if s_low s =? 0 then s_level s else nsub (n := B64) (nofZ 1) (s_level s)) xs HB) as (v' & E' & F & L).
  assert (Ev : v = v') by (assert (Ret v = Ret v') by (rewrite <- E, <- E'; reflexivity); congruence). subst v'.
  destruct HV as (-> & Hr).
  { rewrite is_nan_b64. apply finite_not_nan. rewrite <- is_finite_eq. exact F. }
  auto.
Qed.

(** ** C42 *)
Lemma C42_observe_lemma {N} (s : p2st N) x m0 m1 m2 m3 m4 : m_q s = [m0; m1; m2; m3; m4] ->
  (nlt x m0 = true -> p2_observe s x = Ret (MkP2 [x; m1; m2; m3; m4] (m_n s) (m_np s) (m_dn s))) /\
  (nlt x m0 = false -> nlt m4 x = true -> p2_observe s x = Ret (MkP2 [m0; m1; m2; m3; x] (m_n s) (m_np s) (m_dn s))).
Proof.
  intros E. unfold p2_observe. rewrite E.
  change (rd [m0; m1; m2; m3; m4] 0) with (Ret m0). change (rd [m0; m1; m2; m3; m4] 4) with (Ret m4). cbn [bind].
  split.
  - intros ->. reflexivity.
  - intros -> ->. reflexivity.
Qed.

Lemma ltb_asym x y : b64_ltb x y = true -> b64_ltb y x = false.
Proof.
  intros H. apply ltb_true_iff in H as (Nx & Ny & H). rewrite ltb_xval by assumption. apply Rlt_bool_false. lra.
Qed.

Lemma run_extremes xs : forall seen (s : p2st B64) m0 m1 m2 m3 m4, m_q s = [m0; m1; m2; m3; m4] -> In m0 seen -> In m4 seen ->
  (forall pre x post, xs = pre ++ x :: post -> above (seen ++ pre) x \/ below (seen ++ pre) x) ->
  exists s' m0' m4', p2_run s xs = Ret s' /\ m_q s' = [m0'; m1; m2; m3; m4'].
Proof.
  induction xs as [|x xs IH]; intros seen s m0 m1 m2 m3 m4 E I0 I4 H; cbn [p2_run].
  { do 3 eexists. split; [reflexivity|exact E]. }
  destruct (C42_observe_lemma (N := B64) s x m0 m1 m2 m3 m4 E) as (K1 & K2).
  assert (NEXT : forall m0' m4', In m0' (seen ++ [x]) -> In m4' (seen ++ [x]) ->
    exists s' m0'' m4'', p2_run (MkP2 (N := B64) [m0'; m1; m2; m3; m4'] (m_n s) (m_np s) (m_dn s)) xs = Ret s' /\ m_q s' = [m0''; m1; m2; m3; m4'']).
  { intros m0' m4' J0 J4. eapply (IH (seen ++ [x])); [reflexivity|assumption|assumption|].
    intros pre y post ->. rewrite <- app_assoc. apply (H (x :: pre) y post). reflexivity. }
  destruct (H [] x xs eq_refl) as [A|B]; rewrite app_nil_r in *.
  - rewrite K2; [|apply ltb_asym, A; assumption|apply A; assumption]. cbn [bind].
    apply NEXT; apply in_or_app; cbn; auto.
  - rewrite K1; [|apply B; assumption]. cbn [bind]. apply NEXT; apply in_or_app; cbn; auto.
Qed.

Lemma C42_lemma (p : b64) xs m0 m1 m2 m3 m4 :
  (5 <= length xs)%nat -> sort5 (N := B64) (firstn 5 xs) = Ret [m0; m1; m2; m3; m4] ->
  (forall pre x post, xs = pre ++ x :: post -> (5 <= length pre)%nat -> above pre x \/ below pre x) ->
  p2_quantile (N := B64) p xs = Ret m2.
Proof.
  intros L Es H. unfold p2_quantile, quantile. change (num B64) with b64 in *.
  destruct (Nat.ltb_spec (length xs) 5) as [C|_]; [lia|]. rewrite Es. cbn [bind].
  assert (IN : forall y, In y [m0; m1; m2; m3; m4] -> In y (firstn 5 xs)).
  { assert (L5 : length (firstn 5 xs) = 5%nat) by (rewrite firstn_length; lia).
    destruct (C24_lemma _ L5) as (a' & Ea & P & _). change (num B64) with b64 in *. rewrite Es in Ea. injection Ea as <-.
    intros y Hy. apply Permutation_in with (1 := Permutation_sym P). exact Hy. }
  destruct (run_extremes (skipn 5 xs) (firstn 5 xs)
     (MkP2 (N := B64) [m0; m1; m2; m3; m4] (m_n (init_p2 (N := B64) p)) (m_np (init_p2 (N := B64) p)) (m_dn (init_p2 (N := B64) p))) m0 m1 m2 m3 m4)
    as (s' & m0' & m4' & E & Eq).
  - reflexivity.
  - apply IN. cbn; auto.
  - apply IN. cbn; auto 7.
  - intros pre x post Hs. apply (H (firstn 5 xs ++ pre) x post).
    + transitivity (firstn 5 xs ++ skipn 5 xs); [symmetry; apply firstn_skipn|]. rewrite <- app_assoc. f_equal. exact Hs.
    + rewrite app_length, firstn_length. lia.
  - match goal with |- bind ?A _ = _ => replace A with (@Ret (p2st B64) s') by (symmetry; exact E) end.
    cbn [bind]. rewrite Eq. reflexivity.
Qed.

Lemma sorted_app_rel (R : b64 -> b64 -> Prop) pre x post : StronglySorted R (pre ++ x :: post) -> forall y, In y pre -> R y x.
Proof.
  induction pre as [|a pre IH]; intros H y Hy; [destruct Hy|].
  cbn in H. inversion H as [|? ? H1 H2]; subst. destruct Hy as [<-|Hy]; [|apply IH; assumption].
  rewrite Forall_forall in H2. apply H2. apply in_or_app; right; left; reflexivity.
Qed.

Lemma C42_increasing_lemma (p : b64) xs : (5 <= length xs)%nat -> StronglySorted (fun x y => b64_ltb x y = true) xs ->
  p2_quantile (N := B64) p xs = Ret (nth 2 xs (d 0)).
Proof.
  intros L S. destruct xs as [|x0 [|x1 [|x2 [|x3 [|x4 t]]]]]; cbn [length] in L; try lia.
  cbn [nth]. apply (C42_lemma p _ x0 x1 x2 x3 x4); [cbn; lia| |].
  - cbn [firstn].
    inversion S as [|? ? S1 H0]; subst. inversion S1 as [|? ? S2 H1]; subst. inversion S2 as [|? ? S3 H2]; subst. inversion S3 as [|? ? S4 H3]; subst.
    rewrite Forall_forall in H0, H1, H2, H3.
    assert (L01 : b64_ltb x0 x1 = true) by (apply H0; cbn; auto). assert (L02 : b64_ltb x0 x2 = true) by (apply H0; cbn; auto).
    assert (L03 : b64_ltb x0 x3 = true) by (apply H0; cbn; auto). assert (L04 : b64_ltb x0 x4 = true) by (apply H0; cbn; auto).
    assert (L12 : b64_ltb x1 x2 = true) by (apply H1; cbn; auto). assert (L13 : b64_ltb x1 x3 = true) by (apply H1; cbn; auto).
    assert (L14 : b64_ltb x1 x4 = true) by (apply H1; cbn; auto). assert (L23 : b64_ltb x2 x3 = true) by (apply H2; cbn; auto).
    assert (L24 : b64_ltb x2 x4 = true) by (apply H2; cbn; auto). assert (L34 : b64_ltb x3 x4 = true) by (apply H3; cbn; auto).
    let v := eval cbv -[b64_ltb] in (sort5 (N := B64) [x0; x1; x2; x3; x4]) in
      change (sort5 (N := B64) [x0; x1; x2; x3; x4]) with v.
    rewrite (ltb_asym _ _ L01), (ltb_asym _ _ L23), ?L02, ?(ltb_asym _ _ L02),
     ?(ltb_asym _ _ L34), ?(ltb_asym _ _ L24), ?(ltb_asym _ _ L14), ?(ltb_asym _ _ L04), ?(ltb_asym _ _ L13), ?(ltb_asym _ _ L03), ?(ltb_asym _ _ L12), ?L12, ?L13, ?L14, ?L03, ?L04, ?L34, ?L24.
    rewrite ?(ltb_asym _ _ L34), ?(ltb_asym _ _ L24), ?(ltb_asym _ _ L14), ?(ltb_asym _ _ L04), ?(ltb_asym _ _ L13), ?(ltb_asym _ _ L03), ?(ltb_asym _ _ L12), ?L12, ?L13, ?L14, ?L03, ?L04, ?L34, ?L24. reflexivity.
  - intros pre x post E _. left. intros y Hy. rewrite E in S. exact (sorted_app_rel _ pre x post S y Hy).
Qed.

Lemma C42_decreasing_lemma (p : b64) xs : (5 <= length xs)%nat -> StronglySorted (fun x y => b64_ltb y x = true) xs ->
  p2_quantile (N := B64) p xs = Ret (nth 2 xs (d 0)).
Proof.
  intros L S. destruct xs as [|x0 [|x1 [|x2 [|x3 [|x4 t]]]]]; cbn [length] in L; try lia.
  cbn [nth]. apply (C42_lemma p _ x4 x3 x2 x1 x0); [cbn; lia| |].
  - cbn [firstn].
    inversion S as [|? ? S1 H0]; subst. inversion S1 as [|? ? S2 H1]; subst. inversion S2 as [|? ? S3 H2]; subst. inversion S3 as [|? ? S4 H3]; subst.
    rewrite Forall_forall in H0, H1, H2, H3.
    assert (L01 : b64_ltb x1 x0 = true) by (apply H0; cbn; auto). assert (L02 : b64_ltb x2 x0 = true) by (apply H0; cbn; auto).
    assert (L03 : b64_ltb x3 x0 = true) by (apply H0; cbn; auto). assert (L04 : b64_ltb x4 x0 = true) by (apply H0; cbn; auto).
    assert (L12 : b64_ltb x2 x1 = true) by (apply H1; cbn; auto). assert (L13 : b64_ltb x3 x1 = true) by (apply H1; cbn; auto).
    assert (L14 : b64_ltb x4 x1 = true) by (apply H1; cbn; auto). assert (L23 : b64_ltb x3 x2 = true) by (apply H2; cbn; auto).
    assert (L24 : b64_ltb x4 x2 = true) by (apply H2; cbn; auto). assert (L34 : b64_ltb x4 x3 = true) by (apply H3; cbn; auto).
    let v := eval cbv -[b64_ltb] in (sort5 (N := B64) [x0; x1; x2; x3; x4]) in
      change (sort5 (N := B64) [x0; x1; x2; x3; x4]) with v.
    repeat (first [rewrite L01|rewrite L02|rewrite L03|rewrite L04|rewrite L12|rewrite L13|rewrite L14|rewrite L23|rewrite L24|rewrite L34
      |rewrite (ltb_asym _ _ L01)|rewrite (ltb_asym _ _ L02)|rewrite (ltb_asym _ _ L03)|rewrite (ltb_asym _ _ L04)
      |rewrite (ltb_asym _ _ L12)|rewrite (ltb_asym _ _ L13)|rewrite (ltb_asym _ _ L14)|rewrite (ltb_asym _ _ L23)|rewrite (ltb_asym _ _ L24)|rewrite (ltb_asym _ _ L34)]).
    reflexivity.
  - intros pre x post E _. right. intros y Hy. rewrite E in S. exact (sorted_app_rel _ pre x post S y Hy).
Qed.

(** In a fit: the threshold is the third value of the batch whatever the level *)
Lemma C42_fit_lemma mf (s : spot B64) xs s' r : (5 <= length xs)%nat ->
  (StronglySorted (fun x y => b64_ltb x y = true) xs \/ StronglySorted (fun x y => b64_ltb y x = true) xs) ->
  spot_fit mf s xs = Ret (s', r) -> s_et s' = nth 2 xs (d 0).
Proof.
  intros L S H. destruct (fit_threshold mf s xs s' r H) as (v & E & _ & HV).
  assert (Ev : v = nth 2 xs (d 0)).
  { destruct S as [S|S]; [rewrite C42_increasing_lemma in E by assumption|rewrite C42_decreasing_lemma in E by assumption]; congruence. }
  rewrite <- Ev. apply HV. rewrite is_nan_b64, Ev.
  destruct xs as [|x0 [|x1 [|x2 [|x3 t]]]]; cbn [length] in L; try lia. cbn [nth].
  destruct S as [S|S]; inversion S as [|? ? S1 H0]; subst; inversion S1 as [|? ? S2 H1]; subst; inversion S2 as [|? ? S3 H2]; subst;
    rewrite Forall_forall in H2; specialize (H2 x3 (or_introl eq_refl)); apply ltb_true_iff in H2; tauto.
Qed.
