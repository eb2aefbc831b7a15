(** * MissLemmas: samples on which the search for the maximum of the likelihood finds nothing (C69) *)
From Coq Require Import ZArith List Bool Lia Reals Lra Psatz Permutation.
From Flocq Require Import Core.Core.
From Coquelicot Require Import Coquelicot.
From Verif Require Import Num NumFacts XMath Ubend Session UbendFacts Peaks PeaksFacts Brent Estimator Tail P2 Spot B64 Spec RNum WindowLemmas ExactWindow TailSpec GrimshawSpec ExactTail BrentLemmas GrimshawExact.
Import ListNotations.
Open Scope R_scope.

(** ** Two inequalities on the logarithm *)
Lemma ln_le_below P : 0 < P <= 1 -> ln P <= 2 * (P - 1) / (P + 1).
Proof.
  intros H. destruct (Req_dec P 1) as [->|N]. { rewrite ln_1. lra. }
  destruct (MVT_gen (fun x => ln x - 2 * (x - 1) / (x + 1)) P 1 (fun x => / x - 4 / ((x + 1) * (x + 1)))) as (c & Hc & E).
  { intros x Hx. rewrite Rmin_left in Hx by lra. auto_derive; [lra|]. field. lra. }
  { intros x Hx. rewrite Rmin_left in Hx by lra. apply continuity_pt_filterlim. apply (ex_derive_continuous (fun x => ln x - 2 * (x - 1) / (x + 1))). auto_derive. lra. }
  rewrite Rmin_left, Rmax_right in Hc by lra. rewrite ln_1 in E.
  assert (0 <= / c - 4 / ((c + 1) * (c + 1))).
  { replace (/ c - 4 / ((c + 1) * (c + 1))) with ((c - 1) * (c - 1) * / (c * ((c + 1) * (c + 1)))) by (field; lra).
    apply Rmult_le_pos; [nra|]. left. apply Rinv_0_lt_compat. repeat apply Rmult_lt_0_compat; lra. }
  assert (0 <= (/ c - 4 / ((c + 1) * (c + 1))) * (1 - P)) by (apply Rmult_le_pos; lra). lra.
Qed.

Lemma ln_le_above y : 0 <= y -> ln (1 + y) <= 2 * y / (2 + y) + y * y * y / 12.
Proof.
  intros H. destruct (Req_dec y 0) as [->|N]. { rewrite Rplus_0_r, ln_1. lra. }
  destruct (MVT_gen (fun x => 2 * x / (2 + x) + x * x * x / 12 - ln (1 + x)) 0 y (fun x => 4 / ((2 + x) * (2 + x)) + x * x / 4 - / (1 + x))) as (c & Hc & E).
  { intros x Hx. rewrite Rmin_left in Hx by lra. auto_derive; [lra|]. field. lra. }
  { intros x Hx. rewrite Rmin_left in Hx by lra. apply continuity_pt_filterlim. apply (ex_derive_continuous (fun x => 2 * x / (2 + x) + x * x * x / 12 - ln (1 + x))). auto_derive. lra. }
  rewrite Rmin_left, Rmax_right in Hc by lra.
  replace (1 + 0) with 1 in E by ring. rewrite ln_1 in E.
  assert (0 <= 4 / ((2 + c) * (2 + c)) + c * c / 4 - / (1 + c)).
  { replace (4 / ((2 + c) * (2 + c)) + c * c / 4 - / (1 + c)) with (c * c * ((1 + c) * ((2 + c) * (2 + c)) - 4) * / (4 * ((1 + c) * ((2 + c) * (2 + c))))) by (field; lra).
    apply Rmult_le_pos; [apply Rmult_le_pos; nra|]. left. apply Rinv_0_lt_compat. repeat apply Rmult_lt_0_compat; lra. }
  assert (0 <= (4 / ((2 + c) * (2 + c)) + c * c / 4 - / (1 + c)) * (y - 0)) by (apply Rmult_le_pos; lra).
  lra.
Qed.

(** ** Samples of two values, each the same number of times *)
Section Two.
Variables (a b : R) (k : nat) (w : list R).
Hypothesis Ha : 0 < a.
Hypothesis Hab : 1024 * a <= b.
Hypothesis Hb : b <= 1000000.
Hypothesis Hbb : b * b <= 100000000 * a.
Hypothesis Hk : (1 <= k)%nat.
Hypothesis Hw : Permutation w (repeat a k ++ repeat b k).

Lemma rsum_repeat c j : rsum (repeat c j) = INR j * c.
Proof. induction j as [|j IH]; [cbn; lra|]. cbn [repeat rsum fold_right]. fold (rsum (repeat c j)). rewrite IH, S_INR. ring. Qed.
Lemma map_rep {A B} (f : A -> B) c j : map f (repeat c j) = repeat (f c) j.
Proof. induction j; cbn; congruence. Qed.
Lemma rsum_two (f : R -> R) : rsum (map f w) = INR k * (f a + f b).
Proof. rewrite (rsum_perm _ _ (Permutation_map f Hw)), map_app, !map_rep, rsum_app, !rsum_repeat. ring. Qed.
Lemma len_two : length w = (2 * k)%nat.
Proof. rewrite (Permutation_length Hw), app_length, !repeat_length. lia. Qed.
Lemma k_pos : 0 < INR k.
Proof. apply lt_0_INR. lia. Qed.
Lemma mean_two (f : R -> R) : mean (map f w) = (f a + f b) / 2.
Proof.
  unfold mean. fold (rsum (map f w)). rewrite rsum_two, map_length, len_two, mult_INR. cbn [INR]. pose proof k_pos. field. lra.
Qed.
Lemma mean_w : mean w = (a + b) / 2.
Proof. rewrite <- (map_id w), mean_two. reflexivity. Qed.
Lemma in_two y : In y w -> y = a \/ y = b.
Proof. intros H. apply (Permutation_in y Hw) in H. apply in_app_or in H as [H|H]; apply repeat_spec in H; auto. Qed.
Lemma in_a : In a w.
Proof. apply (Permutation_in a (Permutation_sym Hw)). apply in_or_app. left. destruct k; [lia|]. left. reflexivity. Qed.
Lemma in_b : In b w.
Proof. apply (Permutation_in b (Permutation_sym Hw)). apply in_or_app. right. destruct k; [lia|]. left. reflexivity. Qed.
Lemma min_two : rmin a w.
Proof. split; [exact in_a|]. intros y H. apply in_two in H. lra. Qed.
Lemma max_two : rmax b w.
Proof. split; [exact in_b|]. intros y H. apply in_two in H. lra. Qed.
Lemma ne_two : w <> [].
Proof. intros E. pose proof in_a as H. rewrite E in H. exact H. Qed.

(** Grimshaw's function in terms of A = 1 + x a, B = 1 + x b *)
Lemma grim_two x : 0 < 1 + x * a -> 0 < 1 + x * b ->
  grim w x = (2 + x * (a + b)) / (2 * ((1 + x * a) * (1 + x * b))) * (1 + ln ((1 + x * a) * (1 + x * b)) / 2) - 1.
Proof.
  intros A B. unfold grim. rewrite (mean_two (fun y => / (1 + x * y))), (mean_two (fun y => ln (1 + x * y))). rewrite ln_mult by assumption. field. lra.
Qed.

Lemma no_negative_root x : - 1 / b < x < 0 -> grim w x < 0.
Proof.
  intros (H1 & H2). assert (Bp : 0 < b) by lra.
  assert (B : 0 < 1 + x * b). { assert (- 1 / b * b < x * b) by (apply Rmult_lt_compat_r; lra). replace (- 1 / b * b) with (-1) in H by (field; lra). lra. }
  assert (A : 0 < 1 + x * a) by nra.
  rewrite grim_two by assumption. set (P := (1 + x * a) * (1 + x * b)).
  assert (HP : 0 < P) by (apply Rmult_lt_0_compat; assumption).
  assert (Xa : x * a < 0) by nra. assert (Xb : x * b < 0) by nra.
  assert (P1 : P < 1). { unfold P. assert ((1 + x * a) * (1 + x * b) < 1 * (1 + x * b)) by (apply Rmult_lt_compat_r; lra). lra. }
  assert (S : 2 + x * (a + b) < 1 + P). { unfold P. assert (0 < x * x * (a * b)) by (apply Rmult_lt_0_compat; nra). nra. }
  pose proof (ln_le_below P (conj HP (Rlt_le _ _ P1))) as L.
  assert (N : 0 < 2 + x * (a + b)) by lra.
  assert (V : 1 + ln P / 2 <= 2 * P / (P + 1)). { replace (2 * P / (P + 1)) with (1 + 2 * (P - 1) / (P + 1) / 2) by (field; lra). lra. }
  set (u := (2 + x * (a + b)) / (2 * P)). assert (U : 0 < u) by (apply Rdiv_lt_0_compat; lra).
  assert (U2 : u < (1 + P) / (2 * P)). { unfold u. apply Rmult_lt_compat_r; [apply Rinv_0_lt_compat; lra|exact S]. }
  assert (W : 0 < 2 * P / (P + 1)) by (apply Rdiv_lt_0_compat; lra).
  assert (u * (1 + ln P / 2) <= u * (2 * P / (P + 1))) by (apply Rmult_le_compat_l; lra).
  assert (u * (2 * P / (P + 1)) < (1 + P) / (2 * P) * (2 * P / (P + 1))) by (apply Rmult_lt_compat_r; lra).
  replace ((1 + P) / (2 * P) * (2 * P / (P + 1))) with 1 in H0 by (field; lra). lra.
Qed.

Lemma margin_two : margin b = 2 / 100000000.
Proof.
  unfold margin. apply Rmin_left. assert (0 < b) by lra. replace (1 / 2 / b) with (1 / 2 * / b) by (field; lra).
  assert (/ 1000000 <= / b) by (apply Rinv_le_contravar; lra). lra.
Qed.

Lemma negative_at_margin : grim w (2 / 100000000) < 0.
Proof.
  set (e := 2 / 100000000). assert (He : 0 < e) by (unfold e; lra). assert (Bp : 0 < b) by lra.
  assert (A : 0 < 1 + e * a) by nra. assert (B : 0 < 1 + e * b) by nra.
  rewrite grim_two by assumption. set (y := e * (a + b) + e * e * (a * b)). set (p := e * e * (a * b)).
  replace ((1 + e * a) * (1 + e * b)) with (1 + y) by (unfold y; ring).
  set (t := e * b). assert (T : 0 < t <= 2 / 100) by (unfold t, e; lra).
  assert (Ta : e * a <= t / 1024) by (unfold t, e; lra). assert (Ta0 : 0 < e * a) by (apply Rmult_lt_0_compat; assumption).
  assert (Ey : y = e * a + t + e * a * t) by (unfold y, t; ring).
  assert (Y0 : 0 < y) by nra. assert (Y1 : y <= 101 / 100 * t) by nra.
  assert (Ep : t * t * t / 2 <= p).
  { assert (K : b * b * e <= 2 * a) by (unfold e; lra).
    assert (K2 : (b * b * e) * (e * e * b) <= 2 * a * (e * e * b)) by (apply Rmult_le_compat_r; [nra|exact K]).
    unfold t, p. nra. }
  assert (Pp : 0 < p) by (unfold p; apply Rmult_lt_0_compat; nra).
  assert (Py : p <= y) by (unfold p; rewrite Ey; unfold t; nra).
  pose proof (ln_le_above y (Rlt_le _ _ Y0)) as L.
  assert (V : 1 + ln (1 + y) / 2 <= 2 * (1 + y) / (2 + y) + y * y * y / 24).
  { replace (2 * (1 + y) / (2 + y)) with (1 + 2 * y / (2 + y) / 2) by (field; lra). lra. }
  replace (2 + e * (a + b)) with (2 + y - p) by (unfold y, p; ring).
  assert (C : y * y * y <= 1031 / 1000 * (t * t * t)).
  { assert (y * y <= (101 / 100 * t) * (101 / 100 * t)) by (apply Rmult_le_compat; lra).
    assert (y * y * y <= (101 / 100 * t) * (101 / 100 * t) * (101 / 100 * t)) by (apply Rmult_le_compat; try lra; nra). nra. }
  assert (T3 : 0 < t * t * t) by (apply Rmult_lt_0_compat; nra).
  assert (Y3 : 0 < y * y * y) by (apply Rmult_lt_0_compat; nra).
  assert (M1 : (2 + y - p) * (y * y * y / 24) < p).
  { assert ((2 + y - p) * (y * y * y / 24) <= 203 / 100 * (y * y * y / 24)) by (apply Rmult_le_compat_r; lra). lra. }
  assert (M2 : p <= p * (2 * (1 + y) / (2 + y))).
  { assert (1 <= 2 * (1 + y) / (2 + y)). { replace (2 * (1 + y) / (2 + y)) with (1 + y * / (2 + y)) by (field; lra). assert (0 < / (2 + y)) by (apply Rinv_0_lt_compat; lra). nra. } nra. }
  assert (M3 : (2 + y - p) * (1 + ln (1 + y) / 2) < 2 * (1 + y)).
  { assert ((2 + y - p) * (1 + ln (1 + y) / 2) <= (2 + y - p) * (2 * (1 + y) / (2 + y) + y * y * y / 24)) by (apply Rmult_le_compat_l; lra).
    replace ((2 + y - p) * (2 * (1 + y) / (2 + y) + y * y * y / 24)) with (2 * (1 + y) - p * (2 * (1 + y) / (2 + y)) + (2 + y - p) * (y * y * y / 24)) in H by (field; lra). lra. }
  replace ((2 + y - p) / (2 * (1 + y)) * (1 + ln (1 + y) / 2)) with ((2 + y - p) * (1 + ln (1 + y) / 2) / (2 * (1 + y))) by (field; lra).
  assert ((2 + y - p) * (1 + ln (1 + y) / 2) / (2 * (1 + y)) < 1). { apply (Rmult_lt_reg_r (2 * (1 + y))); [lra|]. unfold Rdiv. rewrite Rmult_assoc, Rinv_l by lra. lra. }
  lra.
Qed.

(** ** Log-likelihoods of such a sample *)
Lemma ll_two g s : gpd_log_likelihood g s w = INR k * (ln (gpd_density g s a) + ln (gpd_density g s b)).
Proof. unfold gpd_log_likelihood. fold (rsum (map (fun y => ln (gpd_density g s y)) w)). apply rsum_two. Qed.

Let m := (a + b) / 2.
Let delta := 2 * a * b / ((b - a) * (b - a)).
Lemma m_pos : 0 < m.
Proof. unfold m. lra. Qed.
Lemma delta_range : 0 < delta <= 1 / 100.
Proof.
  assert (0 < (b - a) * (b - a)) by (apply Rmult_lt_0_compat; lra). unfold delta. split.
  - apply Rdiv_lt_0_compat; [|assumption]. repeat apply Rmult_lt_0_compat; lra.
  - apply (Rmult_le_reg_r ((b - a) * (b - a))); [assumption|]. unfold Rdiv. rewrite Rmult_assoc, Rinv_l by lra. nra.
Qed.
Lemma ll_exp : gpd_log_likelihood 0 m w = - (2 * INR k) * (ln m + 1).
Proof.
  pose proof m_pos. rewrite ll_two, !ln_density by assumption. destruct (Req_EM_T 0 0); [|contradiction].
  replace (a / m) with (2 - b / m) by (unfold m; field; lra). ring.
Qed.
Lemma ll_mom_le g s : g = - delta -> s = m * (1 - g) -> (forall y, In y w -> gpd_support g s y) ->
  gpd_log_likelihood g s w <= - (2 * INR k) * (ln m + 1 - delta).
Proof.
  intros Eg Es Hs. pose proof m_pos as Hm. pose proof delta_range as (D0 & D1). pose proof k_pos as Kp.
  assert (Sp : 0 < s) by (rewrite Es, Eg; apply Rmult_lt_0_compat; lra).
  rewrite ll_two, !ln_density by assumption. destruct (Req_EM_T g 0) as [C|_]; [lra|].
  assert (F : forall y, In y w -> - ln s - (1 + / g) * ln (1 + g * y / s) <= - ln s - (1 - delta) * (y / s)).
  { intros y Hy. specialize (Hs y Hy). unfold gpd_support in Hs. pose proof (ln_tangent 1 (1 + g * y / s) ltac:(lra) Hs) as L. rewrite ln_1 in L.
    replace ((1 + g * y / s) / 1 - 1 + 0) with (g * (y / s)) in L by (field; lra).
    assert (G : 0 < - (1 + / g)). { rewrite Eg, Rinv_opp. assert (100 <= / delta). { apply (Rmult_le_reg_l delta); [exact D0|]. rewrite Rinv_r by lra. lra. } lra. }
    assert (- (1 + / g) * ln (1 + g * y / s) <= - (1 + / g) * (g * (y / s))) by (apply Rmult_le_compat_l; lra).
    replace (- (1 + / g) * (g * (y / s))) with (- (1 + g) * (y / s)) in H by (field; lra). replace (1 + g) with (1 - delta) in H by lra. lra. }
  pose proof (F a in_a) as Fa. pose proof (F b in_b) as Fb.
  assert (E : a / s + b / s = 2 * / (1 + delta)). { rewrite Es, Eg. replace (1 - - delta) with (1 + delta) by ring. unfold m. field. split; lra. }
  assert (Ls : ln s = ln m + ln (1 + delta)). { rewrite Es, Eg. replace (1 - - delta) with (1 + delta) by ring. apply ln_mult; lra. }
  assert (Ld : delta * / (1 + delta) <= ln (1 + delta)).
  { assert (Hi : 0 < / (1 + delta)) by (apply Rinv_0_lt_compat; lra).
    pose proof (ln_tangent 1 (/ (1 + delta)) ltac:(lra) Hi) as L. rewrite ln_1, ln_Rinv in L by lra.
    replace (delta * / (1 + delta)) with (1 - / (1 + delta)) by (field; lra). lra. }
  assert (I1 : 1 - delta <= / (1 + delta)). { apply (Rmult_le_reg_r (1 + delta)); [lra|]. rewrite Rinv_l by lra. nra. }
  assert (I2 : delta * / (1 + delta) = 1 - / (1 + delta)) by (field; lra).
  assert (I3 : / (1 + delta) <= 1). { rewrite <- Rinv_1 at 2. apply Rinv_le_contravar; lra. }
  assert (Q : - ln s - (1 + / g) * ln (1 + g * a / s) + (- ln s - (1 + / g) * ln (1 + g * b / s)) <= - 2 * (ln m + 1 - delta)).
  { assert ((1 - delta) * (a / s) + (1 - delta) * (b / s) = 2 * ((1 - delta) * / (1 + delta))). { rewrite <- Rmult_plus_distr_l, E. ring. }
    assert ((1 - delta) * / (1 + delta) = / (1 + delta) - delta * / (1 + delta)) by ring. lra. }
  replace (- (2 * INR k) * (ln m + 1 - delta)) with (INR k * (- 2 * (ln m + 1 - delta))) by ring.
  apply Rmult_le_compat_l; lra.
Qed.

(** the alternative: the point 1 / a *)
Let r := b / a.
Let g1 := (ln 2 + ln (1 + r)) / 2.
Let s1 := a * g1.
Lemma r_ge : 1024 <= r.
Proof. unfold r. apply (Rmult_le_reg_r a); [exact Ha|]. unfold Rdiv. rewrite Rmult_assoc, Rinv_l by lra. lra. Qed.
Lemma ln2_bounds : 0 < ln 2 <= 7 / 10.
Proof.
  split. { rewrite <- ln_1. apply ln_increasing; lra. }
  assert (E : 2 = (4 / 3) * (3 / 2)) by field. rewrite E, ln_mult by lra.
  pose proof (ln_le_above (1 / 3) ltac:(lra)). pose proof (ln_le_above (1 / 2) ltac:(lra)).
  replace (4 / 3) with (1 + 1 / 3) by field. replace (3 / 2) with (1 + 1 / 2) by field. lra.
Qed.
Lemma L_ge : 10 * ln 2 <= ln (1 + r).
Proof.
  pose proof r_ge. replace (10 * ln 2) with (ln (2 ^ 10)). { left. apply ln_increasing; lra. }
  rewrite ln_pow by lra. cbn [INR]. ring.
Qed.
Lemma g1_pos : 0 < g1.
Proof. pose proof ln2_bounds. pose proof L_ge. unfold g1. lra. Qed.
Lemma ll_alt : gpd_log_likelihood g1 s1 w = - (2 * INR k) * (ln s1 + g1 + 1).
Proof.
  pose proof g1_pos as G. assert (S : 0 < s1) by (apply Rmult_lt_0_compat; assumption).
  rewrite ll_two, !ln_density by assumption. destruct (Req_EM_T g1 0) as [C|_]; [lra|].
  replace (g1 * a / s1) with 1 by (unfold s1; field; lra). replace (g1 * b / s1) with r by (unfold s1, r; field; lra).
  replace (1 + 1) with 2 by ring.
  replace (- ln s1 - (1 + / g1) * ln 2 + (- ln s1 - (1 + / g1) * ln (1 + r))) with (- 2 * ln s1 - (1 + / g1) * (ln 2 + ln (1 + r))) by ring.
  replace (ln 2 + ln (1 + r)) with (2 * g1) by (unfold g1; field).
  field. lra.
Qed.
Lemma gap : 2 * INR k * (ln r / 8) <= gpd_log_likelihood g1 s1 w + 2 * INR k * (ln m + 1 - delta).
Proof.
  rewrite ll_alt. pose proof k_pos. pose proof g1_pos as G. pose proof ln2_bounds as (l0 & l1). pose proof L_ge as HL. pose proof delta_range as (_ & D). pose proof r_ge as R.
  assert (E1 : ln s1 = ln a + ln g1) by (apply ln_mult; assumption).
  assert (E2 : ln m = ln a + ln (1 + r) - ln 2).
  { replace m with (a * (1 + r) / 2) by (unfold m, r; field; lra). unfold Rdiv. rewrite ln_mult, ln_mult, ln_Rinv by (try lra; apply Rmult_lt_0_compat; lra). ring. }
  pose proof (ln_tangent 4 g1 ltac:(lra) G) as L4. replace (ln 4) with (2 * ln 2) in L4 by (replace 4 with (2 * 2) by ring; rewrite ln_mult by lra; ring).
  assert (E3 : ln r <= ln (1 + r)). { left. apply ln_increasing; lra. }
  assert (Q : ln r / 8 <= ln m + 1 - delta - (ln s1 + g1 + 1)).
  { rewrite E1, E2. unfold g1 in *. lra. }
  assert (2 * INR k * (ln r / 8) <= 2 * INR k * (ln m + 1 - delta - (ln s1 + g1 + 1))) by (apply Rmult_le_compat_l; lra). lra.
Qed.

(** ** The program *)
Variables (cap : Z) (t : tail RNum).
Hypothesis I : rinv cap (t_peaks t) w.
Hypothesis E2 : p_e2 (t_peaks t) = Some (sumsq w).

Lemma brent_same_sign (f : num RNum -> res (num RNum)) x1 x2 tol u v found x : f x1 = Ret (Some u) -> f x2 = Ret (Some v) -> u < 0 -> v < 0 ->
  brent f x1 x2 tol = Ret (found, x) -> found = false.
Proof.
  intros H1 H2 Hu Hv. unfold brent. rewrite H1, H2. cbn [bind].
  assert (S : same_sign (N := RNum) (Some u) (Some v) = true).
  { unfold same_sign. cbn [nlt nle neq nofZ RNum xrb]. rewrite (Rlt_bool_true u 0), (Rlt_bool_true v 0) by assumption. apply orb_true_r. }
  change (num RNum) with xr in *. rewrite S. congruence.
Qed.

Lemma grimshaw_two : grimshaw_estimator exact_math (t_peaks t) = Ret (fit_of w 0).
Proof.
  pose proof ne_two as Hne. destruct (rinv_extremes cap _ w a b I Hne min_two max_two) as (E3 & E4).
  destruct (estimator_exact cap (t_peaks t) w a b I Hne E3 E4 min_two max_two Ha) as (fl & xl & fr & xr & x & (SL & HL) & (SR & HR) & EG & Cx & _).
  assert (Bp : 0 < b) by lra.
  assert (Fl : fl = false).
  { destruct fl; [|reflexivity]. destruct (HL eq_refl) as (_ & z & Hz & Rz & _). exfalso. unfold lo1, hi1 in Hz. rewrite margin_two in Hz.
    assert (O : - 1 / b + 2 / 100000000 <= - (2 / 100000000)).
    { replace (- 1 / b) with (- / b) by (field; lra). assert (/ 1000000 <= / b) by (apply Rinv_le_contravar; lra). lra. }
    rewrite Rmin_left, Rmax_right in Hz by exact O. pose proof (no_negative_root z ltac:(lra)). lra. }
  assert (Fr : fr = false).
  { unfold lo2 in SR. rewrite margin_two in SR.
    refine (brent_same_sign _ _ _ _ (grim w (2 / 100000000)) (grim w (hi2 w a)) fr _ _ _ negative_at_margin _ SR).
    - apply (grim_exact cap _ w I Hne). intros y Hy. apply in_two in Hy. destruct Hy as [-> | ->]; lra.
    - apply (grim_exact cap _ w I Hne). pose proof (hi2_nonneg w a Hne min_two Ha) as O. intros y Hy. apply in_two in Hy. destruct Hy as [-> | ->]; nra.
    - apply (grim_negative w a); try assumption; [exact min_two| |apply Rle_refl]. unfold hi2. rewrite mean_w.
      apply Rdiv_lt_0_compat; [lra|]. apply Rmult_lt_0_compat; assumption. }
  destruct Cx as [->|[(C & _)|(C & _)]]; [exact EG|congruence|congruence].
Qed.

Lemma variance_two : variance w = (b - a) * (b - a) / 4.
Proof. unfold variance. rewrite mean_w, (mean_two (fun y => (y - (a + b) / 2) * (y - (a + b) / 2))). field. Qed.
Lemma mom_two : exists g s ll, g = - delta /\ s = m * (1 - g) /\ mom_estimator exact_math (t_peaks t) = Ret (ll, Some g : num RNum, Some s : num RNum) /\
  log_likelihood exact_math (t_peaks t) (Some g : num RNum) (Some s : num RNum) = Ret ll.
Proof.
  pose proof ne_two as Hne. pose proof (var_of (t_peaks t) cap w _ I Hne E2) as EV.
  assert (EV' : peaks_var (t_peaks t) = Some ((b - a) * (b - a) / 4)).
  { rewrite EV. f_equal. rewrite <- variance_two, (variance_eq w Hne). unfold mean, sumsq, rsum. reflexivity. }
  pose proof (mean_exact cap _ w I Hne) as EM. rewrite mean_w in EM. fold m in EM.
  assert (Vp : 0 < (b - a) * (b - a) / 4) by (apply Rdiv_lt_0_compat; [apply Rmult_lt_0_compat|]; lra).
  set (rr := m * m / ((b - a) * (b - a) / 4)).
  destruct (ll_total_R cap (t_peaks t) w (Some (1 / 2 * (1 - rr)) : num RNum) (Some (1 / 2 * m * (1 + rr)) : num RNum) I) as (ll & EL).
  assert (Eg : 1 / 2 * (1 - rr) = - delta) by (unfold rr, delta, m; field; lra).
  exists (1 / 2 * (1 - rr)), (1 / 2 * m * (1 + rr)), ll. split; [exact Eg|]. split; [rewrite <- (Rmult_1_l m) at 2; field|]. split; [|exact EL].
  unfold mom_estimator. rewrite EM, EV', half_R. cbn [nmul nadd nsub ndiv nofZ RNum xr2]. rewrite xr_div_nz by lra. cbn [xr2].
  fold rr. rewrite EL. reflexivity.
Qed.

Lemma miss_two : exists g s, tail_fit exact_math t = Ret (MkTail (N := RNum) (Some g) (Some s) (t_peaks t), Some (gpd_log_likelihood g s w)) /\ g <= 0 /\
  gpd_log_likelihood g s w + INR (length w) / 8 * ln (b / a) <= gpd_log_likelihood g1 s1 w.
Proof.
  pose proof ne_two as Hne. pose proof k_pos as Kp. pose proof gap as Gp. pose proof delta_range as (D0 & D1). fold r.
  rewrite len_two, mult_INR. cbn [INR]. 
  destruct mom_two as (g & s & ll & Eg & Es & EM & EL).
  assert (L0 : cand_ll w 0 = gpd_log_likelihood 0 m w).
  { unfold cand_ll, cand_scale, cand_shape. destruct (Req_EM_T 0 0); [rewrite mean_w; reflexivity|contradiction]. }
  assert (C0 : cand_shape w 0 = 0 /\ cand_scale w 0 = m).
  { unfold cand_scale, cand_shape. destruct (Req_EM_T 0 0); [rewrite mean_w; split; reflexivity|contradiction]. }
  assert (K : 2 * INR k * (ln r / 8) = (1 + 1) * INR k / 8 * ln r) by field.
  assert (X0 : gpd_log_likelihood 0 m w + (1 + 1) * INR k / 8 * ln r <= gpd_log_likelihood g1 s1 w).
  { rewrite ll_exp. assert (0 < 2 * INR k * delta) by (apply Rmult_lt_0_compat; lra). lra. }
  unfold tail_fit, ESTIMATORS. cbn [tail_fit_loop]. rewrite EM. cbn [bind]. rewrite c_nan_R, is_nan_None. cbn [orb].
  cbn [t_peaks]. rewrite grimshaw_two. unfold fit_of. cbn [bind]. destruct C0 as (-> & ->). rewrite L0.
  destruct ll as [ll|].
  - rewrite is_nan_R. cbn [orb nlt RNum xrb]. destruct (ll_valid cap _ w _ _ ll I Hne EL) as (g' & s' & Eg' & Es' & Vs & Vy & ->).
    injection Eg' as <-. injection Es' as <-.
    case Rlt_bool_spec; intros C.
    + exists 0, m. split; [reflexivity|]. split; [lra|exact X0].
    + exists g, s. split; [reflexivity|]. split; [lra|]. pose proof (ll_mom_le g s Eg Es Vy). lra.
  - rewrite is_nan_None. cbn [orb]. exists 0, m. split; [reflexivity|]. split; [lra|exact X0].
Qed.
End Two.

Lemma C69_lemma (a b : R) k cap blk (xs : list R) t : 0 < a -> 1024 * a <= b -> b <= 1000000 -> b * b <= 100000000 * a -> (1 <= k)%nat ->
  Permutation xs (repeat a k ++ repeat b k) -> (Z.of_nat (length xs) <= cap < 2 ^ 61)%Z -> Z.of_nat (length blk) = cap ->
  peaks_pushes (N := RNum) (fst (peaks_init (Some blk) cap)) (map Some xs) = Ret (t_peaks t) ->
  exists g s g' s', tail_fit exact_math t = Ret (MkTail (N := RNum) (Some g) (Some s) (t_peaks t), Some (gpd_log_likelihood g s xs)) /\ g <= 0 /\
    0 < g' /\ 0 < s' /\ gpd_log_likelihood g s xs + INR (length xs) / 8 * ln (b / a) <= gpd_log_likelihood g' s' xs.
Proof.
  intros Ha Hab Hb Hbb Hk Hw Hc Hl E.
  assert (Hlen : (1 <= length xs)%nat). { rewrite (len_two a b k xs Hk Hw). lia. }
  assert (Hcap : (1 <= cap < 2 ^ 61)%Z) by lia.
  assert (Ew : last_k cap xs = xs).
  { unfold last_k. replace (length xs - Z.to_nat cap)%nat with 0%nat by lia. reflexivity. }
  pose proof (rwindow cap blk xs _ Hcap Hl E) as I. rewrite Ew in I.
  assert (E2 : p_e2 (t_peaks t) = Some (sumsq xs)).
  { destruct (C18_moment_lemma cap blk xs Hcap Hl) as (p & E' & E2 & _).
    - intros pre x post old Ex No Hc'. exfalso. assert (length pre < length xs)%nat by (rewrite Ex, app_length; cbn; lia). lia.
    - intros C. rewrite C in Hlen. cbn in Hlen. lia.
    - rewrite E in E'. injection E' as <-. rewrite Ew in E2. exact E2. }
  destruct (miss_two a b k xs Ha Hab Hb Hbb Hk Hw cap t I E2) as (g & s & F & G & L).
  pose proof (g1_pos a b Ha Hab) as G1.
  exists g, s, ((ln 2 + ln (1 + b / a)) / 2), (a * ((ln 2 + ln (1 + b / a)) / 2)). split; [exact F|]. split; [exact G|].
  split; [exact G1|]. split; [apply Rmult_lt_0_compat; assumption|exact L].
Qed.
