(** * ExactTail: quantiles, probabilities and estimators in exact arithmetic (C31, C32, C47-C49) *)
From Coq Require Import ZArith List Bool Lia Reals Lra Permutation.
From Flocq Require Import Core.Core.
From Coquelicot Require Import Coquelicot.
From Verif Require Import Num NumFacts XMath Ubend Session UbendFacts Peaks PeaksFacts Brent Estimator Tail P2 Spot B64 Spec RNum WindowLemmas ExactWindow TailSpec.
Import ListNotations.
Open Scope R_scope.

Lemma rlog_pos a : 0 < a -> R_log (Some a) = Some (ln a).
Proof. intros H. unfold R_log. rewrite Rlt_bool_true by assumption. reflexivity. Qed.
Lemma xr_div_nz a b : b <> 0 -> xr_div (Some a) (Some b) = Some (a / b).
Proof. intros H. unfold xr_div. rewrite Req_bool_false by assumption. reflexivity. Qed.

Section Det.
Variables (s : spot RNum) (et u sg g : R).
Hypothesis D : real_detector s et u sg g.

Lemma rate_pos : 0 < excess_rate s.
Proof. destruct D as (_ & _ & _ & _ & _ & _ & A & B). apply Rdiv_lt_0_compat; apply IZR_lt; lia. Qed.
Lemma rate_eq : ndiv (n := RNum) (nofZ (s_Nt s)) (nofZ (s_n s)) = Some (excess_rate s).
Proof.
  destruct D as (_ & _ & _ & _ & _ & _ & A & B). cbn [ndiv nofZ RNum]. apply xr_div_nz.
  apply not_0_IZR. lia.
Qed.
Lemma u_sq : u * u = 1.
Proof. destruct D as (_ & _ & [-> | ->] & _); lra. Qed.

(** the exact quantile *)
Definition zq (q : R) : R :=
  et + u * (if Req_EM_T g 0 then - sg * ln (q / excess_rate s)
            else sg / g * (exp (- g * ln (q / excess_rate s)) - 1)).

Lemma quantile_eq q : 0 < q -> spot_quantile exact_math s (Some q : num RNum) = Ret (Some (zq q)).
Proof.
  intros Hq. pose proof rate_pos as Hr. unfold spot_quantile, tail_quantile.
  rewrite rate_eq. destruct D as (E1 & E2 & E3 & E4 & E5 & E6 & _). rewrite E1, E2, E4, E6.
  cbn [ndiv RNum nmul nadd nsub nopp neq nofZ xrb exact_math m_pow m_log m_exp].
  rewrite xr_div_nz by lra. rewrite rlog_pos by (apply Rdiv_lt_0_compat; assumption).
  unfold zq. destruct (Req_EM_T g 0) as [G|G].
  - rewrite Req_bool_true by assumption. cbn [bind xr_opp xr2]. reflexivity.
  - rewrite Req_bool_false by assumption. cbn [bind xr_opp xr2 R_exp].
    rewrite xr_div_nz by assumption. reflexivity.
Qed.

Lemma probability_eq z : gpd_support g sg (u * (z - et)) ->
  spot_probability exact_math s (Some z : num RNum) = Ret (Some (excess_rate s * gpd_survival g sg (u * (z - et)))).
Proof.
  unfold gpd_support. intros Hs. unfold spot_probability, tail_probability.
  rewrite rate_eq. destruct D as (E1 & E2 & E3 & E4 & E5 & E6 & _). rewrite E1, E2, E4, E6.
  cbn [ndiv RNum nmul nadd nsub nopp neq nofZ xrb exact_math m_pow m_log m_exp].
  unfold gpd_survival. destruct (Req_EM_T g 0) as [G|G].
  - rewrite Req_bool_true by assumption. cbn [xr2 xr_opp]. rewrite xr_div_nz by lra. cbn [bind R_exp xr2]. reflexivity.
  - rewrite Req_bool_false by assumption. cbn [xr2 xr_opp]. rewrite !xr_div_nz by lra. cbn [bind R_exp xr2].
    replace (1 + u * (z - et) * (g / sg)) with (1 + g * (u * (z - et)) / sg) by (field; lra).
    rewrite rlog_pos by assumption. cbn [xr2 R_exp]. unfold Rpower. do 5 f_equal. field. assumption.
Qed.

Lemma zq_offset q : u * (zq q - et) = if Req_EM_T g 0 then - sg * ln (q / excess_rate s)
            else sg / g * (exp (- g * ln (q / excess_rate s)) - 1).
Proof.
  unfold zq. match goal with |- context [if _ then ?a else ?b] => set (c := if Req_EM_T g 0 then a else b) end.
  replace (u * (et + u * c - et)) with (u * u * c) by ring. rewrite u_sq. ring.
Qed.
Lemma zq_scaled q : 1 + g * (u * (zq q - et)) / sg = exp (- g * ln (q / excess_rate s)).
Proof.
  assert (0 < sg) by apply D. rewrite zq_offset. destruct (Req_EM_T g 0) as [G|G].
  - rewrite G, Ropp_0, !Rmult_0_l, exp_0. field. lra.
  - field. split; lra.
Qed.

Lemma C31_forward q : 0 < q ->
  exists z, spot_quantile exact_math s (Some q : num RNum) = Ret (Some z) /\ gpd_support g sg (u * (z - et)) /\
    spot_probability exact_math s (Some z : num RNum) = Ret (Some q).
Proof.
  intros Hq. pose proof rate_pos as Hr. exists (zq q). split; [apply quantile_eq; assumption|].
  assert (Hs : gpd_support g sg (u * (zq q - et))).
  { unfold gpd_support. rewrite zq_scaled. apply exp_pos. }
  split; [exact Hs|]. rewrite probability_eq by assumption. do 2 f_equal. unfold gpd_survival.
  assert (0 < sg) by apply D.
  destruct (Req_EM_T g 0) as [G|G].
  - rewrite zq_offset. destruct (Req_EM_T g 0); [|contradiction].
    replace (- (- sg * ln (q / excess_rate s)) / sg) with (ln (q / excess_rate s)) by (field; lra).
    rewrite exp_ln by (apply Rdiv_lt_0_compat; assumption). field. lra.
  - rewrite zq_scaled. unfold Rpower. rewrite ln_exp.
    replace (- / g * (- g * ln (q / excess_rate s))) with (ln (q / excess_rate s)) by (field; lra).
    rewrite exp_ln by (apply Rdiv_lt_0_compat; assumption). field. lra.
Qed.

Lemma survival_pos y : 0 < gpd_survival g sg y.
Proof. unfold gpd_survival. destruct (Req_EM_T g 0); apply exp_pos. Qed.

Lemma C31_backward z : gpd_support g sg (u * (z - et)) ->
  exists q, spot_probability exact_math s (Some z : num RNum) = Ret (Some q) /\ 0 < q /\
    spot_quantile exact_math s (Some q : num RNum) = Ret (Some z).
Proof.
  intros Hs. pose proof rate_pos as Hr. pose proof (survival_pos (u * (z - et))) as Hp.
  exists (excess_rate s * gpd_survival g sg (u * (z - et))). split; [apply probability_eq; assumption|].
  split; [apply Rmult_lt_0_compat; assumption|].
  rewrite quantile_eq by (apply Rmult_lt_0_compat; assumption). do 2 f_equal.
  assert (K : u * (zq (excess_rate s * gpd_survival g sg (u * (z - et))) - et) = u * (z - et)).
  { rewrite zq_offset.
    replace (excess_rate s * gpd_survival g sg (u * (z - et)) / excess_rate s) with (gpd_survival g sg (u * (z - et))) by (field; lra).
    assert (0 < sg) by apply D. unfold gpd_survival, gpd_support in *. destruct (Req_EM_T g 0) as [G|G].
    - rewrite ln_exp. field. lra.
    - unfold Rpower. rewrite ln_exp.
      replace (- g * (- / g * ln (1 + g * (u * (z - et)) / sg))) with (ln (1 + g * (u * (z - et)) / sg)) by (field; lra).
      rewrite exp_ln by assumption. field. split; lra. }
  assert (u <> 0) by (destruct D as (_ & _ & [-> | ->] & _); lra).
  apply Rmult_eq_reg_l in K; [lra|assumption].
Qed.

(** ** Order *)
Lemma offset_decreasing a b : 0 < a -> a < b -> u * (zq b - et) < u * (zq a - et).
Proof.
  intros Ha Hb. pose proof rate_pos as Hr. rewrite !zq_offset. assert (0 < sg) by apply D.
  assert (L : ln (a / excess_rate s) < ln (b / excess_rate s)).
  { apply ln_increasing; [apply Rdiv_lt_0_compat; assumption|]. apply Rmult_lt_compat_r; [apply Rinv_0_lt_compat|]; assumption. }
  destruct (Req_EM_T g 0) as [G|G].
  - assert (sg * ln (a / excess_rate s) < sg * ln (b / excess_rate s)) by (apply Rmult_lt_compat_l; assumption). lra.
  - destruct (Rtotal_order g 0) as [G1|[G1|G1]]; [|contradiction|].
    + assert (X : exp (- g * ln (a / excess_rate s)) < exp (- g * ln (b / excess_rate s))).
      { apply exp_increasing. apply Rmult_lt_compat_l; lra. }
      assert (0 < sg / - g) by (apply Rdiv_lt_0_compat; lra).
      assert (sg / g = - (sg / - g)) as -> by (field; lra).
      pose proof (Rmult_lt_compat_l (sg / - g) _ _ ltac:(assumption) X). lra.
    + assert (X : exp (- g * ln (b / excess_rate s)) < exp (- g * ln (a / excess_rate s))).
      { apply exp_increasing. assert (g * ln (a / excess_rate s) < g * ln (b / excess_rate s)) by (apply Rmult_lt_compat_l; lra). lra. }
      assert (0 < sg / g) by (apply Rdiv_lt_0_compat; lra).
      pose proof (Rmult_lt_compat_l (sg / g) _ _ ltac:(assumption) X). lra.
Qed.
Lemma offset_rate : u * (zq (excess_rate s) - et) = 0.
Proof.
  pose proof rate_pos as Hr. rewrite zq_offset. replace (excess_rate s / excess_rate s) with 1 by (field; lra). rewrite ln_1.
  destruct (Req_EM_T g 0); [ring|]. rewrite Rmult_0_r, exp_0. ring.
Qed.

Lemma C32_decreasing_lemma q1 q2 z1 z2 : 0 < q1 -> q1 < q2 ->
  spot_quantile exact_math s (Some q1 : num RNum) = Ret (Some z1) ->
  spot_quantile exact_math s (Some q2 : num RNum) = Ret (Some z2) -> u * z2 < u * z1.
Proof.
  intros H1 H2. rewrite !quantile_eq by lra. intros E1 E2. injection E1 as <-. injection E2 as <-.
  pose proof (offset_decreasing q1 q2 H1 H2). lra.
Qed.
Lemma C32_position_lemma q z : 0 < q -> spot_quantile exact_math s (Some q : num RNum) = Ret (Some z) ->
  (0 <= u * (z - et) <-> q <= excess_rate s) /\ (0 < u * (z - et) <-> q < excess_rate s).
Proof.
  intros Hq. rewrite quantile_eq by assumption. intros E. injection E as <-. pose proof rate_pos as Hr. pose proof offset_rate as O.
  destruct (Rtotal_order q (excess_rate s)) as [C|[C|C]].
  - pose proof (offset_decreasing q _ Hq C). split; split; intros; lra.
  - rewrite C, O. lra.
  - pose proof (offset_decreasing _ q Hr C). split; split; intros; lra.
Qed.
End Det.
Lemma C32_anomaly_lemma (s0 s : spot RNum) et u sg g q a x s' : real_detector s0 et u sg g ->
  0 < q <= excess_rate s0 -> spot_quantile exact_math s0 (Some q : num RNum) = Ret (Some a) ->
  s_et s = Some et -> s_updown s = Some u -> s_at s = Some a -> spot_step exact_math s (Some x : num RNum) = Ret (s', ANOMALY) -> 0 < u * (x - et).
Proof.
  intros D [Hq Hr] E _ E2 A. pose proof (proj1 (C32_position_lemma s0 et u sg g D q a Hq E)) as [_ P]. specialize (P Hr).
  unfold spot_step. rewrite is_nan_R. rewrite E2, A.
  destruct (_ && _)%bool eqn:B.
  - intros _. apply andb_prop in B as (_ & B). cbn in B.  revert B. case Rlt_bool_spec; [intros B _|discriminate]. lra.
  - intros H. exfalso. revert H. cbn [num RNum nsub nmul nofZ xr2].
    match goal with |- (if ?b then _ else _) = _ -> _ => destruct b end; [|intros H; injection H as _ H; discriminate H].
    destruct (tail_push _ _) as [t|]; [|discriminate]. cbn [bind].
    destruct (tail_fit _ _) as [[t' l]|]; [|discriminate]. cbn [bind].
    match goal with |- bind ?b _ = _ -> _ => destruct b end; cbn [bind]; intros H; [injection H as _ H; discriminate H|discriminate H].
Qed.

(** ** The window in exact arithmetic *)
Lemma rwin cap p l : rinv cap p l -> exists w : list R, Permutation w l /\ prep cap p (map Some l) (map Some w).
Proof.
  intros (Rp & _). destruct (prep_exists cap p _ Rp) as (w' & P). destruct P as (P0 & P1 & P2 & P3).
  destruct (Permutation_map_inv _ _ P2) as (w & -> & Q).
  exists w. split; [apply Permutation_sym; assumption|]. repeat split; try assumption; try apply P0.
Qed.

Lemma rwindow cap blk (xs : list R) p : (1 <= cap < 2 ^ 61)%Z -> Z.of_nat (length blk) = cap ->
  peaks_pushes (N := RNum) (fst (peaks_init (Some blk) cap)) (map Some xs) = Ret p -> rinv cap p (last_k cap xs).
Proof.
  intros H1 H2 E. destruct (rpushes cap _ [] xs (rinv_init cap blk H1 H2)) as (p' & E' & H & _).
  { exists 0. reflexivity. }
  cbn [app] in *. assert (p = p') as -> by congruence. exact H.
Qed.

(** ** C48 *)
Lemma fold_sum (F : num RNum -> num RNum) (h : R -> R) w r0 : (forall y, In y w -> F (Some y) = Some (h y)) ->
  fold_left (fun (r v : num RNum) => nadd r (F v)) (map Some w) (Some r0 : num RNum) = Some (r0 + rsum (map h w)).
Proof.
  revert r0. induction w as [|y w IH]; intros r0 H; cbn [map fold_left].
  - f_equal. rewrite rsum_nil. ring.
  - rewrite (H y) by (left; reflexivity). cbn [nadd RNum xr2].
    rewrite IH by (intros; apply H; right; assumption). f_equal. rewrite rsum_cons. ring.
Qed.

Lemma ln_density g sg y : 0 < sg ->
  ln (gpd_density g sg y) = if Req_EM_T g 0 then - ln sg - y / sg else - ln sg - (1 + / g) * ln (1 + g * y / sg).
Proof.
  intros Hs. unfold gpd_density. destruct (Req_EM_T g 0) as [G|G]; unfold Rdiv at 1.
  - rewrite ln_mult, ln_exp, ln_Rinv by (try apply exp_pos; try apply Rinv_0_lt_compat; assumption). field. lra.
  - unfold Rpower. rewrite ln_mult, ln_exp, ln_Rinv by (try apply exp_pos; try apply Rinv_0_lt_compat; assumption). field. assumption.
Qed.

Lemma rsum_ext {A} (f h : A -> R) l : (forall y, In y l -> f y = h y) -> rsum (map f l) = rsum (map h l).
Proof.
  intros H. f_equal. apply map_ext_in. exact H.
Qed.
Lemma rsum_plus {A} (f h : A -> R) l : rsum (map (fun y => f y + h y) l) = rsum (map f l) + rsum (map h l).
Proof. induction l as [|a l IH]; cbn [map]; rewrite ?rsum_nil, ?rsum_cons; [ring|]. rewrite IH. ring. Qed.
Lemma rsum_scal {A} c (f : A -> R) l : rsum (map (fun y => c * f y) l) = c * rsum (map f l).
Proof. induction l as [|a l IH]; cbn [map]; rewrite ?rsum_nil, ?rsum_cons; [ring|]. rewrite IH. ring. Qed.
Lemma rsum_const {A} c (l : list A) : rsum (map (fun _ => c) l) = INR (length l) * c.
Proof.
  induction l as [|a l IH]; cbn [map length]; [rewrite rsum_nil; cbn; ring|]. rewrite rsum_cons, S_INR, IH. ring.
Qed.
Lemma rsum_id l : rsum (map (fun y => y) l) = rsum l.
Proof. rewrite map_id. reflexivity. Qed.

Lemma gll_perm g sg a b : Permutation a b -> gpd_log_likelihood g sg a = gpd_log_likelihood g sg b.
Proof. intros P. apply rsum_perm. apply Permutation_map. exact P. Qed.

Lemma ll_exact cap p l g sg : rinv cap p l -> 0 < sg -> (forall y, In y l -> gpd_support g sg y) ->
  log_likelihood exact_math p (Some g : num RNum) (Some sg : num RNum) = Ret (Some (gpd_log_likelihood g sg l)).
Proof.
  intros I Hs Hy. destruct (rwin _ _ _ I) as (w & Pw & Pr). destruct I as (_ & He & _).
  rewrite (log_likelihood_eq _ _ _ _ _ _ _ Pr). f_equal. unfold log_likelihood_of. rewrite map_length, He.
  cbn [neq nofZ RNum xrb nopp xr_opp exact_math m_log]. rewrite rlog_pos by assumption.
  rewrite <- INR_IZR_INZ. rewrite <- (gll_perm _ _ _ _ Pw). assert (Hw : forall y, In y w -> gpd_support g sg y).
  { intros y H. apply Hy. apply (Permutation_in y Pw H). }
  unfold gpd_log_likelihood. fold (rsum (map (fun y => ln (gpd_density g sg y)) w)).
  rewrite (rsum_ext _ _ _ (fun y _ => ln_density g sg y Hs)).
  destruct (Req_EM_T g 0) as [G|G].
  - rewrite Req_bool_true by assumption. cbn [nmul nsub ndiv RNum xr2]. rewrite xr_div_nz by lra. cbn [xr2].
    f_equal. rewrite <- (rsum_perm _ _ Pw).
    rewrite (rsum_ext _ (fun y => - ln sg + (- / sg) * y)) by (intros; field; lra).
    rewrite rsum_plus, rsum_const, rsum_scal, rsum_id. field. lra.
  - rewrite Req_bool_false by assumption.
    rewrite (rsum_ext _ (fun y => - ln sg + (- (1 + / g)) * ln (1 + g / sg * y))).
    2:{ intros y H. replace (g / sg * y) with (g * y / sg) by (field; lra). ring. }
    rewrite rsum_plus, rsum_const.
    transitivity (Some (- INR (length w) * ln sg + rsum (map (fun y => (- (1 + / g)) * ln (1 + g / sg * y)) w))); [|f_equal; ring].
    cbn [nmul RNum xr2].
    apply (fold_sum (fun v => (- (#1 + #1 / (Some g : num RNum))) * R_log (#1 + ((Some g : num RNum) / Some sg) * v))%num).
    intros y H. specialize (Hw y H). unfold gpd_support in Hw.
    cbn [nadd nmul nofZ ndiv nopp RNum xr2]. rewrite !xr_div_nz by lra. cbn [xr2 xr_opp].
    rewrite rlog_pos by (replace (g / sg * y) with (g * y / sg) by (field; lra); exact Hw). cbn [xr2].
    f_equal. replace (1 / g) with (/ g) by (unfold Rdiv; ring). reflexivity.
Qed.

Lemma C48_lemma cap blk (xs : list R) p g sg : (1 <= cap < 2 ^ 61)%Z -> Z.of_nat (length blk) = cap ->
  peaks_pushes (N := RNum) (fst (peaks_init (Some blk) cap)) (map Some xs) = Ret p ->
  0 < sg -> (forall y, In y (last_k cap xs) -> gpd_support g sg y) ->
  log_likelihood exact_math p (Some g : num RNum) (Some sg : num RNum) = Ret (Some (gpd_log_likelihood g sg (last_k cap xs))).
Proof. intros H1 H2 E. apply (ll_exact cap). apply (rwindow cap blk); assumption. Qed.

(** ** C47 *)
Lemma length_INR_pos {A} (l : list A) : l <> [] -> 0 < INR (length l).
Proof. intros H. apply lt_0_INR. destruct l; [congruence|cbn; lia]. Qed.

Lemma variance_eq l : l <> [] -> variance l = sumsq l / INR (length l) - mean l * mean l.
Proof.
  intros Hne. pose proof (length_INR_pos l Hne) as Hp. unfold variance. set (m := mean l).
  unfold mean. fold (rsum (map (fun y => (y - m) * (y - m)) l)). rewrite map_length.
  rewrite (rsum_ext _ (fun y => y * y + ((- 2 * m) * y + m * m))) by (intros; ring).
  rewrite rsum_plus, (rsum_plus (fun y => (- 2 * m) * y) (fun _ => m * m)), rsum_scal, rsum_id, rsum_const. fold (sumsq l).
  assert (E : rsum l = INR (length l) * m) by (unfold m, mean, rsum; field; lra). rewrite E. field. lra.
Qed.

Lemma mean_exact cap p l : rinv cap p l -> l <> [] -> peaks_mean p = Some (mean l).
Proof.
  intros (Rp & He & _) Hne. unfold peaks_mean, peaks_size. rewrite (rep_size _ _ _ Rp), map_length, He.
  cbn [ndiv nofZ RNum]. rewrite <- INR_IZR_INZ. pose proof (length_INR_pos l Hne). rewrite xr_div_nz by lra. reflexivity.
Qed.

Lemma ll_total_R cap p l g sg : rinv cap p l -> exists ll, log_likelihood exact_math p g sg = Ret ll.
Proof. intros I. destruct (rwin _ _ _ I) as (w & _ & Pr). rewrite (log_likelihood_eq _ _ _ _ _ _ _ Pr). eauto. Qed.

Lemma C47_lemma cap blk (xs : list R) p : (1 <= cap < 2 ^ 61)%Z -> Z.of_nat (length blk) = cap ->
  peaks_pushes (N := RNum) (fst (peaks_init (Some blk) cap)) (map Some xs) = Ret p ->
  let w := last_k cap xs in
  p_e2 p = Some (fold_right Rplus 0 (map (fun y => y * y) w)) -> 0 < mean w -> 0 < variance w ->
  exists ll g sg, mom_estimator exact_math p = Ret (ll, Some g : num RNum, Some sg : num RNum) /\
    g < 1 / 2 /\ 0 < sg /\ sg / (1 - g) = mean w /\ sg ^ 2 / ((1 - g) ^ 2 * (1 - 2 * g)) = variance w /\
    forall g' sg', g' < 1 / 2 -> sg' / (1 - g') = mean w -> sg' ^ 2 / ((1 - g') ^ 2 * (1 - 2 * g')) = variance w -> g' = g /\ sg' = sg.
Proof.
  intros H1 H2 E w E2 Hm Hv. pose proof (rwindow cap blk xs p H1 H2 E) as I. fold w in I.
  assert (Hne : w <> []). { intros C. rewrite C in Hm. unfold mean in Hm. cbn in Hm. unfold Rdiv in Hm. lra. }
  pose proof (var_of p cap w _ I Hne E2) as EV. fold (mean w) in EV.
  assert (EV' : peaks_var p = Some (variance w)).
  { rewrite EV. f_equal. rewrite (variance_eq w Hne). unfold mean, sumsq, rsum. reflexivity. }
  pose proof (mean_exact cap p w I Hne) as EM.
  set (m := mean w) in *. set (v := variance w) in *. set (r := m * m / v).
  assert (Hr : 0 < r) by (apply Rdiv_lt_0_compat; [apply Rmult_lt_0_compat|]; assumption).
  set (g := 1 / 2 * (1 - r)). set (sg := 1 / 2 * m * (1 + r)).
  destruct (ll_total_R cap p w (Some g : num RNum) (Some sg : num RNum) I) as (ll & EL).
  exists ll, g, sg. split.
  { unfold mom_estimator. rewrite EM, EV'.
    assert (EH : c_half (N := RNum) = Some (1 / 2)) by (unfold c_half; cbn [ndiv nofZ RNum]; rewrite xr_div_nz by lra; reflexivity).
    rewrite EH. cbn [nmul nadd nsub ndiv nofZ RNum xr2]. rewrite xr_div_nz by lra. cbn [xr2].
    fold r. fold g. fold sg. rewrite EL. reflexivity. }
  assert (G1 : 1 - g = 1 / 2 * (1 + r)) by (unfold g; field).
  assert (G2 : 1 - 2 * g = r) by (unfold g; field).
  split; [unfold g; lra|]. split; [unfold sg; apply Rmult_lt_0_compat; lra|].
  split; [rewrite G1; unfold sg; field; lra|].
  split. { rewrite G1, G2. unfold sg, r. field. repeat split; try lra. fold r.
    replace (v + m * m) with (v * (1 + r)) by (unfold r; field; lra). apply Rmult_integral_contrapositive_currified; lra. }
  intros g' sg' Hg' M' V'.
  assert (S' : sg' = m * (1 - g')) by (rewrite <- M'; field; lra).
  assert (R' : 1 - 2 * g' = r).
  { assert (V2 : m * m / (1 - 2 * g') = v). { rewrite <- V', S'. field. lra. }
    unfold r. rewrite <- V2. field. repeat split; lra. }
  assert (g' = g) by (unfold g; lra). split; [assumption|]. rewrite S'. subst g'. rewrite G1. unfold sg. field.
Qed.

(** ** C49 *)
Lemma fold_uv (x : R) w a b : (forall y, In y w -> 0 < 1 + x * y) ->
  fold_left (fun uv (y : num RNum) => let s := (#1 + (Some x : num RNum) * y)%num in
                  (fst uv + #1 / s, snd uv + m_log exact_math s)%num) (map Some w) (Some a : num RNum, Some b : num RNum)
  = (Some (a + rsum (map (fun y => / (1 + x * y)) w)), Some (b + rsum (map (fun y => ln (1 + x * y)) w))).
Proof.
  revert a b. induction w as [|y w IH]; intros a b H; cbn [map fold_left].
  - rewrite rsum_nil. f_equal; f_equal; ring.
  - pose proof (H y (or_introl eq_refl)) as Hy.
    cbn [fst snd nadd nmul nofZ ndiv RNum xr2 exact_math m_log]. rewrite xr_div_nz by lra. rewrite rlog_pos by assumption. cbn [xr2].
    rewrite IH by (intros; apply H; right; assumption). rewrite !rsum_cons. f_equal; f_equal; field; lra.
Qed.

Lemma w_exact cap p l x : rinv cap p l -> l <> [] -> (forall y, In y l -> 0 < 1 + x * y) ->
  grimshaw_w exact_math p (Some x : num RNum) =
  Ret (Some (mean (map (fun y => / (1 + x * y)) l) * (1 + mean (map (fun y => ln (1 + x * y)) l)) - 1)).
Proof.
  intros I Hne Hy. destruct (rwin _ _ _ I) as (w & Pw & Pr). rewrite (grimshaw_w_eq _ _ _ _ _ _ Pr). f_equal.
  unfold grimshaw_w_of. rewrite map_length. cbn [nofZ RNum]. rewrite (Permutation_length Pw), <- INR_IZR_INZ.
  rewrite fold_uv by (intros y H; apply Hy, (Permutation_in y Pw H)).
  cbn [ndiv nmul nsub nadd nofZ RNum xr2]. pose proof (length_INR_pos l Hne). rewrite !xr_div_nz by lra. cbn [xr2].
  rewrite !Rplus_0_l. unfold mean. rewrite !map_length.
  rewrite (rsum_perm _ _ (Permutation_map (fun y => / (1 + x * y)) Pw)), (rsum_perm _ _ (Permutation_map (fun y => ln (1 + x * y)) Pw)).
  reflexivity.
Qed.

Lemma v_exact cap p l x : rinv cap p l -> l <> [] -> (forall y, In y l -> 0 < 1 + x * y) ->
  grimshaw_v exact_math p (Some x : num RNum) = Ret (Some (1 + mean (map (fun y => ln (1 + x * y)) l))).
Proof.
  intros I Hne Hy. destruct (rwin _ _ _ I) as (w & Pw & Pr). rewrite (grimshaw_v_eq _ _ _ _ _ _ Pr). f_equal.
  unfold grimshaw_v_of. rewrite map_length. cbn [nofZ RNum]. rewrite (Permutation_length Pw), <- INR_IZR_INZ.
  rewrite (fold_sum (fun v : num RNum => m_log exact_math ((Some 1 : num RNum) + (Some x : num RNum) * v)%num) (fun y => ln (1 + x * y))).
  2:{ intros y H. cbn [nadd nmul RNum xr2 exact_math m_log]. apply rlog_pos. apply Hy, (Permutation_in y Pw H). }
  cbn [ndiv nadd RNum xr2]. pose proof (length_INR_pos l Hne). rewrite !xr_div_nz by lra. cbn [xr2].
  rewrite Rplus_0_l. unfold mean. rewrite !map_length.
  rewrite (rsum_perm _ _ (Permutation_map (fun y => ln (1 + x * y)) Pw)). reflexivity.
Qed.

Lemma is_derive_rsum (f : R -> R -> R) (d : R -> R) t w : (forall y, In y w -> is_derive (fun t => f t y) t (d y)) ->
  is_derive (fun t => rsum (map (f t) w)) t (rsum (map d w)).
Proof.
  induction w as [|y w IH]; intros H; cbn [map].
  - rewrite rsum_nil. apply (is_derive_ext (fun _ => 0)); [reflexivity|]. apply @is_derive_const.
  - rewrite rsum_cons. apply (is_derive_ext (fun t => f t y + rsum (map (f t) w))); [reflexivity|].
    apply (is_derive_plus (fun t => f t y) (fun t => rsum (map (f t) w))); [apply H; left; reflexivity|]. apply IH. intros; apply H; right; assumption.
Qed.

Lemma locally_nz (g : R) : g <> 0 -> locally g (fun t : R => t <> 0).
Proof.
  intros H. assert (Hp : 0 < Rabs g) by (apply Rabs_pos_lt; assumption). exists (mkposreal _ Hp). intros t B E. subst t.
  unfold ball in B. cbn in B. unfold AbsRing_ball, abs, minus, plus, opp in B. cbn in B. rewrite Rplus_0_l, Rabs_Ropp in B. lra.
Qed.
Lemma locally_pos (g : R) : 0 < g -> locally g (fun t : R => 0 < t).
Proof.
  intros H. exists (mkposreal _ H). intros t B.
  unfold ball in B. cbn in B. unfold AbsRing_ball, abs, minus, plus, opp in B. cbn in B. apply Rabs_def2 in B. lra.
Qed.

Lemma support_nz g sg y : 0 < sg -> 0 < 1 + g * y / sg -> sg + g * y <> 0.
Proof.
  intros Hs H C. assert (1 + g * y / sg = 0) by (replace (1 + g * y / sg) with ((sg + g * y) / sg) by (field; lra); rewrite C; field; lra). lra.
Qed.

Lemma derive_shape g sg w : g <> 0 -> 0 < sg -> (forall y, In y w -> gpd_support g sg y) ->
  is_derive (fun t => gpd_log_likelihood t sg w) g
    (rsum (map (fun y => / (g * g) * ln (1 + g * y / sg) - (1 + / g) * (y / sg) / (1 + g * y / sg)) w)).
Proof.
  intros G Hs Hw. unfold gpd_log_likelihood.
  apply (is_derive_rsum (fun t y => ln (gpd_density t sg y))). intros y Hy.
  apply (is_derive_ext_loc (fun t => - ln sg - (1 + / t) * ln (1 + t * y / sg))).
  - generalize (locally_nz g G). apply filter_imp. intros t Ht. rewrite (ln_density t sg y Hs).
    destruct (Req_EM_T t 0); [contradiction|reflexivity].
  - specialize (Hw y Hy). unfold gpd_support in Hw. auto_derive; [repeat split; lra|]. unfold Rdiv. field. repeat split; try lra. apply support_nz; assumption.
Qed.
Lemma derive_scale g sg w : g <> 0 -> 0 < sg -> (forall y, In y w -> gpd_support g sg y) ->
  is_derive (fun t => gpd_log_likelihood g t w) sg
    (rsum (map (fun y => - / sg + (1 + g) * y / (sg * sg) / (1 + g * y / sg)) w)).
Proof.
  intros G Hs Hw. unfold gpd_log_likelihood.
  apply (is_derive_rsum (fun t y => ln (gpd_density g t y))). intros y Hy.
  apply (is_derive_ext_loc (fun t => - ln t - (1 + / g) * ln (1 + g * y / t))).
  - generalize (locally_pos sg Hs). apply filter_imp. intros t Ht. rewrite (ln_density g t y Ht).
    destruct (Req_EM_T g 0); [contradiction|reflexivity].
  - specialize (Hw y Hy). unfold gpd_support in Hw. auto_derive; [repeat split; lra|]. unfold Rdiv. field. repeat split; try lra. apply support_nz; assumption.
Qed.

(** the sign of the mean logarithm is the sign of x *)
Lemma mean_log_sign x w : x <> 0 -> (forall y, In y w -> 0 <= y) -> 0 < mean w -> (forall y, In y w -> 0 < 1 + x * y) ->
  0 < mean (map (fun y => ln (1 + x * y)) w) / x.
Proof.
  intros Hx Hy Hm Hp.
  assert (Hne : w <> []). { intros ->. unfold mean in Hm. cbn in Hm. unfold Rdiv in Hm. lra. }
  pose proof (length_INR_pos w Hne) as HL.
  assert (HS : 0 < rsum w). { replace (rsum w) with (mean w * INR (length w)) by (unfold mean, rsum; field; lra). apply Rmult_lt_0_compat; assumption. }
  assert (T : forall y, In y w -> (0 <= ln (1 + x * y) / x) /\ (0 < y -> 0 < ln (1 + x * y) / x)).
  { intros y H. specialize (Hy y H). specialize (Hp y H). destruct (Rtotal_order x 0) as [C|[C|C]]; [|contradiction|].
    - destruct Hy as [Hy| <-].
      + assert (x * y < 0) by (apply Ropp_lt_cancel; rewrite Ropp_0, Ropp_mult_distr_l; apply Rmult_lt_0_compat; lra).
        assert (ln (1 + x * y) < 0) by (rewrite <- ln_1; apply ln_increasing; lra).
        assert (0 < ln (1 + x * y) / x). { replace (ln (1 + x * y) / x) with ((- ln (1 + x * y)) / (- x)) by (field; lra). apply Rdiv_lt_0_compat; lra. }
        split; intros; lra.
      + rewrite Rmult_0_r, Rplus_0_r, ln_1. unfold Rdiv. split; intros; lra.
    - destruct Hy as [Hy| <-].
      + assert (0 < x * y) by (apply Rmult_lt_0_compat; lra).
        assert (0 < ln (1 + x * y)) by (rewrite <- ln_1; apply ln_increasing; lra).
        assert (0 < ln (1 + x * y) / x) by (apply Rdiv_lt_0_compat; lra). split; intros; lra.
      + rewrite Rmult_0_r, Rplus_0_r, ln_1. unfold Rdiv. split; intros; lra. }
  assert (K : 0 < rsum (map (fun y => / x * ln (1 + x * y)) w)).
  { clear -HS T Hy. revert HS. assert (forall l, (forall y, In y l -> In y w) -> 0 <= rsum l /\ 0 <= rsum (map (fun y => / x * ln (1 + x * y)) l) /\ (0 < rsum l -> 0 < rsum (map (fun y => / x * ln (1 + x * y)) l))).
    { induction l as [|y l IH]; intros Hl; cbn [map].
      - rewrite !rsum_nil. lra.
      - rewrite !rsum_cons. destruct IH as (A1 & A2 & A3); [intros; apply Hl; right; assumption|].
        assert (Hin : In y w) by (apply Hl; left; reflexivity). specialize (Hy y Hin). destruct (T y Hin) as (B1 & B2).
        unfold Rdiv in B1, B2. rewrite (Rmult_comm (ln (1 + x * y))) in B1, B2.
        split; [lra|]. split; [lra|]. intros P. destruct (Rle_lt_dec y 0) as [C|C].
        + assert (0 < rsum l) by lra. specialize (A3 H). lra.
        + specialize (B2 C). lra. }
    destruct (H w (fun _ h => h)) as (_ & _ & A). exact A. }
  rewrite rsum_scal in K. unfold mean. rewrite map_length. fold (rsum (map (fun y => ln (1 + x * y)) w)).
  replace (rsum (map (fun y => ln (1 + x * y)) w) / INR (length w) / x) with (/ x * rsum (map (fun y => ln (1 + x * y)) w) / INR (length w)) by (field; lra).
  apply Rdiv_lt_0_compat; assumption.
Qed.

Lemma C49_lemma cap blk (xs : list R) p x : (1 <= cap < 2 ^ 61)%Z -> Z.of_nat (length blk) = cap ->
  peaks_pushes (N := RNum) (fst (peaks_init (Some blk) cap)) (map Some xs) = Ret p ->
  let w := last_k cap xs in
  x <> 0 -> (forall y, In y w -> 0 <= y /\ 0 < 1 + x * y) -> 0 < mean w ->
  grimshaw_w exact_math p (Some x : num RNum) = Ret (Some 0) ->
  exists g sg, g = mean (map (fun y => ln (1 + x * y)) w) /\ sg = g / x /\ 0 < sg /\
    grimshaw_simplified_log_likelihood exact_math (Some x : num RNum) p
      = Ret (Some (gpd_log_likelihood g sg w), Some g : num RNum, Some sg : num RNum) /\
    is_derive (fun t => gpd_log_likelihood t sg w) g 0 /\ is_derive (fun t => gpd_log_likelihood g t w) sg 0.
Proof.
  intros H1 H2 E w Hx Hw Hm HW. pose proof (rwindow cap blk xs p H1 H2 E) as I. fold w in I.
  assert (Hne : w <> []). { intros C. rewrite C in Hm. unfold mean in Hm. cbn in Hm. unfold Rdiv in Hm. lra. }
  assert (Hp : forall y, In y w -> 0 < 1 + x * y) by (intros y H; apply Hw; assumption).
  assert (Hy : forall y, In y w -> 0 <= y) by (intros y H; apply Hw; assumption).
  rewrite (w_exact cap p w x I Hne Hp) in HW. injection HW as HW.
  pose proof (mean_log_sign x w Hx Hy Hm Hp) as Hsg.
  set (g := mean (map (fun y => ln (1 + x * y)) w)) in *. set (U := mean (map (fun y => / (1 + x * y)) w)) in *.
  set (sg := g / x) in *.
  assert (G : g <> 0). { intros C. unfold sg in Hsg. rewrite C in Hsg. unfold Rdiv in Hsg. lra. }
  assert (Sup : forall y, g * y / sg = x * y) by (intros y; unfold sg; field; split; assumption).
  assert (HS : forall y, In y w -> gpd_support g sg y) by (intros y H; unfold gpd_support; rewrite Sup; apply Hp; assumption).
  exists g, sg. split; [reflexivity|]. split; [reflexivity|]. split; [exact Hsg|].
  pose proof (length_INR_pos w Hne) as HL.
  assert (SU : rsum (map (fun y => / (1 + x * y)) w) = INR (length w) * U) by (unfold U, mean; rewrite map_length; unfold rsum; field; lra).
  assert (SG : rsum (map (fun y => ln (1 + x * y)) w) = INR (length w) * g) by (unfold g, mean; rewrite map_length; unfold rsum; field; lra).
  assert (Root : U * (1 + g) = 1) by lra.
  split.
  { unfold grimshaw_simplified_log_likelihood. rewrite (v_exact cap p w x I Hne Hp). fold g.
    cbn [neq nofZ RNum xrb]. rewrite Req_bool_false by assumption. cbn [bind nsub ndiv RNum xr2]. rewrite xr_div_nz by assumption.
    replace (1 + g - 1) with g by ring. fold sg. rewrite (ll_exact cap p w g sg I Hsg HS). reflexivity. }
  split.
  - replace 0 with (rsum (map (fun y => / (g * g) * ln (1 + g * y / sg) - (1 + / g) * (y / sg) / (1 + g * y / sg)) w)); [apply derive_shape; assumption|].
    rewrite (rsum_ext _ (fun y => / (g * g) * ln (1 + x * y) + (- (1 + / g) / g + ((1 + / g) / g) * / (1 + x * y)))).
    2:{ intros y H. rewrite Sup. specialize (Hp y H). unfold sg. field. repeat split; try assumption. lra. }
    rewrite rsum_plus, (rsum_plus (fun _ => - (1 + / g) / g)), !rsum_scal, rsum_const, SU, SG.
    replace (/ (g * g) * (INR (length w) * g) + (INR (length w) * (- (1 + / g) / g) + (1 + / g) / g * (INR (length w) * U)))
      with (INR (length w) / (g * g) * (U * (1 + g) - 1)) by (field; assumption).
    rewrite Root. ring.
  - replace 0 with (rsum (map (fun y => - / sg + (1 + g) * y / (sg * sg) / (1 + g * y / sg)) w)); [apply derive_scale; assumption|].
    assert (Hs0 : sg <> 0) by lra.
    rewrite (rsum_ext _ (fun y => (- / sg + (1 + g) / (g * sg)) + (- ((1 + g) / (g * sg))) * / (1 + x * y))).
    2:{ intros y H. rewrite Sup. specialize (Hp y H). unfold sg. field. repeat split; try assumption; lra. }
    rewrite (rsum_plus (fun _ => - / sg + (1 + g) / (g * sg))), rsum_scal, rsum_const, SU.
    replace (INR (length w) * (- / sg + (1 + g) / (g * sg)) + - ((1 + g) / (g * sg)) * (INR (length w) * U))
      with (INR (length w) / (g * sg) * (1 - U * (1 + g))) by (field; split; assumption).
    rewrite Root. ring.
Qed.

(** ** The density is the derivative of the distribution function *)
Lemma density_derivative g sg y : 0 < sg -> gpd_support g sg y ->
  is_derive (fun t => 1 - gpd_survival g sg t) y (gpd_density g sg y).
Proof.
  unfold gpd_support. intros Hs Hy. unfold gpd_survival, gpd_density. destruct (Req_EM_T g 0) as [G|G].
  - auto_derive; [trivial|]. unfold Rdiv. field. lra.
  - unfold Rpower. auto_derive; [repeat split; lra|]. unfold Rdiv.
    replace ((- / g - 1) * ln (1 + g * y * / sg)) with (- / g * ln (1 + g * y * / sg) + - ln (1 + g * y * / sg)) by ring.
    rewrite exp_plus, exp_Ropp, exp_ln by assumption. field. repeat split; try assumption; try lra. apply support_nz; assumption.
Qed.

(** A window whose Grimshaw function has a positive root *)
Lemma grimshaw_root_example : exists x, 0 < x /\
  mean (map (fun y => / (1 + x * y)) [0; 1; 1]) * (1 + mean (map (fun y => ln (1 + x * y)) [0; 1; 1])) = 1.
Proof.
  set (f := fun k => (1 + 2 * exp (- k)) / 3 * (1 + 2 * k / 3) - 1).
  assert (C : Ranalysis1.continuity f).
  { intros k. apply continuity_pt_filterlim. apply (ex_derive_continuous f k). unfold f. auto_derive. trivial. }
  assert (A : f (1 / 2) < 0).
  { unfold f. assert (16 / 10 < exp (1 / 2)).
    { replace (1 / 2) with (1 / 16 + (1 / 16 + (1 / 16 + (1 / 16 + (1 / 16 + (1 / 16 + (1 / 16 + 1 / 16))))))) by field.
      rewrite !exp_plus. assert (17 / 16 < exp (1 / 16)) by (pose proof (exp_ineq1 (1 / 16)); lra).
      assert (Q : forall a b, 0 <= a -> a < b -> a * a < b * b) by (intros; apply Rmult_le_0_lt_compat; lra).
      set (e := exp (1 / 16)) in *. assert (P1 : 17 / 16 * (17 / 16) < e * e) by (apply Q; lra).
      assert (P2 : 1128 / 1000 * (1128 / 1000) < e * e * (e * e)) by (apply Q; lra).
      assert (P3 : 127 / 100 * (127 / 100) < e * e * (e * e) * (e * e * (e * e))) by (apply Q; lra). lra. }
    rewrite exp_Ropp. assert (/ exp (1 / 2) < 10 / 16). { replace (10 / 16) with (/ (16 / 10)) by field. apply Rinv_lt_contravar; [apply Rmult_lt_0_compat; lra|assumption]. }
    lra. }
  assert (B : 0 < f 3). { unfold f. pose proof (exp_pos (- (3))). lra. }
  destruct (IVT f (1 / 2) 3 C ltac:(lra) A B) as (k & Hk & Ek).
  exists (exp k - 1). split; [pose proof (exp_ineq1 k); lra|].
  unfold mean. cbn [map fold_right length INR].
  rewrite Rmult_0_r, Rplus_0_r, ln_1, Rmult_1_r. replace (1 + (exp k - 1)) with (exp k) by ring. rewrite ln_exp.
  unfold f in Ek. rewrite exp_Ropp in Ek. rewrite Rinv_1.
  replace (1 + 1 + 1) with 3 by ring. lra.
Qed.
