(** * GrimshawExact: the root search of Grimshaw's estimator in exact arithmetic (C52) *)
From Coq Require Import ZArith List Bool Lia Reals Lra Permutation.
From Flocq Require Import Core.Core.
From Coquelicot Require Import Coquelicot.
From Verif Require Import Num NumFacts XMath Ubend Session UbendFacts Peaks PeaksFacts Brent Estimator Tail P2 Spot B64 Spec RNum WindowLemmas ExactWindow TailSpec GrimshawSpec ExactTail BrentLemmas.
Import ListNotations.
Open Scope R_scope.

(** ** Inequalities *)
Lemma rsum_le {A} (f h : A -> R) l : (forall y, In y l -> f y <= h y) -> rsum (map f l) <= rsum (map h l).
Proof.
  induction l as [|a l IH]; intros H; cbn [map]; rewrite ?rsum_nil, ?rsum_cons; [lra|].
  pose proof (H a (or_introl eq_refl)). assert (rsum (map f l) <= rsum (map h l)) by (apply IH; intros; apply H; right; assumption). lra.
Qed.
Lemma mean_le (f h : R -> R) l : l <> [] -> (forall y, In y l -> f y <= h y) -> mean (map f l) <= mean (map h l).
Proof.
  intros Hne H. unfold mean. rewrite !map_length. apply Rmult_le_compat_r.
  - left. apply Rinv_0_lt_compat, length_INR_pos, Hne.
  - apply rsum_le. exact H.
Qed.
Lemma mean_const c (l : list R) : l <> [] -> mean (map (fun _ => c) l) = c.
Proof. intros H. pose proof (length_INR_pos l H). unfold mean. rewrite map_length. fold (rsum (map (fun _ => c) l)). rewrite rsum_const. field. lra. Qed.
Lemma mean_affine a b (l : list R) : l <> [] -> mean (map (fun y => a * y + b) l) = a * mean l + b.
Proof.
  intros H. pose proof (length_INR_pos l H). unfold mean. rewrite map_length. fold (rsum (map (fun y => a * y + b) l)). fold (rsum l).
  rewrite (rsum_plus (fun y => a * y) (fun _ => b)), rsum_scal, rsum_id, rsum_const. field. lra.
Qed.
Lemma ln_tangent c t : 0 < c -> 0 < t -> ln t <= t / c - 1 + ln c.
Proof.
  intros Hc Ht. pose proof (exp_ineq1_le (t / c - 1)) as H.
  assert (Hp : 0 < t / c) by (apply Rdiv_lt_0_compat; assumption).
  assert (E : ln t = ln (t / c) + ln c) by (rewrite <- ln_mult by assumption; f_equal; field; lra).
  rewrite E. apply Rplus_le_compat_r. rewrite <- (ln_exp (t / c - 1)). destruct (Req_dec (t / c) (exp (t / c - 1))) as [Q|Q].
  - rewrite Q at 1. lra.
  - left. apply ln_increasing; lra.
Qed.
Lemma mean_log_le x (w : list R) : w <> [] -> 0 < 1 + x * mean w -> (forall y, In y w -> 0 < 1 + x * y) ->
  mean (map (fun y => ln (1 + x * y)) w) <= ln (1 + x * mean w).
Proof.
  intros Hne Hc Hy. set (c := 1 + x * mean w) in *.
  apply Rle_trans with (mean (map (fun y => (x / c) * y + (1 / c - 1 + ln c)) w)).
  - apply mean_le; [exact Hne|]. intros y H. pose proof (ln_tangent c (1 + x * y) Hc (Hy y H)).
    replace (x / c * y + (1 / c - 1 + ln c)) with ((1 + x * y) / c - 1 + ln c) by (field; lra). assumption.
  - rewrite mean_affine by assumption. right. replace (x / c * mean w) with ((c - 1) / c) by (unfold c; field; fold c; lra). field. lra.
Qed.
Lemma exp_second z : 0 < z -> 1 + z + z * z / 2 < exp z.
Proof.
  intros Hz. destruct (MVT_cor2 (fun t => exp t - 1 - t - t * t / 2) (fun t => exp t - 1 - t) 0 z Hz) as (c & E & Hc).
  { intros c _. apply is_derive_Reals. auto_derive; [trivial|]. field. }
  rewrite exp_0 in E. assert (0 < exp c - 1 - c) by (pose proof (exp_ineq1 c); lra).
  pose proof (Rmult_lt_0_compat _ (z - 0) H). lra.
Qed.
Lemma ln_lt_of_exp a b : 0 < a -> a < exp b -> ln a < b.
Proof. intros Ha H. rewrite <- (ln_exp b). apply ln_increasing; assumption. Qed.

(** no root at or beyond the right end of the search *)
Lemma grim_negative (w : list R) m x : w <> [] -> rmin m w -> 0 < m -> 0 < x -> 2 * (mean w - m) / (m * m) <= x -> grim w x < 0.
Proof.
  intros Hne (Hin & Hm) Hp Hx Hb.
  assert (Hy : forall y, In y w -> 0 < 1 + x * m <= 1 + x * y).
  { intros y H. specialize (Hm y H). pose proof (Rmult_lt_0_compat x m Hx Hp). pose proof (Rmult_le_compat_l x m y). lra. }
  assert (HE : m <= mean w).
  { replace (mean w) with (mean (map (fun y => y) w)) by (rewrite map_id; reflexivity).
    rewrite <- (mean_const m w Hne). apply mean_le; assumption. }
  assert (Hxm : 0 < x * m) by (apply Rmult_lt_0_compat; assumption).
  assert (HxE : 0 < x * mean w) by (apply Rmult_lt_0_compat; lra).
  assert (U : mean (map (fun y => / (1 + x * y)) w) <= / (1 + x * m)).
  { rewrite <- (mean_const (/ (1 + x * m)) w Hne). apply mean_le; [exact Hne|]. intros y H. destruct (Hy y H). apply Rinv_le_contravar; assumption. }
  assert (U0 : 0 <= mean (map (fun y => / (1 + x * y)) w)).
  { rewrite <- (mean_const 0 w Hne). apply mean_le; [exact Hne|]. intros y H. destruct (Hy y H). left. apply Rinv_0_lt_compat. lra. }
  assert (L : mean (map (fun y => ln (1 + x * y)) w) < x * m).
  { eapply Rle_lt_trans; [apply mean_log_le; [exact Hne|lra|]|].
    - intros y H. destruct (Hy y H). lra.
    - apply ln_lt_of_exp; [lra|]. eapply Rle_lt_trans; [|apply exp_second; exact Hxm].
      assert (2 * (mean w - m) <= x * (m * m)).
      { apply Rmult_le_compat_r with (r := m * m) in Hb; [|pose proof (Rmult_lt_0_compat m m Hp Hp); lra].
        replace (2 * (mean w - m) / (m * m) * (m * m)) with (2 * (mean w - m)) in Hb by (field; lra). exact Hb. }
      assert (x * (2 * (mean w - m)) <= x * (x * (m * m))) by (apply Rmult_le_compat_l; lra).
      replace (x * m * (x * m) / 2) with (x * (x * (m * m)) / 2) by field. lra. }
  unfold grim. set (u := mean (map (fun y => / (1 + x * y)) w)) in *. set (v := mean (map (fun y => ln (1 + x * y)) w)) in *.
  destruct U0 as [U0|U0].
  - assert (u * (1 + v) < u * (1 + x * m)) by (apply Rmult_lt_compat_l; lra).
    assert (u * (1 + x * m) <= / (1 + x * m) * (1 + x * m)) by (apply Rmult_le_compat_r; lra).
    rewrite Rinv_l in H0 by lra. lra.
  - rewrite <- U0. lra.
Qed.

Lemma grim_root_range (w : list R) m M x : w <> [] -> rmin m w -> rmax M w -> 0 < m -> x <> 0 ->
  (forall y, In y w -> 0 < 1 + x * y) -> grim w x = 0 ->
  (- 1 / M < x < 0) \/ (0 < x < 2 * (mean w - m) / (m * m)).
Proof.
  intros Hne Hm (HM & HM') Hp Hx Hy E. destruct (Rtotal_order x 0) as [C|[C|C]]; [left|contradiction|right].
  - split; [|exact C]. assert (0 < M) by (destruct Hm as (_ & Hm); specialize (Hm M HM); lra).
    specialize (Hy M HM). apply Rmult_lt_reg_r with M; [assumption|]. replace (-1 / M * M) with (-1) by (field; lra). lra.
  - split; [exact C|]. apply Rnot_le_lt. intros H. pose proof (grim_negative w m x Hne Hm Hp C H). lra.
Qed.

(** ** The program *)
Section Prog.
Variables (cap : Z) (p : peaks RNum) (w : list R) (m M : R).
Hypothesis I : rinv cap p w.
Hypothesis Hne : w <> [].
Hypothesis Hmin : p_min p = Some m.
Hypothesis Hmax : p_max p = Some M.
Hypothesis Rm : rmin m w.
Hypothesis RM : rmax M w.
Hypothesis Hp : 0 < m.

Let eps := margin M.
Lemma M_pos : 0 < M.
Proof. destruct Rm as (_ & H), RM as (H' & _). specialize (H M H'). lra. Qed.
Lemma mean_ge : m <= mean w.
Proof.
  destruct Rm as (_ & H). replace (mean w) with (mean (map (fun y => y) w)) by (rewrite map_id; reflexivity).
  rewrite <- (mean_const m w Hne). apply mean_le; assumption.
Qed.
Lemma eps_pos : 0 < eps /\ eps <= 1 / 2 / M /\ eps <= 2 / 100000000.
Proof.
  pose proof M_pos. assert (0 < 1 / 2 / M) by (apply Rdiv_lt_0_compat; lra). unfold eps, margin.
  pose proof (Rmin_l (2 / 100000000) (1 / 2 / M)). pose proof (Rmin_r (2 / 100000000) (1 / 2 / M)).
  split; [apply Rmin_glb_lt; lra|]. split; assumption.
Qed.
Lemma half_R : c_half (N := RNum) = Some (1 / 2).
Proof. unfold c_half. cbn [ndiv nofZ RNum]. rewrite xr_div_nz by lra. reflexivity. Qed.
Lemma brent_eps_R : BRENT_DEFAULT_EPSILON (N := RNum) = Some (2 / 100000000).
Proof. unfold BRENT_DEFAULT_EPSILON. cbn [ndiv nofZ RNum]. rewrite xr_div_nz by lra. reflexivity. Qed.

Lemma xmin_R a b : xmin (N := RNum) (Some a) (Some b) = Some (Rmin a b).
Proof.
  unfold xmin. cbn [nlt nle neq RNum xrb]. rewrite ?is_nan_R. 
  unfold Rmin. destruct (Rle_dec a b); repeat (case Rlt_bool_spec || case Rle_bool_spec); intros; cbn; try reflexivity; f_equal; lra.
Qed.
Definition dom (x : R) : Prop := forall y, In y w -> 0 < 1 + x * y.
Lemma dom_ge x : - 1 / M + eps <= x -> dom x.
Proof.
  intros H y Hy. pose proof M_pos as HM. destruct eps_pos as (He & _ & _). destruct Rm as (_ & Rm'), RM as (_ & RM').
  specialize (Rm' y Hy). specialize (RM' y Hy). destruct (Rle_lt_dec 0 x) as [C|C].
  - pose proof (Rmult_le_pos x y C). lra.
  - assert (x * M <= x * y) by (apply Rmult_le_compat_neg_l; lra).
    assert ((- 1 / M + eps) * M <= x * M) by (apply Rmult_le_compat_r; lra).
    replace ((- 1 / M + eps) * M) with (-1 + eps * M) in H1 by (field; lra).
    pose proof (Rmult_lt_0_compat eps M He HM). lra.
Qed.

Lemma grim_exact x : dom x -> grimshaw_w exact_math p (Some x : num RNum) = Ret (Some (grim w x)).
Proof. intros H. exact (w_exact cap p w x I Hne H). Qed.

Lemma rsum_derivable (f : R -> R -> R) x (l : list R) : (forall y, In y l -> ex_derive (fun t => f t y) x) ->
  ex_derive (fun t => rsum (map (f t) l)) x.
Proof.
  intros H. exists (rsum (map (fun y => Derive (fun t => f t y) x) l)). apply is_derive_rsum. intros y Hy. apply Derive_correct, H, Hy.
Qed.
Lemma grim_continuous x : dom x -> continuity_pt (grim w) x.
Proof.
  intros H. apply continuity_pt_filterlim. apply (ex_derive_continuous (grim w)).
  apply (ex_derive_ext (fun t => rsum (map (fun y => / (1 + t * y)) w) / INR (length w) *
     (1 + rsum (map (fun y => ln (1 + t * y)) w) / INR (length w)) - 1)).
  { intros t. unfold grim, mean. rewrite !map_length. reflexivity. }
  assert (A : ex_derive (fun t => rsum (map (fun y => / (1 + t * y)) w)) x).
  { apply (rsum_derivable (fun t y => / (1 + t * y))). intros y Hy. specialize (H y Hy). auto_derive. lra. }
  assert (B : ex_derive (fun t => rsum (map (fun y => ln (1 + t * y)) w)) x).
  { apply (rsum_derivable (fun t y => ln (1 + t * y))). intros y Hy. specialize (H y Hy). auto_derive. lra. }
  set (F := fun t => rsum (map (fun y => / (1 + t * y)) w)) in *. set (G := fun t => rsum (map (fun y => ln (1 + t * y)) w)) in *.
  change (ex_derive (fun t => F t / INR (length w) * (1 + G t / INR (length w)) - 1) x).
  change (ex_derive F x) in A. change (ex_derive G x) in B. clearbody F G. auto_derive. repeat split; assumption.
Qed.

Lemma cand_scale_pos x : dom x -> 0 < cand_scale w x.
Proof.
  intros H. pose proof mean_ge. unfold cand_scale, cand_shape. destruct (Req_EM_T x 0) as [E|E]; [lra|].
  apply mean_log_sign; [exact E| |lra|exact H]. intros y Hy. destruct Rm as (_ & Rm'). specialize (Rm' y Hy). lra.
Qed.
Lemma cand_support x : dom x -> forall y, In y w -> gpd_support (cand_shape w x) (cand_scale w x) y.
Proof.
  intros H y Hy. pose proof (cand_scale_pos x H) as Hs. specialize (H y Hy). unfold gpd_support. revert Hs. unfold cand_scale, cand_shape.
  destruct (Req_EM_T x 0) as [E|E]; intros Hs.
  - unfold Rdiv. rewrite !Rmult_0_l. lra.
  - set (g := mean _) in *. assert (g <> 0). { intros C. rewrite C in Hs. unfold Rdiv in Hs. lra. }
    replace (g * y / (g / x)) with (x * y) by (field; auto). exact H.
Qed.
Lemma gsll_exact x : dom x -> grimshaw_simplified_log_likelihood exact_math (Some x : num RNum) p =
  Ret (Some (cand_ll w x), Some (cand_shape w x) : num RNum, Some (cand_scale w x) : num RNum).
Proof.
  intros H. unfold grimshaw_simplified_log_likelihood. cbn [neq nofZ RNum xrb].
  pose proof (cand_scale_pos x H) as Hs. pose proof (cand_support x H) as Hy. unfold cand_ll.
  pose proof (ll_exact cap p w _ _ I Hs Hy) as L. revert L.
  unfold cand_scale, cand_shape. destruct (Req_EM_T x 0) as [E|E]; intros L.
  - rewrite Req_bool_true by assumption. cbn [bind]. rewrite (mean_exact cap p w I Hne). 
    etransitivity; [|exact (f_equal (fun r => bind r (fun ll => Ret (ll, Some 0 : num RNum, Some (mean w) : num RNum))) L)]. reflexivity.
  - rewrite Req_bool_false by assumption. rewrite (v_exact cap p w x I Hne H). cbn [bind nsub ndiv nofZ RNum xr2].
    set (g := mean _) in *. replace (1 + g - 1) with g by ring. rewrite xr_div_nz by assumption.
    etransitivity; [|exact (f_equal (fun r => bind r (fun ll => Ret (ll, Some g : num RNum, Some (g / x) : num RNum))) L)]. reflexivity.
Qed.
Definition fit_of (x : R) : @estimate RNum := (Some (cand_ll w x), Some (cand_shape w x), Some (cand_scale w x)).
Lemma better_exact x0 found x : dom x ->
  grimshaw_better exact_math p (fit_of x0) (found, Some x : num RNum) =
  Ret (fit_of (if found && Rlt_bool (cand_ll w x0) (cand_ll w x) then x else x0)).
Proof.
  intros H. unfold grimshaw_better. destruct found; [|reflexivity]. rewrite (gsll_exact x H). cbn [bind].
  unfold fit_of at 1. cbn [nlt RNum xrb andb]. destruct (Rlt_bool _ _); reflexivity.
Qed.

(** the two searches *)
Definition lo1 := - 1 / M + eps.
Definition hi1 := - eps.
Definition lo2 := eps.
Definition hi2 := 2 * (mean w - m) / (m * m).
Lemma order1 : lo1 <= hi1.
Proof.
  pose proof M_pos. destruct eps_pos as (? & ? & _). unfold lo1, hi1.
  replace (- 1 / M) with (- (1 / 2 / M) - 1 / 2 / M) by (field; lra). lra.
Qed.
Lemma hi2_nonneg : 0 <= hi2.
Proof.
  pose proof mean_ge. unfold hi2. apply Rmult_le_pos; [lra|]. left. apply Rinv_0_lt_compat, Rmult_lt_0_compat; assumption.
Qed.
Lemma dom1 x : lo1 <= x -> dom x.
Proof. exact (dom_ge x). Qed.
Lemma dom2 x : 0 <= x -> dom x.
Proof.
  intros H. apply dom_ge. pose proof order1 as O. destruct eps_pos as (? & _). unfold lo1, hi1 in O. lra.
Qed.

Lemma search_exact lo hi : (forall x, Rmin lo hi <= x -> dom x) -> exists found x, search_result p w lo hi found x.
Proof.
  intros D. destruct (C33_exact_lemma (grim w) (grimshaw_w exact_math p) lo hi (2 / 100000000)) as (found & x & E & _ & H).
  { lra. } { intros r Hr. apply grim_exact, D. lra. }
  exists found, x. split; [exact E|]. intros T. destruct (H T) as (A & B). split; [exact A|]. apply B.
  intros y Hy. apply grim_continuous, D. lra.
Qed.

Lemma estimator_exact : exists fl xl fr xr x,
  search_result p w lo1 hi1 fl xl /\ search_result p w lo2 hi2 fr xr /\
  grimshaw_estimator exact_math p = Ret (fit_of x) /\
  (x = 0 \/ (fl = true /\ x = xl) \/ (fr = true /\ x = xr)) /\ dom x /\
  cand_ll w 0 <= cand_ll w x /\ (fl = true -> cand_ll w xl <= cand_ll w x) /\ (fr = true -> cand_ll w xr <= cand_ll w x).
Proof.
  pose proof order1 as O1. pose proof hi2_nonneg as O2. destruct eps_pos as (Pe & _).
  destruct (search_exact lo1 hi1) as (fl & xl & S1). { intros x Hx. apply dom1. rewrite Rmin_left in Hx by assumption. exact Hx. }
  destruct (search_exact lo2 hi2) as (fr & xr & S2).
  { intros x Hx. apply dom2. assert (0 <= Rmin lo2 hi2) by (apply Rmin_glb; [unfold lo2; lra|assumption]). lra. }
  exists fl, xl, fr, xr.
  assert (D1 : fl = true -> dom xl). { intros T. destruct (proj2 S1 T) as (A & _). apply dom1. rewrite Rmin_left in A by assumption. lra. }
  assert (D2 : fr = true -> dom xr).
  { intros T. destruct (proj2 S2 T) as (A & _). apply dom2. assert (0 <= Rmin lo2 hi2) by (apply Rmin_glb; [unfold lo2; lra|assumption]). lra. }
  set (x1 := if fl && Rlt_bool (cand_ll w 0) (cand_ll w xl) then xl else 0).
  set (x2 := if fr && Rlt_bool (cand_ll w x1) (cand_ll w xr) then xr else x1).
  assert (D0 : dom 0) by (apply dom2; lra).
  assert (Dx1 : dom x1). { unfold x1. destruct (fl && _)%bool eqn:T; [|exact D0]. apply andb_prop in T as (T & _). exact (D1 T). }
  assert (Dx2 : dom x2). { unfold x2. destruct (fr && _)%bool eqn:T; [|exact Dx1]. apply andb_prop in T as (T & _). exact (D2 T). }
  exists x2. split; [exact S1|]. split; [exact S2|]. split.
  { unfold grimshaw_estimator. cbv zeta. rewrite Hmin, Hmax, (mean_exact cap p w I Hne), brent_eps_R, half_R.
    cbn [ndiv nadd nsub nmul nopp nofZ RNum xr2 xr_opp]. pose proof M_pos.
    rewrite !xr_div_nz by (try lra; pose proof (Rmult_lt_0_compat m m Hp Hp); lra).
    pose proof (xmin_R (2 / 100000000) (1 / 2 / M)) as X. cbn [num RNum] in X |- *. rewrite X. clear X.
    cbn [xr2 xr_opp]. change (Rmin (2 / 100000000) (1 / 2 / M)) with eps.
    destruct S1 as (S1 & _), S2 as (S2 & _).
    etransitivity; [exact (f_equal (fun r => bind r _) S1)|]. cbn [bind].
    etransitivity; [exact (f_equal (fun r => bind r _) S2)|]. cbn [bind].
    rewrite (gsll_exact 0 D0 : grimshaw_simplified_log_likelihood exact_math (Some (IZR 0) : num RNum) p = _). cbn [bind].
    fold (fit_of 0). 
    assert (B1 : grimshaw_better exact_math p (fit_of 0) (fl, Some xl : num RNum) = Ret (fit_of x1)).
    { destruct fl; [apply better_exact; auto|reflexivity]. }
    etransitivity; [exact (f_equal (fun r => bind r _) B1)|]. cbn [bind].
    destruct fr; [apply better_exact; auto|reflexivity]. }
  assert (C1 : cand_ll w 0 <= cand_ll w x1 /\ (fl = true -> cand_ll w xl <= cand_ll w x1) /\ (x1 = 0 \/ (fl = true /\ x1 = xl))).
  { unfold x1. destruct fl; cbn [andb]; [|split; [lra|split; [discriminate|auto]]].
    case Rlt_bool_spec; intros; (split; [lra|split; [intros; lra|auto]]). }
  destruct C1 as (C1 & C2 & C3).
  assert (C4 : cand_ll w x1 <= cand_ll w x2 /\ (fr = true -> cand_ll w xr <= cand_ll w x2) /\ (x2 = x1 \/ (fr = true /\ x2 = xr))).
  { unfold x2. destruct fr; cbn [andb]; [|split; [lra|split; [discriminate|auto]]].
    case Rlt_bool_spec; intros; (split; [lra|split; [intros; lra|auto]]). }
  destruct C4 as (C4 & C5 & C6).
  split. { destruct C6 as [->|C6]; [|auto]. destruct C3; auto. }
  split; [exact Dx2|]. split; [lra|]. split; [intros T; specialize (C2 T); lra|exact C5].
Qed.
End Prog.

(** ** A real likelihood comes from valid parameters *)
Lemma fold_none (F : num RNum -> num RNum) (l : list (num RNum)) : fold_left (fun (r v : num RNum) => nadd r (F v)) l (None : num RNum) = None.
Proof. induction l as [|a l IH]; [reflexivity|]. cbn [fold_left nadd RNum xr2]. exact IH. Qed.
Lemma fold_some (F : num RNum -> num RNum) (l : list (num RNum)) r0 r : fold_left (fun (r v : num RNum) => nadd r (F v)) l r0 = Some r ->
  (exists a, r0 = Some a) /\ forall v, In v l -> exists b, F v = Some b.
Proof.
  revert r0. induction l as [|a l IH]; intros r0 H.
  - cbn in H. split; [eauto|]. intros v [].
  - cbn [fold_left] in H. destruct (IH _ H) as ((c & E) & T). cbn [nadd RNum] in E.
    destruct r0 as [x|]; [|discriminate E]. split; [eauto|]. intros v [<-|Hv]; [|auto].
    destruct (F a); [eauto|discriminate E].
Qed.
Lemma rlog_some (x : xr) r : R_log x = Some r -> exists a, x = Some a /\ 0 < a.
Proof. destruct x as [a|]; [|discriminate]. cbn. case Rlt_bool_spec; [|discriminate]. eauto. Qed.
Lemma xr2_some f x y r : xr2 f x y = Some r -> exists a b, x = Some a /\ y = Some b.
Proof. destruct x, y; try discriminate. eauto. Qed.
Lemma xr_div_some x y r : xr_div x y = Some r -> exists a b, x = Some a /\ y = Some b /\ b <> 0.
Proof. destruct x as [a|], y as [b|]; try discriminate. cbn. case Req_bool_spec; [discriminate|]. eauto. Qed.
Lemma xr_opp_some x r : xr_opp x = Some r -> exists a, x = Some a.
Proof. destruct x; [eauto|discriminate]. Qed.

Lemma ll_valid cap p w (g s : num RNum) l : rinv cap p w -> w <> [] -> log_likelihood exact_math p g s = Ret (Some l) ->
  exists g' s', g = Some g' /\ s = Some s' /\ 0 < s' /\ (forall y, In y w -> gpd_support g' s' y) /\ l = gpd_log_likelihood g' s' w.
Proof.
  intros I Hne E. destruct (rwin _ _ _ I) as (v & Pv & Pr). pose proof E as E0.
  rewrite (log_likelihood_eq _ _ _ _ _ _ _ Pr) in E. injection E as E. unfold log_likelihood_of in E.
  assert (K : exists g' s', g = Some g' /\ s = Some s' /\ 0 < s' /\ forall y, In y w -> gpd_support g' s' y).
  { cbn [neq nofZ RNum xrb] in E. destruct g as [g|].
    - cbn [xrb] in E. revert E. case Req_bool_spec; intros G E.
      + subst g. destruct (xr2_some _ _ _ _ E) as (a & b & E1 & E2).
        destruct (xr2_some _ _ _ _ E1) as (c & b2 & _ & E3). destruct (rlog_some _ _ E3) as (s' & -> & Hs).
        exists 0, s'. repeat split; try assumption. intros y _. unfold gpd_support, Rdiv. rewrite !Rmult_0_l. lra.
      + destruct (fold_some (fun v => (- (#1 + #1 / (Some g : num RNum))) * m_log exact_math (#1 + ((Some g : num RNum) / s) * v))%num _ _ _ E) as ((a & E1) & T).
        destruct (xr2_some _ _ _ _ E1) as (c & b & _ & E3). destruct (rlog_some _ _ E3) as (s' & -> & Hs).
        exists g, s'. repeat split; try assumption. intros y Hy.
        destruct (T (Some y)) as (b' & Eb). { apply in_map. apply (Permutation_in y (Permutation_sym Pv) Hy). }
        destruct (xr2_some _ _ _ _ Eb) as (c' & b2 & _ & E4). destruct (rlog_some _ _ E4) as (z & Ez & Hz).
        cbn [nadd nmul ndiv nofZ RNum] in Ez. rewrite xr_div_nz in Ez by lra. cbn [xr2] in Ez. injection Ez as <-.
        unfold gpd_support. replace (g * y / s') with (g / s' * y) by (field; lra). exact Hz.
    - exfalso. cbn [xrb] in E.
      destruct (fold_some (fun v => (- (#1 + #1 / (None : num RNum))) * m_log exact_math (#1 + ((None : num RNum) / s) * v))%num _ _ _ E) as (_ & T).
      destruct v as [|y v]. { apply Permutation_nil in Pv. congruence. }
      destruct (T (Some y) (or_introl eq_refl)) as (b & Eb). discriminate Eb. }
  destruct K as (g' & s' & -> & -> & Hs & Hy). exists g', s'. repeat split; try assumption.
  rewrite (ll_exact cap p w g' s' I Hs Hy) in E0. congruence.
Qed.

(** ** C52 *)
Lemma rinv_extremes cap p (w : list R) m M : rinv cap p w -> w <> [] -> rmin m w -> rmax M w -> p_min p = Some m /\ p_max p = Some M.
Proof.
  intros (_ & _ & H) Hne (A & B) (C & D). destruct (H Hne) as (mn & mx & E1 & E2 & (A' & B') & (C' & D')).
  rewrite E1, E2. split; f_equal; apply Rle_antisym; auto.
Qed.

Lemma C52_roots_lemma cap blk (xs : list R) p m M x : (1 <= cap < 2 ^ 61)%Z -> Z.of_nat (length blk) = cap ->
  peaks_pushes (N := RNum) (fst (peaks_init (Some blk) cap)) (map Some xs) = Ret p ->
  let w := last_k cap xs in
  In m w -> In M w -> (forall y, In y w -> m <= y <= M) -> 0 < m ->
  x <> 0 -> (forall y, In y w -> 0 < 1 + x * y) -> grimshaw_w exact_math p (Some x : num RNum) = Ret (Some 0) ->
  - 1 / M < x < 0 \/ 0 < x < 2 * (mean w - m) / (m * m).
Proof.
  intros H1 H2 E w Im IM Hb Hp Hx Hd Hw. pose proof (rwindow cap blk xs p H1 H2 E) as I. fold w in I.
  assert (Hne : w <> []) by (intros C; rewrite C in Im; exact Im).
  apply (grim_root_range w m M x); try assumption.
  - split; [assumption|]. intros y Hy. apply Hb, Hy.
  - split; [assumption|]. intros y Hy. apply Hb, Hy.
  - rewrite (w_exact cap p w x I Hne Hd) in Hw. injection Hw as Hw. exact Hw.
Qed.

Lemma C52_estimator_lemma cap blk (xs : list R) p m M : (1 <= cap < 2 ^ 61)%Z -> Z.of_nat (length blk) = cap ->
  peaks_pushes (N := RNum) (fst (peaks_init (Some blk) cap)) (map Some xs) = Ret p ->
  let w := last_k cap xs in
  In m w -> In M w -> (forall y, In y w -> m <= y <= M) -> 0 < m ->
  exists fl xl fr xr x,
    search_result p w (- 1 / M + margin M) (- margin M) fl xl /\
    search_result p w (margin M) (2 * (mean w - m) / (m * m)) fr xr /\
    grimshaw_estimator exact_math p = Ret (Some (cand_ll w x), Some (cand_shape w x), Some (cand_scale w x)) /\
    (x = 0 \/ (fl = true /\ x = xl) \/ (fr = true /\ x = xr)) /\
    (forall y, In y w -> 0 < 1 + x * y) /\
    cand_ll w 0 <= cand_ll w x /\ (fl = true -> cand_ll w xl <= cand_ll w x) /\ (fr = true -> cand_ll w xr <= cand_ll w x).
Proof.
  intros H1 H2 E w Im IM Hb Hp. pose proof (rwindow cap blk xs p H1 H2 E) as I. fold w in I.
  assert (Hne : w <> []) by (intros C; rewrite C in Im; exact Im).
  assert (A : rmin m w) by (split; [assumption|]; intros y Hy; apply Hb, Hy).
  assert (B : rmax M w) by (split; [assumption|]; intros y Hy; apply Hb, Hy).
  destruct (rinv_extremes cap p w m M I Hne A B) as (E1 & E2).
  exact (estimator_exact cap p w m M I Hne E1 E2 A B Hp).
Qed.

Lemma C52_fit_lemma cap blk (xs : list R) t : (1 <= cap < 2 ^ 61)%Z -> Z.of_nat (length blk) = cap ->
  peaks_pushes (N := RNum) (fst (peaks_init (Some blk) cap)) (map Some xs) = Ret (t_peaks t) ->
  let w := last_k cap xs in
  w <> [] -> (forall y, In y w -> 0 < y) ->
  exists g sg, tail_fit exact_math t = Ret (MkTail (N := RNum) (Some g) (Some sg) (t_peaks t), Some (gpd_log_likelihood g sg w)) /\
    0 < sg /\ (forall y, In y w -> gpd_support g sg y) /\
    gpd_log_likelihood 0 (mean w) w <= gpd_log_likelihood g sg w /\
    forall g' sg' ll, mom_estimator exact_math (t_peaks t) = Ret (Some ll, g', sg') -> ll <= gpd_log_likelihood g sg w.
Proof.
  intros H1 H2 E w Hne Hpos. pose proof (rwindow cap blk xs _ H1 H2 E) as I. fold w in I. set (p := t_peaks t) in *.
  pose proof I as (_ & _ & X). destruct (X Hne) as (m & M & E1 & E2 & Rm & RM). clear X.
  assert (Hp : 0 < m) by (apply Hpos, Rm).
  destruct (estimator_exact cap p w m M I Hne E1 E2 Rm RM Hp) as (fl & xl & fr & xr & x & _ & _ & EG & _ & Dx & L0 & _).
  pose proof (cand_scale_pos w m Hne Rm Hp x Dx) as Gs.
  pose proof (cand_support w m Hne Rm Hp x Dx) as Gy.
  assert (L0' : cand_ll w 0 = gpd_log_likelihood 0 (mean w) w).
  { unfold cand_ll, cand_scale, cand_shape. destruct (Req_EM_T 0 0); [reflexivity|contradiction]. }
  rewrite L0' in L0.
  assert (EM : exists ll g' sg', mom_estimator exact_math p = Ret (ll, g', sg') /\ log_likelihood exact_math p g' sg' = Ret ll).
  { unfold mom_estimator. cbv zeta. match goal with |- context [log_likelihood exact_math p ?g ?s] => destruct (ll_total_R cap p w g s I) as (ll & EL) end.
    rewrite EL. cbn [bind]. do 3 eexists. split; [reflexivity|]. exact EL. }
  destruct EM as (ll & g' & sg' & EM & EL).
  unfold tail_fit, ESTIMATORS. cbn [tail_fit_loop]. fold p. rewrite EM. cbn [bind]. rewrite c_nan_R, is_nan_None. cbn [orb].
  cbn [t_peaks]. rewrite EG. unfold fit_of. cbn [bind].
  destruct ll as [ll|].
  - rewrite is_nan_R. cbn [orb nlt RNum xrb]. destruct (ll_valid cap p w g' sg' ll I Hne EL) as (g & sg & -> & -> & Vs & Vy & ->).
    case Rlt_bool_spec; intros C.
    + exists (cand_shape w x), (cand_scale w x). split; [reflexivity|]. split; [exact Gs|]. split; [exact Gy|]. split; [exact L0|].
      intros g2 s2 l2 Em. injection Em as <- _ _. unfold cand_ll in C. lra.
    + exists g, sg. split; [reflexivity|]. split; [exact Vs|]. split; [exact Vy|]. split; [lra|].
      intros g2 s2 l2 Em. injection Em as <- _ _. lra.
  - rewrite is_nan_None. cbn [orb]. exists (cand_shape w x), (cand_scale w x). split; [reflexivity|]. split; [exact Gs|]. split; [exact Gy|].
    split; [exact L0|]. intros g2 s2 l2 Em. discriminate Em.
Qed.

(** ** A window with a positive root *)
Lemma heavy_root : exists x, 0 < x /\ grim [1; 1; 1; 21] x = 0.
Proof.
  set (w := [1; 1; 1; 21]).
  assert (D : forall x, 0 <= x -> forall y, In y w -> 0 < 1 + x * y) by (intros x Hx y [<-|[<-|[<-|[<-|[]]]]]; lra).
  assert (Cf : forall x, 1 / 10 <= x <= 10 -> continuity_pt (fun t => - grim w t) x).
  { intros x Hx. apply (continuity_pt_opp (grim w)). apply grim_continuous. exact (D x ltac:(lra)). }
  assert (M6 : mean w = 6) by (unfold mean, w; cbn [fold_right length INR]; field).
  assert (A : - grim w (1 / 10) < 0).
  { assert (L1 : 1 / 11 <= ln (11 / 10)).
    { pose proof (ln_tangent (11 / 10) 1). rewrite ln_1 in H. lra. }
    assert (L2 : 1 <= ln (31 / 10)).
    { rewrite <- (ln_exp 1) at 1. left. apply ln_increasing; [apply exp_pos|]. pose proof exp_le_3. lra. }
    unfold grim, mean, w. cbn [map fold_right length INR].
    replace (1 + 1 / 10 * 1) with (11 / 10) by field. replace (1 + 1 / 10 * 21) with (31 / 10) by field.
    replace (/ (11 / 10)) with (10 / 11) by field. replace (/ (31 / 10)) with (10 / 31) by field. lra. }
  assert (B : 0 < - grim w 10).
  { assert (grim w 10 < 0); [|lra]. apply (grim_negative w 1); [discriminate| |lra|lra|].
    - split; [left; reflexivity|]. intros y [<-|[<-|[<-|[<-|[]]]]]; lra.
    - rewrite M6. lra. }
  destruct (Ranalysis5.IVT_interv (fun t => - grim w t) (1 / 10) 10 Cf) as (z & Hz & Ez); [lra|assumption|assumption|].
  exists z. split; lra.
Qed.
