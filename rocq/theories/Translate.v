(** * Translate: a change of origin of the observations (C64) *)
From Coq Require Import ZArith List Bool Reals Lra Lia.
From Verif Require Import Num XMath Ubend Peaks Brent Estimator Tail P2 Spot Session SpotFacts SpotB64 RNum P2ExactSpec P2Exact Spec TranslateSpec.
Import ListNotations.
Open Scope R_scope.

Lemma shift_sub b (x y : num RNum) : nsub (shift b x) (shift b y) = nsub x y.
Proof. destruct x as [x|], y as [y|]; cbn; try reflexivity. f_equal. ring. Qed.
Lemma shift_add b (x y : num RNum) : nadd (shift b x) y = shift b (nadd x y).
Proof. destruct x as [x|], y as [y|]; cbn; try reflexivity. f_equal. ring. Qed.
Lemma shift_nan b (x : num RNum) : is_nan (shift b x) = is_nan x.
Proof.
  unfold is_nan. destruct x as [x|]; [|reflexivity]. cbn. rewrite !Raux.Req_bool_true by reflexivity. reflexivity.
Qed.
Lemma real_list (l : list (num RNum)) : ~ In (None : num RNum) l -> exists xs : list R, l = map (fun x => Some x : num RNum) xs.
Proof.
  induction l as [|[x|] l IH]; intros H.
  - exists []. reflexivity.
  - destruct IH as (xs & ->); [intros X; apply H; right; exact X|]. exists (x :: xs). reflexivity.
  - exfalso. apply H. left. reflexivity.
Qed.
Lemma shift_p2 b (p : R) (data : list (num RNum)) : (5 <= length data)%nat -> ~ In (None : num RNum) data ->
  exists v, p2_quantile (N := RNum) (Some p) data = Ret (Some v) /\ p2_quantile (N := RNum) (Some p) (map (shift b) data) = Ret (Some (v + b)).
Proof.
  intros L NN. destruct (real_list data NN) as (xs & ->). rewrite map_length in L. destruct (C53_lemma p xs L) as (t & _ & E). exists (height (k2 t)). split; [exact E|].
  pose proof (C53_unit_lemma p 1 b xs _ Rlt_0_1 E L) as U. rewrite Rmult_1_l in U. rewrite <- U. f_equal. rewrite !map_map. apply map_ext. intros a. cbn. f_equal. ring.
Qed.

Section Shift.
Variables (mf : MathFns RNum) (b : R).
Notation sd := (shift_detector b).

Lemma shift_quantile s q : spot_quantile mf (sd s) q = match spot_quantile mf s q with Ret v => Ret (shift b v) | Undef w => Undef w end.
Proof.
  unfold spot_quantile. cbn [shift_detector s_tail s_Nt s_n s_et s_updown]. destruct (tail_quantile _ _ _ _) as [v|]; cbn [bind]; [|reflexivity].
  rewrite shift_add. reflexivity.
Qed.
Lemma shift_probability s z : spot_probability mf (sd s) (shift b z) = spot_probability mf s z.
Proof. unfold spot_probability. cbn [shift_detector s_tail s_Nt s_n s_et s_updown]. rewrite shift_sub. reflexivity. Qed.

Lemma shift_fill et data : forall s, fit_fill (shift b et) (sd s) (map (shift b) data) = match fit_fill et s data with Ret v => Ret (sd v) | Undef w => Undef w end.
Proof.
  induction data as [|x data IH]; intros s; cbn [fit_fill map]; [reflexivity|].
  change (s_updown (sd s)) with (s_updown s). change (s_tail (sd s)) with (s_tail s). rewrite shift_sub.
  destruct (nlt _ _); [|apply IH]. destruct (tail_push _ _) as [t|]; cbn [bind]; [|reflexivity].
  apply (IH (with_tail (with_counts s (u64 (s_Nt s + 1)) (s_n s)) t)).
Qed.

Lemma shift_step s x : spot_step mf (sd s) (shift b x) = match spot_step mf s x with Ret (v, r) => Ret (sd v, r) | Undef w => Undef w end.
Proof.
  unfold spot_step. rewrite shift_nan. destruct (is_nan x); [reflexivity|].
  change (s_discard (sd s)) with (s_discard s). change (s_updown (sd s)) with (s_updown s). change (s_at (sd s)) with (shift b (s_at s)).
  change (s_Nt (sd s)) with (s_Nt s). change (s_n (sd s)) with (s_n s). rewrite shift_sub. destruct (_ && _)%bool; [reflexivity|]. cbv zeta.
  cbn [with_counts s_updown s_et s_Nt s_n s_tail s_q with_tail]. change (s_et (sd s)) with (shift b (s_et s)). change (s_updown (sd s)) with (s_updown s). rewrite shift_sub. destruct (nle _ _); [|reflexivity].
  change (s_tail (sd s)) with (s_tail s). destruct (tail_push _ _) as [t|]; cbn [bind]; [|reflexivity]. destruct (tail_fit _ _) as [[t2 l]|]; cbn [bind]; [|reflexivity].
  match goal with |- context [spot_quantile mf ?A ?B] => change A with (sd (with_tail (with_counts s (u64 (s_Nt s + 1)) (u64 (s_n s + 1))) t2)) end.
  rewrite shift_quantile. cbn [with_counts s_updown s_et s_Nt s_n s_tail s_q with_tail shift_detector]. destruct (spot_quantile _ _ _) as [a|]; cbn [bind]; reflexivity.
Qed.

Lemma shift_fit (s : spot RNum) data (lv : R) : s_level s = (Some lv : num RNum) -> (5 <= length data)%nat -> ~ In (None : num RNum) data ->
  spot_fit mf (sd s) (map (shift b) data) = match spot_fit mf s data with Ret (v, r) => Ret (sd v, r) | Undef w => Undef w end.
Proof.
  intros LV L NN. unfold spot_fit. rewrite map_length. cbv zeta. cbn [with_counts s_low s_level]. change (s_low (sd s)) with (s_low s). change (s_level (sd s)) with (s_level s). rewrite LV.
  set (p := if (s_low s =? 0)%Z then (Some lv : num RNum) else nsub (nofZ 1 : num RNum) (Some lv : num RNum)).
  assert (P : exists p', p = Some p') by (unfold p; destruct (s_low s =? 0)%Z; [exists lv; reflexivity|exists (1 - lv); reflexivity]). destruct P as (p' & ->).
  destruct (shift_p2 b p' data L NN) as (v & -> & ->). cbn [bind].
  replace (is_nan (Some (v + b) : num RNum)) with (is_nan (Some v : num RNum)) by (symmetry; exact (shift_nan b (Some v))).
  destruct (is_nan _); [reflexivity|].
  match goal with |- context [@fit_fill RNum ?A ?B (map (shift b) data)] => change (@fit_fill RNum A B (map (shift b) data)) with
    (fit_fill (shift b (Some v : num RNum)) (sd (with_et (with_counts s 0 (Z.of_nat (length data))) (Some v : num RNum))) (map (shift b) data)) end.
  rewrite shift_fill. destruct (fit_fill _ _ _) as [s1|]; cbn [bind]; [|reflexivity]. change (s_tail (sd s1)) with (s_tail s1). destruct (tail_fit _ _) as [[t2 l]|]; cbn [bind]; [|reflexivity].
  change (with_tail (sd s1) t2) with (sd (with_tail s1 t2)). rewrite shift_quantile. change (s_q (sd (with_tail s1 t2))) with (s_q (with_tail s1 t2)).
  destruct (spot_quantile _ _ _) as [a|]; cbn [bind]; [|reflexivity]. rewrite shift_nan. destruct (is_nan a); reflexivity.
Qed.

Lemma step_level s x s' r : spot_step mf s x = Ret (s', r) -> s_level s' = s_level s.
Proof. intros H. apply step_inv in H. destruct H as [? -> ?|? ? ? -> ?|? ? ? -> ?|? ? ? ? ? ? ? ? ? ? -> ?]; reflexivity. Qed.
Lemma fill_level et data : forall s s', fit_fill (N := RNum) et s data = Ret s' -> s_level s' = s_level s.
Proof.
  induction data as [|x data IH]; intros s s'; cbn [fit_fill]; [intros H; injection H as <-; reflexivity|]. destruct (nlt _ _); [|apply IH].
  destruct (tail_push _ _); [|discriminate]. cbn [bind]. intros H. apply IH in H. exact H.
Qed.
Lemma fit_level s data s' r : spot_fit mf s data = Ret (s', r) -> s_level s' = s_level s.
Proof.
  unfold spot_fit. destruct (p2_quantile _ _) as [e|]; [|discriminate]. cbn [bind]. destruct (is_nan e); [intros H; injection H as <- _; reflexivity|].
  destruct (fit_fill _ _ _) as [s1|] eqn:E; [|discriminate]. cbn [bind]. apply fill_level in E. destruct (tail_fit _ _) as [[t l]|]; [|discriminate]. cbn [bind].
  destruct (spot_quantile _ _ _) as [a|]; [|discriminate]. cbn [bind]. destruct (is_nan a); intros H; injection H as <- _; exact E.
Qed.

Lemma shift_session cs : forall (s : spot RNum) (lv : R), s_level s = (Some lv : num RNum) -> Forall proper_call cs ->
  session mf (sd s) (map (shift_call b) cs) = match session mf s cs with Ret (s', l) => Ret (sd s', shift_answers b cs l) | Undef w => Undef w end.
Proof.
  induction cs as [|c cs IH]; intros s lv LV P; cbn [session map]; [reflexivity|]. inversion P as [|? ? Pc Pr]; subst.
  destruct c as [data|x|q|z]; cbn [shift_call do_call].
  - destruct Pc as (L & NN). rewrite (shift_fit s data lv LV L NN). destruct (spot_fit mf s data) as [[s1 r]|] eqn:E; cbn [bind]; [|reflexivity].
    rewrite (IH s1 lv) by (try rewrite (fit_level _ _ _ _ E); assumption). destruct (session mf s1 cs) as [[s2 l]|]; reflexivity.
  - rewrite shift_step. destruct (spot_step mf s x) as [[s1 r]|] eqn:E; cbn [bind]; [|reflexivity].
    rewrite (IH s1 lv) by (try rewrite (step_level _ _ _ _ E); assumption). destruct (session mf s1 cs) as [[s2 l]|]; reflexivity.
  - rewrite shift_quantile. destruct (spot_quantile mf s q) as [v|]; cbn [bind]; [|reflexivity].
    rewrite (IH s lv LV Pr). destruct (session mf s cs) as [[s2 l]|]; reflexivity.
  - rewrite shift_probability. destruct (spot_probability mf s z) as [v|]; cbn [bind]; [|reflexivity].
    rewrite (IH s lv LV Pr). destruct (session mf s cs) as [[s2 l]|]; reflexivity.
Qed.
End Shift.

Lemma C64_lemma (mf : MathFns RNum) (b : R) old (q : num RNum) low discard (level : R) cap blk (s0 : spot RNum) cs :
  spot_init (N := RNum) old q low discard (Some level : num RNum) cap (fun _ => Some blk) = (s0, 0%Z) -> Forall proper_call cs ->
  session mf s0 (map (shift_call b) cs) = match session mf s0 cs with Ret (s', l) => Ret (shift_detector b s', shift_answers b cs l) | Undef w => Undef w end.
Proof.
  intros I P. assert (E : s_level s0 = (Some level : num RNum)) by (apply init_fields in I as (_ & X & _); exact X).
  rewrite <- (shift_session mf b cs s0 level E P). f_equal.
  unfold spot_init in I. destruct (spot_check _ _) as [code|] eqn:C.
  { injection I as _ ->. unfold spot_check in C. destruct (_ || _)%bool; [discriminate|]. destruct (_ || _)%bool; discriminate. }
  destruct (tail_init _ _) as [t r]. destruct (Z.ltb r 0); [injection I as _ I; discriminate|]. injection I as <-. unfold shift_detector. cbn. rewrite !Raux.Req_bool_true by reflexivity. reflexivity.
Qed.
