(** * Properties of the P2 quantile estimator and of the excess threshold (C22, C42, C50) *)
From Coq Require Import ZArith List Bool Sorted.
From Verif Require Import Num XMath Ubend Session Peaks Brent Estimator Tail P2 Spot B64 Spec P2Spec P2Lemmas Demo.
Import ListNotations.
Open Scope Z_scope.

(** Boolean form of [bounded_batch], for the examples *)
Definition bounded_batchb (xs : list b64) : bool :=
  (5 <=? Z.of_nat (length xs)) && (Z.of_nat (length xs) <=? 2 ^ 53) && forallb is_finite xs &&
  forallb (fun x => forallb (fun y => is_finite (b64_minus x y)) xs) xs.
Lemma bounded_batchb_ok xs : bounded_batchb xs = true -> bounded_batch xs.
Proof.
  unfold bounded_batchb. intros H. apply andb_prop in H as (H & H4). apply andb_prop in H as (H & H3). apply andb_prop in H as (H1 & H2).
  apply Z.leb_le in H1, H2. rewrite forallb_forall in H3, H4. repeat split; auto.
  intros x y Hx Hy. specialize (H4 x Hx). rewrite forallb_forall in H4. auto.
Qed.
Definition shown (r : res b64) : option SpecFloat.spec_float := match r with Ret v => Some (sf v) | Undef _ => None end.

(** C22 *)
Theorem C22_quantile_within_data (p : b64) xs : bounded_batch xs ->
  exists v, p2_quantile (N := B64) p xs = Ret v /\ is_finite v = true /\
    (exists x, In x xs /\ b64_leb x v = true) /\ (exists x, In x xs /\ b64_leb v x = true).
Proof. exact (C22_p2_lemma p xs). Qed.
Print Assumptions C22_quantile_within_data.
Theorem C22_excess_threshold_within_data mf (s : spot B64) xs s' r : bounded_batch xs -> spot_fit mf s xs = Ret (s', r) ->
  r <> -1003 /\ is_finite (s_et s') = true /\
  (exists x, In x xs /\ b64_leb x (s_et s') = true) /\ (exists x, In x xs /\ b64_leb (s_et s') x = true).
Proof. exact (C22_lemma mf s xs s' r). Qed.
Print Assumptions C22_excess_threshold_within_data.
Example C22_example : bounded_batch demo_batch /\ (b64_ltb (d 6) (s_et demo_up) && b64_ltb (s_et demo_up) (d 7))%bool = true /\
  codes (demo_init 0 1 4) [CFit (N := B64) demo_batch] = Some [0].
Proof. split; [apply bounded_batchb_ok|split]; vm_compute; reflexivity. Qed.
(** Without the bound on the spread the threshold can be infinite although the data is finite. *)
Theorem C22_overflow_refuted : exists xs, (forall x, In x xs -> is_finite x = true) /\ length xs = 12%nat /\
  p2_quantile (N := B64) (dy 3 2) xs = Ret pinf.
Proof.
  exists (let B := b64_ofZ (2 ^ 1023) in let M := b64_opp B in [M; M; M; B; B; M; B; d 0; B; M; d 0; d 0]).
  split; [|split; [reflexivity|]].
  - apply forallb_forall. vm_compute. reflexivity.
  - match goal with |- ?t = _ => assert (E : shown t = Some (sf pinf)) by (vm_compute; reflexivity); destruct t as [v|] end;
      [|discriminate].
    f_equal. destruct v as [b|b| |b m e]; try discriminate. destruct b; [discriminate|reflexivity].
Qed.
Print Assumptions C22_overflow_refuted.

(** C42 *)
Theorem C42_extreme_updates_one_marker {N} (s : p2st N) x m0 m1 m2 m3 m4 : m_q s = [m0; m1; m2; m3; m4] ->
  (nlt x m0 = true -> p2_observe s x = Ret (MkP2 [x; m1; m2; m3; m4] (m_n s) (m_np s) (m_dn s))) /\
  (nlt x m0 = false -> nlt m4 x = true -> p2_observe s x = Ret (MkP2 [m0; m1; m2; m3; x] (m_n s) (m_np s) (m_dn s))).
Proof. exact (C42_observe_lemma s x m0 m1 m2 m3 m4). Qed.
Print Assumptions C42_extreme_updates_one_marker.
Theorem C42_only_new_extremes (p : b64) xs m0 m1 m2 m3 m4 :
  (5 <= length xs)%nat -> sort5 (N := B64) (firstn 5 xs) = Ret [m0; m1; m2; m3; m4] ->
  (forall pre x post, xs = pre ++ x :: post -> (5 <= length pre)%nat -> above pre x \/ below pre x) ->
  p2_quantile (N := B64) p xs = Ret m2.
Proof. exact (C42_lemma p xs m0 m1 m2 m3 m4). Qed.
Print Assumptions C42_only_new_extremes.
Theorem C42_monotone_batch_threshold mf (s : spot B64) xs s' r : (5 <= length xs)%nat ->
  (StronglySorted (fun x y => b64_ltb x y = true) xs \/ StronglySorted (fun x y => b64_ltb y x = true) xs) ->
  spot_fit mf s xs = Ret (s', r) -> s_et s' = nth 2 xs (d 0).
Proof. exact (C42_fit_lemma mf s xs s' r). Qed.
Print Assumptions C42_monotone_batch_threshold.
(** 1, 2, ..., 40: the 3/4-quantile is 30, the threshold is 3 *)
Example C42_example :
  let xs := map d (map Z.of_nat (seq 1 40)) in
  StronglySorted (fun x y => b64_ltb x y = true) xs /\
  codes (demo_init 0 1 4) [CFit (N := B64) xs] = Some [0] /\
  shown (Ret (s_et (run (demo_init 0 1 4) [CFit (N := B64) xs]))) = Some (sf (d 3)).
Proof.
  split; [|split; vm_compute; reflexivity].
  assert (H : forall l, (fix go l := match l with [] => true | x :: t => forallb (b64_ltb x) t && go t end) l = true ->
     StronglySorted (fun x y => b64_ltb x y = true) l).
  { induction l as [|x t IH]; intros E; constructor; apply andb_prop in E as (E1 & E2); auto.
    apply Forall_forall. apply forallb_forall. exact E1. }
  apply H. vm_compute. reflexivity.
Qed.

(** C50 *)
Theorem C50_marker_invariants (p : b64) xs : bounded_batch xs ->
  exists q0 s,
    sort5 (N := B64) (firstn 5 xs) = Ret q0 /\
    p2_run (N := B64) (with_markers (init_p2 (N := B64) p) q0) (skipn 5 xs) = Ret s /\
    p2_quantile (N := B64) p xs = rd (m_q s) 2 /\
    (* the markers are sorted *)
    length (m_q s) = 5%nat /\
    (forall i j, (i < j < 5)%nat -> b64_leb (nth i (m_q s) (d 0)) (nth j (m_q s) (d 0)) = true) /\
    (* the outer ones are the extremes of the data *)
    (exists x, In x xs /\ b64_eqb x (nth 0 (m_q s) (d 0)) = true) /\
    (exists x, In x xs /\ b64_eqb x (nth 4 (m_q s) (d 0)) = true) /\
    (forall x, In x xs -> b64_leb (nth 0 (m_q s) (d 0)) x = true /\ b64_leb x (nth 4 (m_q s) (d 0)) = true) /\
    (* positions are increasing integers *)
    exists zs, m_n s = map b64_ofZ zs /\ length zs = 5%nat /\ StronglySorted Z.lt zs /\
      forall z, In z zs -> 0 <= z < Z.of_nat (length xs).
Proof. exact (C50_lemma p xs). Qed.
Print Assumptions C50_marker_invariants.
Example C50_example : bounded_batch demo_batch /\
  match (q <- sort5 (N := B64) (firstn 5 demo_batch) ;; p2_run (N := B64) (with_markers (init_p2 (N := B64) (dy 3 2)) q) (skipn 5 demo_batch)) with
  | Ret s => map sf (m_n s) = map sf (map d [0; 6; 13; 16; 18]) /\
      map sf (m_q s) = map sf [d 1; dy 6608477960227388 51; dy 7725790008086697 50; dy 4755683087539802 49; d 9]
  | Undef _ => False end.
Proof. split; [apply bounded_batchb_ok|]; vm_compute; repeat split. Qed.
