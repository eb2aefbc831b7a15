(** * DocsLemmas: how many values a calibration keeps (C78) *)
From Coq Require Import ZArith List Bool Lia Reals Lra Sorting.Sorted.
From Flocq Require Import Core.Core IEEE754.BinarySingleNaN.
From Verif Require Import Num XMath Ubend Session Peaks Brent Estimator Tail P2 Spot B64 B64Facts Spec FitEffect P2Lemmas.
Import ListNotations.
Open Scope Z_scope.

Lemma ltb_asym (x y : b64) : b64_ltb x y = true -> b64_ltb y x = false.
Proof.
  intros H. apply ltb_true_iff in H. destruct H as (A & B & H). rewrite ltb_xval by assumption. apply Rlt_bool_false. lra.
Qed.
Lemma ltb_irrefl (x : b64) : b64_ltb x x = false.
Proof. destruct (b64_ltb x x) eqn:E; [|reflexivity]. rewrite (ltb_asym x x E) in E. discriminate. Qed.

Lemma filter_all {A} (f : A -> bool) l : (forall x, In x l -> f x = true) -> filter f l = l.
Proof. induction l as [|a l IH]; intros H; cbn [filter]; [reflexivity|]. rewrite (H a (or_introl eq_refl)), IH; [reflexivity|]. intros x I. apply H. right. exact I. Qed.
Lemma filter_none {A} (f : A -> bool) l : (forall x, In x l -> f x = false) -> filter f l = [].
Proof. induction l as [|a l IH]; intros H; cbn [filter]; [reflexivity|]. rewrite (H a (or_introl eq_refl)). apply IH. intros x I. apply H. right. exact I. Qed.

Lemma count_sorted (lt : b64 -> b64 -> bool) xs : (forall x y, lt x y = true -> lt y x = false) -> (forall x, lt x x = false) ->
  (3 <= length xs)%nat -> StronglySorted (fun x y => lt x y = true) xs ->
  count (lt (nth 2 xs (d 0))) xs = Z.of_nat (length xs) - 3 /\ count (fun x => lt x (nth 2 xs (d 0))) xs = 2.
Proof.
  intros As Ir L S. destruct xs as [|x0 [|x1 [|x2 t]]]; cbn [length] in L; try lia. cbn [nth].
  inversion S as [|? ? S1 H0]; subst. inversion S1 as [|? ? S2 H1]; subst. inversion S2 as [|? ? S3 H2]; subst.
  rewrite Forall_forall in H0, H1, H2. pose proof (H0 x2 ltac:(cbn; tauto)) as A0. pose proof (H1 x2 ltac:(cbn; tauto)) as A1.
  unfold count. cbn [filter]. rewrite (As _ _ A0), (As _ _ A1), A0, A1, Ir. split.
  - rewrite filter_all by assumption. cbn [length]. lia.
  - rewrite filter_none; [reflexivity|]. intros x I. apply As, H2, I.
Qed.

Lemma monotone_calibration mf q low discard level cap (s s' : spot B64) (xs : list b64) r :
  detector mf q low discard level cap s -> (5 <= length xs)%nat -> Z.of_nat (length xs) < 2 ^ 64 -> spot_fit mf s xs = Ret (s', r) ->
  (StronglySorted (fun x y => b64_ltb x y = true) xs -> s_Nt s' = if low =? 0 then Z.of_nat (length xs) - 3 else 2) /\
  (StronglySorted (fun x y => b64_ltb y x = true) xs -> s_Nt s' = if low =? 0 then 2 else Z.of_nat (length xs) - 3).
Proof.
  intros D L L' F. destruct (C51_lemma mf q low discard level cap s xs s' r D L' F) as (et & E & _ & K).
  split; intros S.
  - rewrite C42_increasing_lemma in E by assumption. injection E as <-.
    destruct (count_sorted b64_ltb xs ltb_asym ltb_irrefl ltac:(lia) S) as (C1 & C2).
    assert (N : is_NaN (nth 2 xs (d 0)) = false).
    { destruct xs as [|x0 [|x1 [|x2 t]]]; cbn [length] in L; try lia. cbn [nth]. inversion S as [|? ? S1 H0]; subst. rewrite Forall_forall in H0.
      specialize (H0 x2 ltac:(cbn; tauto)). apply ltb_true_iff in H0. rewrite <- (proj1 (proj2 H0)). destruct x2; reflexivity. }
    destruct (K N) as (_ & _ & K3 & _). rewrite K3. unfold beyond. destruct (low =? 0); [exact C1|exact C2].
  - rewrite C42_decreasing_lemma in E by assumption. injection E as <-.
    destruct (count_sorted (fun x y => b64_ltb y x) xs (fun x y => ltb_asym y x) ltb_irrefl ltac:(lia) S) as (C1 & C2).
    assert (N : is_NaN (nth 2 xs (d 0)) = false).
    { destruct xs as [|x0 [|x1 [|x2 t]]]; cbn [length] in L; try lia. cbn [nth]. inversion S as [|? ? S1 H0]; subst. rewrite Forall_forall in H0.
      specialize (H0 x2 ltac:(cbn; tauto)). apply ltb_true_iff in H0. rewrite <- (proj1 H0). destruct x2; reflexivity. }
    destruct (K N) as (_ & _ & K3 & _). rewrite K3. unfold beyond. destruct (low =? 0); [exact C2|exact C1].
Qed.
