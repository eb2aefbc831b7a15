(** * NumFacts: lemmas about checked arrays, loops and the [res] monad *)
From Coq Require Import ZArith List Bool Lia.
From Verif Require Import Num.
Import ListNotations.
Open Scope Z_scope.

Lemma bind_Ret {A B} (m : res A) (k : A -> res B) b :
  bind m k = Ret b <-> exists a, m = Ret a /\ k a = Ret b.
Proof.
  destruct m as [a|w]; simpl; split.
  - intros H; exists a; auto.
  - intros [a' [H1 H2]]; congruence.
  - discriminate.
  - intros [a' [H1 H2]]; discriminate.
Qed.

Lemma bind_assoc {A B C} (m : res A) (f : A -> res B) (g : B -> res C) :
  bind (bind m f) g = bind m (fun x => bind (f x) g).
Proof. destruct m; reflexivity. Qed.

Lemma bind_ret_r {A} (m : res A) : bind m Ret = m.
Proof. destruct m; reflexivity. Qed.

(** ** upd *)
Lemma upd_length {A} (l : list A) n a : length (upd l n a) = length l.
Proof. revert n; induction l as [|h t IH]; intros [|n]; simpl; auto. Qed.

Lemma upd_app {A} (l1 l2 : list A) b a :
  upd (l1 ++ b :: l2) (length l1) a = l1 ++ a :: l2.
Proof. induction l1 as [|h t IH]; simpl; congruence. Qed.

Lemma nth_error_upd_eq {A} (l : list A) n a :
  (n < length l)%nat -> nth_error (upd l n a) n = Some a.
Proof.
  revert n; induction l as [|h t IH]; intros [|n] H; simpl in *; try lia; auto.
  apply IH; lia.
Qed.

Lemma nth_error_upd_neq {A} (l : list A) n m a :
  n <> m -> nth_error (upd l n a) m = nth_error l m.
Proof.
  revert n m; induction l as [|h t IH]; intros [|n] [|m] H; simpl; try congruence; auto.
Qed.

(** ** rd / wr *)
Lemma rd_spec {A} (l : list A) i a :
  rd l i = Ret a <-> 0 <= i /\ nth_error l (Z.to_nat i) = Some a.
Proof.
  unfold rd. split.
  - destruct ((0 <=? i) && (i <? Z.of_nat (length l))) eqn:E; [|discriminate].
    destruct (nth_error l (Z.to_nat i)) eqn:E2; [|discriminate].
    intros H; injection H as <-. split; [lia|reflexivity].
  - intros [H1 H2].
    assert (H3 : (Z.to_nat i < length l)%nat) by (apply nth_error_Some; congruence).
    replace ((0 <=? i) && (i <? Z.of_nat (length l))) with true by (symmetry; apply andb_true_intro; split; lia).
    rewrite H2. reflexivity.
Qed.

Lemma rd_ok {A} (l : list A) i :
  0 <= i < Z.of_nat (length l) -> exists a, rd l i = Ret a /\ nth_error l (Z.to_nat i) = Some a.
Proof.
  intros H. destruct (nth_error l (Z.to_nat i)) as [a|] eqn:E.
  - exists a; split; [|reflexivity]. apply rd_spec; split; [lia|assumption].
  - apply nth_error_None in E. lia.
Qed.

Lemma rd_oob {A} (l : list A) i :
  ~ (0 <= i < Z.of_nat (length l)) -> rd l i = Undef OutOfBounds.
Proof.
  intros H. unfold rd.
  destruct ((0 <=? i) && (i <? Z.of_nat (length l))) eqn:E; [lia|reflexivity].
Qed.

Lemma wr_ok {A} (l : list A) i a :
  0 <= i < Z.of_nat (length l) -> wr l i a = Ret (upd l (Z.to_nat i) a).
Proof.
  intros H. unfold wr.
  replace ((0 <=? i) && (i <? Z.of_nat (length l))) with true by (symmetry; apply andb_true_intro; split; lia).
  reflexivity.
Qed.

Lemma wr_oob {A} (l : list A) i a :
  ~ (0 <= i < Z.of_nat (length l)) -> wr l i a = Undef OutOfBounds.
Proof.
  intros H. unfold wr.
  destruct ((0 <=? i) && (i <? Z.of_nat (length l))) eqn:E; [lia|reflexivity].
Qed.

Lemma wr_length {A} (l l' : list A) i a : wr l i a = Ret l' -> length l' = length l.
Proof.
  unfold wr. destruct (_ && _); intros H; inversion H. apply upd_length.
Qed.

Lemma rdcell_ok {A} (l : list (option A)) i a :
  0 <= i -> nth_error l (Z.to_nat i) = Some (Some a) -> rdcell l i = Ret a.
Proof.
  intros H1 H2. unfold rdcell.
  replace (rd l i) with (Ret (Some a)) by (symmetry; apply rd_spec; auto).
  reflexivity.
Qed.

(** ** loops *)
Lemma for_from_ext {S} n i (f g : Z -> S -> res S) s :
  (forall j s, i <= j < i + Z.of_nat n -> f j s = g j s) ->
  for_from n i f s = for_from n i g s.
Proof.
  revert i s; induction n as [|n IH]; intros i s H; simpl; [reflexivity|].
  rewrite H by lia. destruct (g i s); simpl; [|reflexivity].
  apply IH. intros; apply H; lia.
Qed.

(** A loop that reads cell [i] at each turn is a fold over the cell contents. *)
Lemma for_from_fold {A S} (f : S -> A -> S) (d : list (option A)) (w : list A) k s :
  (forall j, (j < length w)%nat -> nth_error d (k + j) = Some (nth_error w j)) ->
  for_from (length w) (Z.of_nat k) (fun i s => bind (rdcell d i) (fun v => Ret (f s v))) s
  = Ret (fold_left f w s).
Proof.
  revert k s; induction w as [|a w IH]; intros k s H; simpl; [reflexivity|].
  rewrite (rdcell_ok d (Z.of_nat k) a); simpl.
  - replace (Z.of_nat k + 1) with (Z.of_nat (Datatypes.S k)) by lia.
    apply IH. intros j Hj. specialize (H (Datatypes.S j)).
    replace (k + Datatypes.S j)%nat with (Datatypes.S k + j)%nat in H by lia.
    simpl length in H. rewrite H by lia. reflexivity.
  - lia.
  - rewrite Nat2Z.id. specialize (H 0%nat). rewrite Nat.add_0_r in H.
    rewrite H by (simpl; lia). reflexivity.
Qed.

Lemma for_lt_fold {A S} (f : S -> A -> S) (d : list (option A)) (w : list A) n s :
  n = Z.of_nat (length w) ->
  firstn (length w) d = map Some w ->
  for_lt n (fun i s => bind (rdcell d i) (fun v => Ret (f s v))) s
  = Ret (fold_left f w s).
Proof.
  intros -> H. unfold for_lt. rewrite Nat2Z.id.
  apply (for_from_fold f d w 0).
  intros j Hj. simpl.
  assert (E : nth_error (firstn (length w) d) j = nth_error d j).
  { clear -Hj. revert j w Hj. induction d as [|h t IH]; intros j w Hj.
    - rewrite firstn_nil. reflexivity.
    - destruct w as [|a w]; simpl in *; [lia|]. destruct j; simpl; [reflexivity|].
      apply IH; lia. }
  rewrite <- E, H. rewrite nth_error_map.
  destruct (nth_error w j) eqn:E2; [reflexivity|].
  apply nth_error_None in E2. lia.
Qed.

Lemma for_from_inv {S} (P : Z -> S -> Prop) n i (f : Z -> S -> res S) s :
  P i s ->
  (forall j s, i <= j < i + Z.of_nat n -> P j s -> exists s', f j s = Ret s' /\ P (j + 1) s') ->
  exists s', for_from n i f s = Ret s' /\ P (i + Z.of_nat n) s'.
Proof.
  revert i s; induction n as [|n IH]; intros i s H0 HS; simpl.
  - exists s; split; [reflexivity|]. rewrite Z.add_0_r. assumption.
  - destruct (HS i s) as [s1 [E1 H1]]; [lia|assumption|].
    rewrite E1; simpl.
    destruct (IH (i + 1) s1 H1) as [s2 [E2 H2]].
    + intros j s' Hj HP. apply HS; [lia|assumption].
    + exists s2; split; [assumption|]. replace (i + Z.pos (Pos.of_succ_nat n)) with (i + 1 + Z.of_nat n) by lia.
      assumption.
Qed.

(** ** the last [k] elements of a list *)
Definition lastn {A} (k : nat) (l : list A) : list A := skipn (length l - k) l.

Lemma lastn_length {A} k (l : list A) : length (lastn k l) = Nat.min (length l) k.
Proof. unfold lastn. rewrite skipn_length. lia. Qed.

Lemma lastn_all {A} k (l : list A) : (length l <= k)%nat -> lastn k l = l.
Proof. intros H. unfold lastn. replace (length l - k)%nat with 0%nat by lia. reflexivity. Qed.

Lemma lastn_snoc_lt {A} k (l : list A) x :
  (length l < k)%nat -> lastn k (l ++ [x]) = lastn k l ++ [x].
Proof.
  intros H. rewrite !lastn_all by (rewrite ?app_length; simpl; lia). reflexivity.
Qed.

Lemma lastn_snoc_ge {A} k (l : list A) x :
  (k <= length l)%nat -> (0 < k)%nat -> lastn k (l ++ [x]) = tl (lastn k l) ++ [x].
Proof.
  intros H Hk. unfold lastn. rewrite app_length; simpl.
  rewrite skipn_app.
  replace (length l + 1 - k - length l)%nat with 0%nat by lia. simpl.
  f_equal.
  replace (length l + 1 - k)%nat with (S (length l - k)) by lia.
  generalize (length l - k)%nat as m. clear.
  intros m; revert l; induction m as [|m IH]; intros l; simpl.
  - destruct l; reflexivity.
  - destruct l as [|a l]; [reflexivity|]. apply IH.
Qed.

Lemma lastn_nil {A} k : lastn k (@nil A) = [].
Proof. reflexivity. Qed.

Lemma lastn_incl {A} k (l : list A) x : In x (lastn k l) -> In x l.
Proof.
  unfold lastn. generalize (length l - k)%nat as m. intros m.
  revert l; induction m as [|m IH]; intros [|a l]; simpl; auto.
Qed.

Lemma lastn_map {A B} (f : A -> B) k (l : list A) : lastn k (map f l) = map f (lastn k l).
Proof.
  unfold lastn. rewrite map_length. generalize (length l - k)%nat as m. intros m.
  revert l; induction m as [|m IH]; intros [|a l]; simpl; auto.
Qed.

Lemma u64_small z : 0 <= z < 2 ^ 64 -> u64 z = z.
Proof. intros. unfold u64. apply Z.mod_small; assumption. Qed.
Lemma u32_small z : 0 <= z < 2 ^ 32 -> u32 z = z.
Proof. intros. unfold u32. apply Z.mod_small; assumption. Qed.
