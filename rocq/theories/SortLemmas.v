(** * SortLemmas: sort5 sorts (C24) *)
From Coq Require Import ZArith List Bool Lia Reals Lra Permutation.
From Flocq Require Import Core.Core IEEE754.BinarySingleNaN.
From Verif Require Import Num NumFacts XMath P2 P2Facts B64 B64Facts Spec SpotB64 WindowLemmas.
Import ListNotations.
Open Scope Z_scope.

(** ** C24 *)
Ltac perm5 :=
  match goal with
  | |- Permutation ?l ?l => apply Permutation_refl
  | |- Permutation (?x :: ?l) ?r =>
     let rec go pre post :=
       match post with
       | x :: ?post' =>
          let e := eval cbn [app] in (pre ++ post') in
          apply perm_trans with (x :: e);
          [apply perm_skip; perm5 | apply (Permutation_middle pre post' x)]
       | ?y :: ?post' =>
          let pre' := eval cbn [app] in (pre ++ [y]) in go pre' post'
       end in
     match type of x with ?T => go (@nil T) r end
  end.

Lemma sort5_spec (x0 x1 x2 x3 x4 : b64) :
  exists y0 y1 y2 y3 y4, sort5 (N := B64) [x0; x1; x2; x3; x4] = Ret [y0; y1; y2; y3; y4] /\
    Permutation [x0; x1; x2; x3; x4] [y0; y1; y2; y3; y4] /\
    ((forall x, In x [x0; x1; x2; x3; x4] -> nan64 x = false) ->
     (xval y0 <= xval y1 <= xval y2)%R /\ (xval y2 <= xval y3 <= xval y4)%R).
Proof.
  let v := eval cbv -[b64_ltb] in (sort5 (N := B64) [x0; x1; x2; x3; x4]) in
    change (sort5 (N := B64) [x0; x1; x2; x3; x4]) with v.
  repeat match goal with |- context [b64_ltb ?x ?y] => destruct (b64_ltb x y) eqn:? end;
  (do 5 eexists; split; [reflexivity|split; [change (num B64) with b64; perm5|]]; intros HN;
   repeat match goal with
     | H : b64_ltb _ _ = true |- _ => apply ltb_true_iff in H as (_ & _ & H)
     | H : b64_ltb ?x ?y = false |- _ =>
         apply (leb_total x y (HN x ltac:(cbn; tauto)) (HN y ltac:(cbn; tauto))) in H;
         apply leb_true_iff in H as (_ & _ & H)
     end; clear HN; repeat split; lra).
Qed.

Lemma C24_lemma (a : list b64) : length a = 5%nat ->
  exists a', sort5 (N := B64) a = Ret a' /\ Permutation a a' /\
    ((forall x, In x a -> is_NaN x = false) ->
     forall i j, (i < j < 5)%nat -> b64_leb (nth i a' (d 0)) (nth j a' (d 0)) = true).
Proof.
  intros H. destruct (list5 a H) as (x0 & x1 & x2 & x3 & x4 & ->). clear H.
  destruct (sort5_spec x0 x1 x2 x3 x4) as (y0 & y1 & y2 & y3 & y4 & E & P & S).
  eexists; split; [exact E|]. split; [exact P|]. intros HN i j Hij.
  assert (HN' : forall x, In x [x0; x1; x2; x3; x4] -> nan64 x = false).
  { intros x Hx. rewrite <- is_NaN_eq. auto. }
  destruct (S HN') as ((S1 & S2) & S3 & S4).
  assert (HY : forall x, In x [y0; y1; y2; y3; y4] -> nan64 x = false).
  { intros x Hx. apply HN'. eapply Permutation_in; [apply Permutation_sym, P|assumption]. }
  destruct i as [|[|[|[|[|i]]]]]; destruct j as [|[|[|[|[|j]]]]]; try lia; cbn [nth];
    apply leb_true_iff; (split; [apply HY; cbn; tauto|split; [apply HY; cbn; tauto|lra]]).
Qed.

