(** * BenchP2: lemmas on the P2 program of the benchmarks (C76) *)
From Coq Require Import ZArith List Bool Lia Reals Lra Permutation.
From Flocq Require Import Core.Core IEEE754.BinarySingleNaN.
From Verif Require Import Num NumFacts XMath P2 P2Facts B64 B64Facts Spec SpotB64 WindowLemmas SortLemmas Bench.
Import ListNotations.
Open Scope Z_scope.

Lemma bench_sort5_spec (x0 x1 x2 x3 x4 : b64) :
  exists y0 y1 y2 y3 y4, bench_sort5 (N := B64) [x0; x1; x2; x3; x4] = Ret [y0; y1; y2; y3; y4] /\
    Permutation [x0; x1; x2; x3; x4] [y0; y1; y2; y3; y4] /\
    ((forall x, In x [x0; x1; x2; x3; x4] -> nan64 x = false) ->
     (xval y4 <= xval y3 <= xval y2)%R /\ (xval y2 <= xval y1 <= xval y0)%R).
Proof.
  let v := eval cbv -[b64_ltb] in (bench_sort5 (N := B64) [x0; x1; x2; x3; x4]) in
    change (bench_sort5 (N := B64) [x0; x1; x2; x3; x4]) with v.
  repeat match goal with |- context [b64_ltb ?x ?y] => destruct (b64_ltb x y) eqn:? end;
  (do 5 eexists; split; [reflexivity|split; [change (num B64) with b64; perm5|]]; intros HN;
   repeat match goal with
     | H : b64_ltb _ _ = true |- _ => apply ltb_true_iff in H as (_ & _ & H)
     | H : b64_ltb ?x ?y = false |- _ =>
         apply (leb_total x y (HN x ltac:(cbn; tauto)) (HN y ltac:(cbn; tauto))) in H;
         apply leb_true_iff in H as (_ & _ & H)
     end; clear HN; repeat split; lra).
Qed.

Lemma bench_sort_lemma (a : list b64) : length a = 5%nat ->
  exists a', bench_sort5 (N := B64) a = Ret a' /\ Permutation a a' /\
    ((forall x, In x a -> is_NaN x = false) ->
     forall i j, (i < j < 5)%nat -> b64_leb (nth j a' (d 0)) (nth i a' (d 0)) = true).
Proof.
  intros H. destruct (list5 a H) as (x0 & x1 & x2 & x3 & x4 & ->). clear H.
  destruct (bench_sort5_spec x0 x1 x2 x3 x4) as (y0 & y1 & y2 & y3 & y4 & E & P & S).
  eexists; split; [exact E|]. split; [exact P|]. intros HN i j Hij.
  assert (HN' : forall x, In x [x0; x1; x2; x3; x4] -> nan64 x = false).
  { intros x Hx. rewrite <- is_NaN_eq. auto. }
  destruct (S HN') as ((S1 & S2) & S3 & S4).
  assert (HY : forall x, In x [y0; y1; y2; y3; y4] -> nan64 x = false).
  { intros x Hx. apply HN'. eapply Permutation_in; [apply Permutation_sym, P|assumption]. }
  destruct i as [|[|[|[|[|i]]]]]; destruct j as [|[|[|[|[|j]]]]]; try lia; cbn [nth];
    apply leb_true_iff; (split; [apply HY; cbn; tauto|split; [apply HY; cbn; tauto|lra]]).
Qed.

Lemma fewer_than_five (p : b64) (xs : list b64) : (length xs < 5)%nat ->
  bench_quantile (N := B64) p xs = Ret (B754_nan : b64) /\ p2_quantile (N := B64) p xs = Ret (d 0).
Proof.
  intros H. split.
  - unfold bench_quantile. apply Nat.ltb_lt in H. change (num B64) with b64. rewrite H. reflexivity.
  - unfold p2_quantile, quantile. apply Nat.ltb_lt in H. change (num B64) with b64. rewrite H. reflexivity.
Qed.

Lemma p2_differ :
  exists (p : b64) (xs : list b64), (5 <= length xs)%nat /\ B2R64 p = (1 / 2)%R /\ (forall x, In x xs -> is_finite x = true) /\
    bench_quantile (N := B64) p xs = Ret (d 3) /\
    exists v, p2_quantile (N := B64) p xs = Ret v /\ b64_ltb v (d 3) = true.
Proof.
  assert (B : forall (r : res b64) (t : b64 -> bool), match r with Ret a => t a | Undef _ => false end = true -> exists v, r = Ret v /\ t v = true).
  { intros [a|w] t E; [exists a; auto|discriminate]. }
  set (p := b64_div (d 1) (d 2)). set (xs := map d [5; 4; 3; 2; 1; 3; 3; 3; 3; 3]).
  exists p, xs. split; [cbn; lia|]. split.
  { assert (E : B2SF p = SpecFloat.S754_finite false (2 ^ 52) (-53)) by (vm_compute; reflexivity).
    clearbody p. destruct p as [s|s| |s m e X]; try discriminate. injection E as -> -> ->. cbn [B2R]. unfold F2R. cbn [Fnum Fexp]. cbn. lra. }
  split.
  { intros x I. apply in_map_iff in I. destruct I as (z & <- & I). cbn in I. repeat (destruct I as [<-|I]; [reflexivity|]). destruct I. }
  split.
  - assert (E : match bench_quantile (N := B64) p xs with Ret a => B2SF (a : b64) | Undef _ => SpecFloat.S754_nan end = B2SF (d 3)) by (vm_compute; reflexivity).
    destruct (bench_quantile (N := B64) p xs) as [a|w]; [|discriminate]. f_equal. apply B2SF_inj. exact E.
  - apply (B (p2_quantile (N := B64) p xs) (fun v => b64_ltb v (d 3))). vm_compute. reflexivity.
Qed.
