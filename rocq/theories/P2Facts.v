(** * P2Facts: index safety and totality of the P2 quantile, for any arithmetic *)
From Coq Require Import ZArith List Bool Lia Permutation.
From Verif Require Import Num NumFacts XMath P2.
Import ListNotations.
Open Scope Z_scope.

Section P2Facts.
Context {N : NumOps}.

(** The only facts needed about the arithmetic: (int) of 0, 1, -1. *)
Definition trunc_ok : Prop :=
  ntrunc (n := N) (nofZ 0) = Some 0 /\ ntrunc (n := N) (nofZ 1) = Some 1 /\ ntrunc (n := N) (nofZ (-1)) = Some (-1).

Definition len5 (s : p2st N) : Prop :=
  length (m_q s) = 5%nat /\ length (m_n s) = 5%nat /\ length (m_np s) = 5%nat /\ length (m_dn s) = 5%nat.

Lemma list5 {A} (l : list A) : length l = 5%nat -> exists a b c d e, l = [a; b; c; d; e].
Proof.
  intros H. do 5 (destruct l as [|? l]; [discriminate|]). destruct l; [|discriminate].
  do 5 eexists; reflexivity.
Qed.

Lemma rd5 {A} (l : list A) i : length l = 5%nat -> 0 <= i < 5 -> exists a, rd l i = Ret a.
Proof. intros H Hi. destruct (rd_ok l i) as (a & E & _); [lia|]. eauto. Qed.

Lemma wr5 {A} (l : list A) i a : length l = 5%nat -> 0 <= i < 5 ->
  exists l', wr l i a = Ret l' /\ length l' = 5%nat.
Proof. intros H Hi. rewrite wr_ok by lia. eexists; split; [reflexivity|]. rewrite upd_length. assumption. Qed.

Lemma sort5_total (a : list (num N)) : length a = 5%nat ->
  exists a', sort5 a = Ret a' /\ length a' = 5%nat.
Proof.
  intros H. destruct (list5 a H) as (x0 & x1 & x2 & x3 & x4 & ->). clear H.
  unfold sort5, cell_lt, swap.
  cbv -[nlt num].
  repeat match goal with |- context [@nlt ?n ?x ?y] => destruct (@nlt n x y) end.
  all: eexists; split; [reflexivity|reflexivity].
Qed.

Lemma find_cell_ok (q : list (num N)) xj : length q = 5%nat ->
  (forall q4, rd q 4 = Ret q4 -> nlt q4 xj = false) ->
  forall k, 0 <= k <= 4 -> forall fuel, (Z.to_nat (4 - k) < fuel)%nat ->
  exists k', find_cell fuel q xj k = Ret k' /\ k <= k' <= 4.
Proof.
  intros L H4 k Hk. remember (Z.to_nat (4 - k)) as m eqn:Em. revert k Hk Em.
  induction m as [|m IH]; intros k Hk Em fuel Hf; destruct fuel as [|fuel]; try lia; cbn [find_cell].
  - assert (k = 4) by lia. subst k. destruct (rd5 q 4 L) as (v & E); [lia|].
    rewrite E. cbn [bind]. rewrite (H4 v E). exists 4. split; [reflexivity|lia].
  - destruct (rd5 q k L) as (v & E); [lia|]. rewrite E. cbn [bind].
    destruct (nlt v xj).
    + rewrite u32_small by lia. destruct (IH (k + 1)) with (fuel := fuel) as (k' & E' & Hk'); try lia.
      exists k'. split; [assumption|lia].
    + exists k. split; [reflexivity|lia].
Qed.

Lemma incr_from_ok (n : list (num N)) k : length n = 5%nat -> 0 <= k ->
  exists n', incr_from n k = Ret n' /\ length n' = 5%nat.
Proof.
  intros L Hk. unfold incr_from, for_lt.
  destruct (for_from_inv (fun _ (n : list (num N)) => length n = 5%nat) (Z.to_nat (5 - k)) 0
     (fun j n => bind (rd n (k + j)) (fun x => wr n (k + j) (nadd x (nofZ 1)))) n L) as (s' & E & H).
  - intros j s Hj Ls. destruct (rd5 s (k + j) Ls) as (a & ->); [lia|]. cbn [bind]. apply wr5; [assumption|lia].
  - eauto.
Qed.

Lemma incr_np_ok (np dn : list (num N)) : length np = 5%nat -> length dn = 5%nat ->
  exists n', incr_np np dn = Ret n' /\ length n' = 5%nat.
Proof.
  intros L Ld. unfold incr_np, for_lt.
  destruct (for_from_inv (fun _ (n : list (num N)) => length n = 5%nat) (Z.to_nat 5) 0
     (fun i np => bind (rd np i) (fun x => bind (rd dn i) (fun y => wr np i (nadd x y)))) np L) as (s' & E & H).
  - intros j s Hj Ls. destruct (rd5 s j Ls) as (a & ->); [lia|].
    destruct (rd5 dn j Ld) as (b & ->); [lia|]. cbn [bind]. apply wr5; [assumption|lia].
  - eauto.
Qed.

Lemma sign_cases (d : num N) : sign d = nofZ 0 \/ sign d = nofZ 1 \/ sign d = nofZ (-1).
Proof. unfold sign. destruct (nlt _ d); auto. destruct (nlt d _); auto. Qed.

Lemma adjust_ok (T : trunc_ok) i s : 1 <= i <= 3 -> len5 s -> exists s', adjust i s = Ret s' /\ len5 s'.
Proof.
  intros Hi (Lq & Ln & Lp & Ld). unfold adjust.
  assert (H1 : u32 (i + 1) = i + 1) by (apply u32_small; lia).
  assert (H2 : u32 (i - 1) = i - 1) by (apply u32_small; lia).
  rewrite H1, H2.
  destruct (rd5 (m_np s) i Lp) as (npi & ->); [lia|].
  destruct (rd5 (m_n s) i Ln) as (ni & Eni); [lia|].
  destruct (rd5 (m_n s) (i + 1) Ln) as (np1 & Enp1); [lia|].
  destruct (rd5 (m_n s) (i - 1) Ln) as (nm1 & Enm1); [lia|].
  rewrite Eni, Enp1, Enm1. cbn [bind].
  destruct (_ || _)%bool.
  2:{ exists s. split; [reflexivity|]. repeat split; assumption. }
  assert (I : exists di, int_of_num (sign (nsub npi ni)) = Ret di /\ -1 <= di <= 1).
  { destruct T as (T0 & T1 & T2). unfold int_of_num.
    destruct (sign_cases (nsub npi ni)) as [-> | [-> | ->]]; rewrite ?T0, ?T1, ?T2; cbn; eexists; split; try reflexivity; lia. }
  destruct I as (di & -> & Hdi). cbn [bind].
  unfold parabolic. rewrite H1, H2, Eni, Enp1, Enm1.
  destruct (rd5 (m_q s) i Lq) as (qi & Eqi); [lia|].
  destruct (rd5 (m_q s) (i + 1) Lq) as (qp & Eqp); [lia|].
  destruct (rd5 (m_q s) (i - 1) Lq) as (qm & Eqm); [lia|].
  rewrite Eqi, Eqp, Eqm. cbn [bind].
  set (para := nadd _ _).
  assert (LN : exists v, linear s i di = Ret v).
  { unfold linear. assert (H3 : u32 (i + di) = i + di) by (apply u32_small; lia). rewrite H3, Eqi, Eni.
    destruct (rd5 (m_q s) (i + di) Lq) as (a & ->); [lia|].
    destruct (rd5 (m_n s) (i + di) Ln) as (b & ->); [lia|]. cbn [bind]. eauto. }
  assert (E : exists v, (if negb (nlt qm para && nlt para qp) then linear s i di else Ret para) = Ret v).
  { destruct (negb _); [exact LN|eauto]. }
  destruct E as (v & ->). cbn [bind].
  destruct (wr5 (m_q s) i v Lq) as (q' & -> & Lq'); [lia|].
  destruct (wr5 (m_n s) i (nadd ni (sign (nsub npi ni))) Ln) as (n' & -> & Ln'); [lia|].
  cbn [bind]. eexists; split; [reflexivity|]. repeat split; assumption.
Qed.

Lemma p2_observe_ok (T : trunc_ok) s x : len5 s -> exists s', p2_observe s x = Ret s' /\ len5 s'.
Proof.
  intros L. pose proof L as (Lq & Ln & Lp & Ld). unfold p2_observe.
  destruct (rd5 (m_q s) 0 Lq) as (q0 & E0); [lia|]. destruct (rd5 (m_q s) 4 Lq) as (q4 & E4); [lia|].
  rewrite E0, E4. cbn [bind].
  destruct (nlt x q0).
  { destruct (wr5 (m_q s) 0 x Lq) as (q' & -> & Lq'); [lia|]. cbn [bind]. eexists; split; [reflexivity|]. repeat split; assumption. }
  destruct (nlt q4 x) eqn:C4.
  { destruct (wr5 (m_q s) 4 x Lq) as (q' & -> & Lq'); [lia|]. cbn [bind]. eexists; split; [reflexivity|]. repeat split; assumption. }
  destruct (find_cell_ok (m_q s) x Lq) with (k := 0) (fuel := 6%nat) as (k & -> & Hk).
  { intros v E. rewrite E4 in E. injection E as <-. assumption. }
  { lia. } { cbn. lia. }
  cbn [bind].
  assert (Hw : 0 <= u32 (u32 (k - 1) + 1)) by (unfold u32; apply Z.mod_pos_bound; lia).
  destruct (incr_from_ok (m_n s) _ Ln Hw) as (n' & -> & Ln').
  destruct (incr_np_ok (m_np s) (m_dn s) Lp Ld) as (np' & -> & Lp'). cbn [bind].
  destruct (adjust_ok T 1 (MkP2 (m_q s) n' np' (m_dn s))) as (s1 & -> & L1); [lia|repeat split; assumption|].
  cbn [bind].
  destruct (adjust_ok T 2 s1) as (s2 & -> & L2); [lia|assumption|]. cbn [bind].
  destruct (adjust_ok T 3 s2) as (s3 & -> & L3); [lia|assumption|]. eauto.
Qed.

Lemma p2_run_ok (T : trunc_ok) s xs : len5 s -> exists s', p2_run s xs = Ret s' /\ len5 s'.
Proof.
  revert s; induction xs as [|x xs IH]; intros s L; cbn [p2_run]; [eauto|].
  destruct (p2_observe_ok T s x L) as (s1 & -> & L1). cbn [bind]. apply IH; assumption.
Qed.

Lemma p2_quantile_total (T : trunc_ok) (p : num N) xs : exists v, p2_quantile p xs = Ret v.
Proof.
  unfold p2_quantile, quantile. destruct (Nat.ltb_spec (length xs) 5) as [H|H]; [eauto|].
  destruct (sort5_total (firstn 5 xs)) as (q & -> & Lq). { rewrite firstn_length. lia. }
  cbn [bind].
  destruct (p2_run_ok T (MkP2 q (m_n (init_p2 p)) (m_np (init_p2 p)) (m_dn (init_p2 p))) (skipn 5 xs)) as (s & -> & Ls).
  { repeat split; auto. }
  cbn [bind]. destruct Ls as (Lq' & _). apply rd5; [assumption|lia].
Qed.

End P2Facts.
