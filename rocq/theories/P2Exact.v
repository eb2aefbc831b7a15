(** * P2Exact: p2.c in exact arithmetic is the P2 algorithm (C53) *)
From Coq Require Import ZArith List Bool Lia Reals Lra Permutation Sorted.
From Flocq Require Import Core.Core.
From Verif Require Import Num NumFacts XMath P2 P2Facts RNum P2ExactSpec.
Import ListNotations.
Open Scope R_scope.

(** ** Sorting *)
Lemma insert_perm x l : Permutation (x :: l) (insert x l).
Proof.
  induction l as [|y l IH]; cbn [insert]; [reflexivity|]. destruct (Rle_dec x y); [reflexivity|].
  etransitivity; [apply perm_swap|]. apply perm_skip. exact IH.
Qed.
Lemma insert_sorted x l : StronglySorted Rle l -> StronglySorted Rle (insert x l).
Proof.
  induction 1 as [|y l S IH F]; cbn [insert]; [repeat constructor|]. destruct (Rle_dec x y) as [H|H].
  - constructor; [constructor; assumption|]. constructor; [assumption|]. eapply Forall_impl; [|exact F]. cbn. intros; lra.
  - constructor; [assumption|]. apply (Permutation_Forall (insert_perm x l)). constructor; [lra|assumption].
Qed.
Lemma sorted_perm l : Permutation l (sorted l).
Proof.
  induction l as [|x l IH]; [reflexivity|]. cbn. etransitivity; [apply perm_skip, IH|]. apply insert_perm.
Qed.
Lemma sorted_sorted l : StronglySorted Rle (sorted l).
Proof. induction l as [|x l IH]; [constructor|]. apply insert_sorted, IH. Qed.
Lemma sorted_unique l l' : StronglySorted Rle l -> StronglySorted Rle l' -> Permutation l l' -> l = l'.
Proof.
  intros S. revert l'. induction S as [|x l S IH F]; intros l' S' P.
  - symmetry. apply Permutation_nil, P.
  - destruct S' as [|y l' S' F']; [apply Permutation_sym, Permutation_nil in P; discriminate P|].
    assert (x = y).
    { apply Rle_antisym.
      - assert (In y (x :: l)) as [->|Hy] by (apply (Permutation_in y (Permutation_sym P)); left; reflexivity); [lra|].
        rewrite Forall_forall in F. apply F, Hy.
      - assert (In x (y :: l')) as [->|Hx] by (apply (Permutation_in x P); left; reflexivity); [lra|].
        rewrite Forall_forall in F'. apply F', Hx. }
    subst y. f_equal. apply IH; [exact S'|]. apply (Permutation_cons_inv P).
Qed.

Ltac perm5 :=
  match goal with
  | |- Permutation ?l ?l => apply Permutation_refl
  | |- Permutation (?x :: ?l) ?r =>
     let rec go pre post :=
       match post with
       | x :: ?post' =>
          let e := eval cbn [app] in (pre ++ post') in
          apply perm_trans with (x :: e);
          [apply perm_skip; perm5 | apply (Permutation_middle pre post' x)]
       | ?y :: ?post' =>
          let pre' := eval cbn [app] in (pre ++ [y]) in go pre' post'
       end in
     match type of x with ?T => go (@nil T) r end
  end.

Definition ltx (x y : num RNum) : bool := nlt x y.
Lemma sort5_R (x0 x1 x2 x3 x4 : R) : exists y0 y1 y2 y3 y4,
  sort5 (N := RNum) (map Some [x0; x1; x2; x3; x4]) = Ret (map Some [y0; y1; y2; y3; y4]) /\
  Permutation [x0; x1; x2; x3; x4] [y0; y1; y2; y3; y4] /\ (y0 <= y1 <= y2 /\ y2 <= y3 <= y4).
Proof.
  cbn [map].
  let v := eval cbv -[Rlt_bool] in (sort5 (N := RNum) [Some x0; Some x1; Some x2; Some x3; Some x4]) in
    change (sort5 (N := RNum) [Some x0; Some x1; Some x2; Some x3; Some x4]) with v.
  repeat match goal with |- context [Rlt_bool ?x ?y] => destruct (Rlt_bool_spec x y) end;
  (do 5 eexists; split; [reflexivity|split; [perm5|lra]]).
Qed.
Lemma sort5_sorted l : length l = 5%nat -> sort5 (N := RNum) (map Some l) = Ret (map Some (sorted l)).
Proof.
  intros H. destruct (list5 l H) as (x0 & x1 & x2 & x3 & x4 & ->).
  destruct (sort5_R x0 x1 x2 x3 x4) as (y0 & y1 & y2 & y3 & y4 & E & P & O). rewrite E. do 2 f_equal.
  apply sorted_unique; [|apply sorted_sorted|].
  - repeat first [apply SSorted_cons | apply SSorted_nil | apply Forall_cons | apply Forall_nil]; lra.
  - etransitivity; [apply Permutation_sym, P|]. apply sorted_perm.
Qed.

(** ** Moving one marker *)
Lemma lagrange_eq a b c qa qb qc d : a < b -> b < c ->
  qb + d / (c - a) * ((b - a + d) * (qc - qb) / (c - b) + (c - b - d) * (qb - qa) / (b - a)) = lagrange a qa b qb c qc (b + d).
Proof. intros H1 H2. unfold lagrange. field. repeat split; lra. Qed.
Lemma div_R a b : b <> 0 -> ndiv (n := RNum) (Some a) (Some b) = Some (a / b).
Proof. intros H. cbn. rewrite Req_bool_false by assumption. reflexivity. Qed.
Lemma sub_R a b : nsub (n := RNum) (Some a) (Some b) = Some (a - b). Proof. reflexivity. Qed.
Lemma add_R a b : nadd (n := RNum) (Some a) (Some b) = Some (a + b). Proof. reflexivity. Qed.
Lemma mul_R a b : nmul (n := RNum) (Some a) (Some b) = Some (a * b). Proof. reflexivity. Qed.
Lemma ofZ_R z : nofZ (n := RNum) z = Some (IZR z). Proof. reflexivity. Qed.
Lemma lt_R a b : nlt (n := RNum) (Some a) (Some b) = Rlt_bool a b. Proof. reflexivity. Qed.
Lemma le_R a b : nle (n := RNum) (Some a) (Some b) = Rle_bool a b. Proof. reflexivity. Qed.
Ltac rsimp := repeat (progress rewrite ?ofZ_R, ?sub_R, ?add_R, ?mul_R, ?lt_R, ?le_R).

Section Adjust.
Variables (i : Z) (s : p2st RNum) (qa qb qc a b c np : R).
Hypothesis Qb : rd (m_q s) i = Ret (Some qb).
Hypothesis Qc : rd (m_q s) (u32 (i + 1)) = Ret (Some qc).
Hypothesis Qa : rd (m_q s) (u32 (i - 1)) = Ret (Some qa).
Hypothesis Nb : rd (m_n s) i = Ret (Some b).
Hypothesis Nc : rd (m_n s) (u32 (i + 1)) = Ret (Some c).
Hypothesis Na : rd (m_n s) (u32 (i - 1)) = Ret (Some a).
Hypothesis Np : rd (m_np s) i = Ret (Some np).
Hypothesis Hab : a < b.
Hypothesis Hbc : b < c.

Lemma parabolic_R d : parabolic s i d = Ret (Some (lagrange a qa b qb c qc (b + IZR d))).
Proof.
  unfold parabolic. cbv zeta. rewrite Qb, Qc, Qa, Nb, Nc, Na. cbn [bind]. rsimp.
  rewrite !div_R by lra. rsimp. rewrite lagrange_eq by assumption. reflexivity.
Qed.
Lemma linear_up : linear s i 1 = Ret (Some (chord b qb c qc (b + 1))).
Proof.
  unfold linear. cbv zeta. rewrite Qb, Qc, Nc, Nb. cbn [bind]. rsimp. rewrite !div_R by lra. rsimp.
  unfold chord. do 2 f_equal. field. lra.
Qed.
Lemma linear_down : linear s i (-1) = Ret (Some (chord b qb a qa (b + -1))).
Proof.
  unfold linear. cbv zeta. change (i + -1)%Z with (i - 1)%Z. rewrite Qb, Qa, Na, Nb. cbn [bind]. rsimp. rewrite !div_R by lra. rsimp.
  unfold chord. do 2 f_equal. field. lra.
Qed.

Lemma adjust_R : exists c' : marker, c' = settle np (Mk a qa) (Mk b qb) (Mk c qc) /\
  (wr (m_q s) i (Some qb) = Ret (m_q s) -> wr (m_n s) i (Some b) = Ret (m_n s) ->
   adjust i s = bind (wr (m_q s) i (Some (height c'))) (fun q' => bind (wr (m_n s) i (Some (pos c'))) (fun n' => Ret (MkP2 q' n' (m_np s) (m_dn s))))).
Proof.
  eexists. split; [reflexivity|]. intros W1 W2. unfold adjust. rewrite Np, Nb, Nc, Na. cbn [bind]. rsimp.
  unfold settle. cbn [pos height].
  assert (Keep : Ret s = bind (wr (m_q s) i (Some qb)) (fun q' => bind (wr (m_n s) i (Some b)) (fun n' => Ret (MkP2 q' n' (m_np s) (m_dn s))))).
  { rewrite W1. cbn [bind]. rewrite W2. cbn [bind]. destruct s; reflexivity. }
  destruct (Rle_dec (b + 1) np) as [H1|H1].
  - rewrite (Rle_bool_true 1 (np - b)) by lra. rewrite (Rle_bool_false (np - b) (-1)) by lra. cbn [andb]. rewrite orb_false_r.
    destruct (Rlt_dec (b + 1) c) as [H2|H2].
    + rewrite Rlt_bool_true by lra. unfold sign. rewrite ofZ_R, lt_R, Rlt_bool_true by lra.
      replace (int_of_num (nofZ (n := RNum) 1)) with (Ret 1%Z) by (unfold int_of_num; cbn [ntrunc nofZ RNum]; rewrite Ztrunc_IZR; reflexivity).
      cbn [bind]. rewrite (parabolic_R 1). cbn [bind]. rewrite Qa, Qc. cbn [bind]. rsimp.
      unfold moved. cbn [pos height]. set (h := lagrange _ _ _ _ _ _ _).
      destruct (Rlt_dec qa h) as [H3|H3]; [rewrite (Rlt_bool_true qa h) by assumption|rewrite (Rlt_bool_false qa h) by lra].
      * destruct (Rlt_dec h qc) as [H4|H4]; [rewrite (Rlt_bool_true h qc) by assumption|rewrite (Rlt_bool_false h qc) by lra]; cbn [andb negb].
        -- reflexivity.
        -- rewrite linear_up. destruct (Rlt_dec 0 1); [reflexivity|lra].
      * cbn [andb negb]. rewrite linear_up. destruct (Rlt_dec 0 1); [reflexivity|lra].
    + rewrite Rlt_bool_false by lra. cbn [pos height]. exact Keep.
  - rewrite (Rle_bool_false 1 (np - b)) by lra. cbn [andb orb].
    destruct (Rle_dec np (b - 1)) as [H2|H2].
    + rewrite (Rle_bool_true (np - b) (-1)) by lra. cbn [andb].
      destruct (Rlt_dec a (b - 1)) as [H5|H5].
      * rewrite Rlt_bool_true by lra. unfold sign. rewrite ofZ_R, lt_R, (Rlt_bool_false 0) by lra. rewrite lt_R, Rlt_bool_true by lra.
        replace (int_of_num (nofZ (n := RNum) (-1))) with (Ret (-1)%Z) by (unfold int_of_num; cbn [ntrunc nofZ RNum]; rewrite Ztrunc_IZR; reflexivity).
        cbn [bind]. rewrite (parabolic_R (-1)). cbn [bind]. rewrite Qa, Qc. cbn [bind]. rsimp.
        unfold moved. cbn [pos height]. set (h := lagrange _ _ _ _ _ _ _).
        destruct (Rlt_dec qa h) as [H3|H3]; [rewrite (Rlt_bool_true qa h) by assumption|rewrite (Rlt_bool_false qa h) by lra].
        -- destruct (Rlt_dec h qc) as [H4|H4]; [rewrite (Rlt_bool_true h qc) by assumption|rewrite (Rlt_bool_false h qc) by lra]; cbn [andb negb].
           ++ reflexivity.
           ++ rewrite linear_down. destruct (Rlt_dec 0 (-1)); [lra|reflexivity].
        -- cbn [andb negb]. rewrite linear_down. destruct (Rlt_dec 0 (-1)); [lra|reflexivity].
      * rewrite Rlt_bool_false by lra. exact Keep.
    + rewrite (Rle_bool_false (np - b) (-1)) by lra. cbn [andb]. exact Keep.
Qed.
End Adjust.

(** ** What settling preserves *)
Definition ordered (l r : marker) : Prop := pos l < pos r /\ height l <= height r.
Lemma frac_bound u v : 0 <= u -> 1 <= v -> 0 <= u / v <= u.
Proof.
  intros Hu Hv. assert (0 < / v) by (apply Rinv_0_lt_compat; lra). split.
  - apply Rmult_le_pos; lra.
  - apply Rmult_le_reg_r with v; [lra|]. replace (u / v * v) with u by (field; lra).
    pose proof (Rmult_le_compat_l u 1 v Hu Hv). lra.
Qed.
Lemma settle_ordered np l c r : ordered l c -> ordered c r -> ordered l (settle np l c r) /\ ordered (settle np l c r) r.
Proof.
  intros (P1 & H1) (P2 & H2). unfold settle.
  destruct (Rle_dec (pos c + 1) np) as [D|D].
  - destruct (Rlt_dec (pos c + 1) (pos r)) as [S|S]; [|repeat split; assumption].
    unfold moved. set (h := lagrange _ _ _ _ _ _ _).
    assert (B : height c <= chord (pos c) (height c) (pos r) (height r) (pos c + 1) <= height r).
    { unfold chord. pose proof (frac_bound (height r - height c) (pos r - pos c)).
      replace ((pos c + 1 - pos c) * (height r - height c) / (pos r - pos c)) with ((height r - height c) / (pos r - pos c)) by (field; lra). lra. }
    assert (G : forall v, height l <= v <= height r -> ordered l (Mk (pos c + 1) v) /\ ordered (Mk (pos c + 1) v) r).
    { intros v Hv. unfold ordered. cbn [pos height]. lra. }
    destruct (Rlt_dec 0 1); [|lra].
    destruct (Rlt_dec (height l) h); [destruct (Rlt_dec h (height r))|]; apply G; lra.
  - destruct (Rle_dec np (pos c - 1)) as [E|E]; [|repeat split; assumption].
    destruct (Rlt_dec (pos l) (pos c - 1)) as [S|S]; [|repeat split; assumption].
    unfold moved. set (h := lagrange _ _ _ _ _ _ _).
    assert (B : height l <= chord (pos c) (height c) (pos l) (height l) (pos c + -1) <= height c).
    { unfold chord. pose proof (frac_bound (height c - height l) (pos c - pos l)).
      replace ((pos c + -1 - pos c) * (height l - height c) / (pos l - pos c)) with (- ((height c - height l) / (pos c - pos l))) by (field; lra). lra. }
    assert (G : forall v, height l <= v <= height r -> ordered l (Mk (pos c + -1) v) /\ ordered (Mk (pos c + -1) v) r).
    { intros v Hv. unfold ordered. cbn [pos height]. lra. }
    destruct (Rlt_dec 0 (-1)); [lra|].
    destruct (Rlt_dec (height l) h); [destruct (Rlt_dec h (height r))|]; apply G; lra.
Qed.
Lemma count_ordered x l r : ordered l r -> ordered (count x l) (count x r).
Proof.
  intros (P & H). unfold ordered, count. destruct (Rle_dec x (height l)), (Rle_dec x (height r)); cbn [pos height]; lra.
Qed.

(** ** One observation *)
Definition heights (t : track) : list R := [height (k0 t); height (k1 t); height (k2 t); height (k3 t); height (k4 t)].
Definition positions (t : track) : list R := [pos (k0 t); pos (k1 t); pos (k2 t); pos (k3 t); pos (k4 t)].
Definition desired (p top : R) : list R := [0; p / 2 * top; p * top; (1 + p) / 2 * top; top].
Definition chain (t : track) : Prop := ordered (k0 t) (k1 t) /\ ordered (k1 t) (k2 t) /\ ordered (k2 t) (k3 t) /\ ordered (k3 t) (k4 t).
Definition tracks (p : R) (s : p2st RNum) (t : track) : Prop :=
  m_q s = map Some (heights t) /\ m_n s = map Some (positions t) /\
  m_np s = map Some (desired p (4 + INR (interior t))) /\ m_dn s = map Some [0; p / 2; p; (p + 1) / 2; 1] /\ chain t.

Lemma incr_from_R a b c d e : let l := map Some [a; b; c; d; e] in
  incr_from (N := RNum) l 0 = Ret (map Some [a + 1; b + 1; c + 1; d + 1; e + 1]) /\
  incr_from (N := RNum) l 1 = Ret (map Some [a; b + 1; c + 1; d + 1; e + 1]) /\
  incr_from (N := RNum) l 2 = Ret (map Some [a; b; c + 1; d + 1; e + 1]) /\
  incr_from (N := RNum) l 3 = Ret (map Some [a; b; c; d + 1; e + 1]) /\
  incr_from (N := RNum) l 4 = Ret (map Some [a; b; c; d; e + 1]).
Proof. repeat split. Qed.

Lemma adjust1_R q0 q1 q2 q3 q4 n0 n1 n2 n3 n4 p0 p1 p2 p3 p4 dn : n0 < n1 -> n1 < n2 ->
  adjust (N := RNum) 1 (MkP2 (N := RNum) (map Some [q0; q1; q2; q3; q4]) (map Some [n0; n1; n2; n3; n4]) (map Some [p0; p1; p2; p3; p4]) dn) =
  let c := settle p1 (Mk n0 q0) (Mk n1 q1) (Mk n2 q2) in
  Ret (MkP2 (N := RNum) (map Some [q0; height c; q2; q3; q4]) (map Some [n0; pos c; n2; n3; n4]) (map Some [p0; p1; p2; p3; p4]) dn).
Proof.
  intros H1 H2. set (s := MkP2 _ _ _ _).
  destruct (adjust_R 1 s q0 q1 q2 n0 n1 n2 p1 eq_refl eq_refl eq_refl eq_refl eq_refl eq_refl eq_refl H1 H2) as (c & Ec & E).
  rewrite (E eq_refl eq_refl), <- Ec. reflexivity.
Qed.
Lemma adjust2_R q0 q1 q2 q3 q4 n0 n1 n2 n3 n4 p0 p1 p2 p3 p4 dn : n1 < n2 -> n2 < n3 ->
  adjust (N := RNum) 2 (MkP2 (N := RNum) (map Some [q0; q1; q2; q3; q4]) (map Some [n0; n1; n2; n3; n4]) (map Some [p0; p1; p2; p3; p4]) dn) =
  let c := settle p2 (Mk n1 q1) (Mk n2 q2) (Mk n3 q3) in
  Ret (MkP2 (N := RNum) (map Some [q0; q1; height c; q3; q4]) (map Some [n0; n1; pos c; n3; n4]) (map Some [p0; p1; p2; p3; p4]) dn).
Proof.
  intros H1 H2. set (s := MkP2 _ _ _ _).
  destruct (adjust_R 2 s q1 q2 q3 n1 n2 n3 p2 eq_refl eq_refl eq_refl eq_refl eq_refl eq_refl eq_refl H1 H2) as (c & Ec & E).
  rewrite (E eq_refl eq_refl), <- Ec. reflexivity.
Qed.
Lemma adjust3_R q0 q1 q2 q3 q4 n0 n1 n2 n3 n4 p0 p1 p2 p3 p4 dn : n2 < n3 -> n3 < n4 ->
  adjust (N := RNum) 3 (MkP2 (N := RNum) (map Some [q0; q1; q2; q3; q4]) (map Some [n0; n1; n2; n3; n4]) (map Some [p0; p1; p2; p3; p4]) dn) =
  let c := settle p3 (Mk n2 q2) (Mk n3 q3) (Mk n4 q4) in
  Ret (MkP2 (N := RNum) (map Some [q0; q1; q2; height c; q4]) (map Some [n0; n1; n2; pos c; n4]) (map Some [p0; p1; p2; p3; p4]) dn).
Proof.
  intros H1 H2. set (s := MkP2 _ _ _ _).
  destruct (adjust_R 3 s q2 q3 q4 n2 n3 n4 p3 eq_refl eq_refl eq_refl eq_refl eq_refl eq_refl eq_refl H1 H2) as (c & Ec & E).
  rewrite (E eq_refl eq_refl), <- Ec. reflexivity.
Qed.

(** the cell of x, and the positions counted *)
Lemma find_incr q0 q1 q2 q3 q4 n0 n1 n2 n3 n4 x : q0 <= x <= q4 -> q0 <= q1 <= q2 -> q2 <= q3 <= q4 ->
  bind (find_cell (N := RNum) 6 (map Some [q0; q1; q2; q3; q4]) (Some x) 0) (fun k => incr_from (N := RNum) (map Some [n0; n1; n2; n3; n4]) (u32 (u32 (k - 1) + 1)))
  = Ret (map (fun m => Some (pos (count x m))) [Mk n0 q0; Mk n1 q1; Mk n2 q2; Mk n3 q3; Mk n4 q4]).
Proof.
  intros (A & B) (C & D) (E & F). destruct (incr_from_R n0 n1 n2 n3 n4) as (I0 & I1 & I2 & I3 & I4).
  assert (FC : find_cell (N := RNum) 6 (map Some [q0; q1; q2; q3; q4]) (Some x) 0 =
    if Rlt_bool q0 x then if Rlt_bool q1 x then if Rlt_bool q2 x then if Rlt_bool q3 x then if Rlt_bool q4 x then Undef OutOfBounds else Ret 4%Z else Ret 3%Z else Ret 2%Z else Ret 1%Z else Ret 0%Z) by reflexivity.
  rewrite FC. clear FC. unfold count. cbn [map pos height].
  repeat (case Rlt_bool_spec; intros); cbn [bind]; try lra;
  match goal with |- incr_from _ ?k = _ => let v := eval vm_compute in k in change k with v end;
  rewrite ?I0, ?I1, ?I2, ?I3, ?I4; cbn [map];
  repeat match goal with |- context [Rle_dec ?a ?b] => destruct (Rle_dec a b); try lra end; reflexivity.
Qed.
Lemma incr_np_R a b c d e a' b' c' d' e' : incr_np (N := RNum) (map Some [a; b; c; d; e]) (map Some [a'; b'; c'; d'; e']) = Ret (map Some [a + a'; b + b'; c + c'; d + d'; e + e']).
Proof. reflexivity. Qed.

Lemma observe_R p s t x : tracks p s t -> exists s', p2_observe s (Some x : num RNum) = Ret s' /\ tracks p s' (observe p t x).
Proof.
  intros (Eq & En & Ep & Ed & C01 & C12 & C23 & C34). destruct s as [q n np dn]. cbn [m_q m_n m_np m_dn] in *. subst q n np dn.
  destruct t as [t0 t1 t2 t3 t4 K]. unfold heights, positions in *. cbn [k0 k1 k2 k3 k4 interior] in *.
  unfold p2_observe. cbn [m_q m_n m_np m_dn map].
  change (rd (Some (height t0) :: _) 0) with (Ret (Some (height t0))).
  change (rd [Some (height t0); Some (height t1); Some (height t2); Some (height t3); Some (height t4)] 4) with (Ret (Some (height t4))). cbn [bind].
  unfold observe. cbn [k0 k1 k2 k3 k4 interior].
  change (nlt (n := RNum) (Some x) (Some (height t0))) with (Rlt_bool x (height t0)).
  change (nlt (n := RNum) (Some (height t4)) (Some x)) with (Rlt_bool (height t4) x).
  pose proof C01 as (P01 & H01). pose proof C12 as (P12 & H12). pose proof C23 as (P23 & H23). pose proof C34 as (P34 & H34).
  destruct (Rlt_dec x (height t0)) as [L0|L0]; [rewrite (Rlt_bool_true x (height t0)) by assumption|rewrite (Rlt_bool_false x (height t0)) by lra].
  - eexists. split; [reflexivity|]. split; [reflexivity|]. split; [reflexivity|]. split; [reflexivity|]. split; [reflexivity|].
    repeat split; cbn [k0 k1 k2 k3 k4 pos height]; try assumption; lra.
  - destruct (Rlt_dec (height t4) x) as [L4|L4]; [rewrite (Rlt_bool_true (height t4) x) by assumption|rewrite (Rlt_bool_false (height t4) x) by lra].
    + eexists. split; [reflexivity|]. split; [reflexivity|]. split; [reflexivity|]. split; [reflexivity|]. split; [reflexivity|].
      repeat split; cbn [k0 k1 k2 k3 k4 pos height]; try assumption; lra.
    + pose proof (find_incr (height t0) (height t1) (height t2) (height t3) (height t4) (pos t0) (pos t1) (pos t2) (pos t3) (pos t4) x) as FI.
      specialize (FI ltac:(lra) ltac:(lra) ltac:(lra)).
      assert (MK : forall m, Mk (pos m) (height m) = m) by (intros []; reflexivity). rewrite !MK in FI. cbn [map] in FI.
      destruct (find_cell _ _ _ _) as [k|]; [|discriminate FI]. cbn [bind] in FI |- *. rewrite FI. cbn [bind].
      unfold desired. 
      pose proof (incr_np_R 0 (p / 2 * (4 + INR K)) (p * (4 + INR K)) ((1 + p) / 2 * (4 + INR K)) (4 + INR K) 0 (p / 2) p ((p + 1) / 2) 1) as IN.
      cbn [map] in IN |- *. rewrite IN. cbn [bind]. clear IN FI.
      set (c0 := count x t0). set (c1 := count x t1). set (c2 := count x t2). set (c3 := count x t3). set (c4 := count x t4).
      pose proof (count_ordered x _ _ C01) as O01. pose proof (count_ordered x _ _ C12) as O12.
      pose proof (count_ordered x _ _ C23) as O23. pose proof (count_ordered x _ _ C34) as O34.
      fold c0 in O01. fold c1 in O01, O12. fold c2 in O12, O23. fold c3 in O23, O34. fold c4 in O34.
      assert (Hc : forall m, height (count x m) = height m) by (intros m; unfold count; destruct (Rle_dec _ _); reflexivity).
      rewrite <- (Hc t0), <- (Hc t1), <- (Hc t2), <- (Hc t3), <- (Hc t4). fold c0 c1 c2 c3 c4.
      rewrite S_INR.
      set (top := 4 + INR K).
      replace (0 + 0) with 0 by ring. replace (p / 2 * top + p / 2) with (p / 2 * (4 + (INR K + 1))) by (unfold top; field).
      replace (p * top + p) with (p * (4 + (INR K + 1))) by (unfold top; field).
      replace ((1 + p) / 2 * top + (p + 1) / 2) with ((1 + p) / 2 * (4 + (INR K + 1))) by (unfold top; field).
      replace (top + 1) with (4 + (INR K + 1)) by (unfold top; ring). clear top. set (top := 4 + (INR K + 1)).
      set (d1 := settle (p / 2 * top) c0 c1 c2). destruct (settle_ordered (p / 2 * top) c0 c1 c2 O01 O12) as (A1 & A2). fold d1 in A1, A2.
      set (d2 := settle (p * top) d1 c2 c3). destruct (settle_ordered (p * top) d1 c2 c3 A2 O23) as (B1 & B2). fold d2 in B1, B2.
      set (d3 := settle ((1 + p) / 2 * top) d2 c3 c4). destruct (settle_ordered ((1 + p) / 2 * top) d2 c3 c4 B2 O34) as (D1 & D2). fold d3 in D1, D2.
      pose proof (adjust1_R (height c0) (height c1) (height c2) (height c3) (height c4) (pos c0) (pos c1) (pos c2) (pos c3) (pos c4)
         0 (p / 2 * top) (p * top) ((1 + p) / 2 * top) top (map Some [0; p / 2; p; (p + 1) / 2; 1]) ltac:(apply O01) ltac:(apply O12)) as X1.
      rewrite !MK in X1. fold d1 in X1. cbn [map] in X1. cbv zeta in X1. rewrite X1. clear X1. cbn [bind].
      pose proof (adjust2_R (height c0) (height d1) (height c2) (height c3) (height c4) (pos c0) (pos d1) (pos c2) (pos c3) (pos c4)
         0 (p / 2 * top) (p * top) ((1 + p) / 2 * top) top (map Some [0; p / 2; p; (p + 1) / 2; 1]) ltac:(apply A2) ltac:(apply O23)) as X2.
      rewrite !MK in X2. fold d2 in X2. cbn [map] in X2. cbv zeta in X2. rewrite X2. clear X2. cbn [bind].
      pose proof (adjust3_R (height c0) (height d1) (height d2) (height c3) (height c4) (pos c0) (pos d1) (pos d2) (pos c3) (pos c4)
         0 (p / 2 * top) (p * top) ((1 + p) / 2 * top) top (map Some [0; p / 2; p; (p + 1) / 2; 1]) ltac:(apply B2) ltac:(apply O34)) as X3.
      rewrite !MK in X3. fold d3 in X3. cbn [map] in X3. cbv zeta in X3. rewrite X3. clear X3.
      eexists. split; [reflexivity|]. split; [reflexivity|]. split; [reflexivity|].
      split. { cbn [m_np interior]. rewrite S_INR. reflexivity. } split; [reflexivity|].
      split; [exact A1|]. split; [exact B1|]. split; [exact D1|exact D2].
Qed.

Lemma run_R p s t xs : tracks p s t -> exists s', p2_run s (map Some xs : list (num RNum)) = Ret s' /\ tracks p s' (fold_left (observe p) xs t).
Proof.
  revert s t. induction xs as [|x xs IH]; intros s t T; cbn [map p2_run fold_left]; [eauto|].
  destruct (observe_R p s t x T) as (s1 & E & T1). rewrite E. cbn [bind]. apply IH, T1.
Qed.

Lemma start_R p a b c d e : a <= b <= c -> c <= d <= e ->
  tracks p (MkP2 (N := RNum) (map Some [a; b; c; d; e]) (m_n (init_p2 (N := RNum) (Some p))) (m_np (init_p2 (N := RNum) (Some p))) (m_dn (init_p2 (N := RNum) (Some p))))
    (Track (Mk 0 a) (Mk 1 b) (Mk 2 c) (Mk 3 d) (Mk 4 e) 0).
Proof.
  intros H1 H2. unfold tracks, chain, ordered. cbn [m_q m_n m_np m_dn init_p2 k0 k1 k2 k3 k4 pos height interior INR].
  split; [reflexivity|]. split; [reflexivity|]. split.
  { unfold desired. replace (p / 2 * (4 + 0)) with (2 * p) by field. replace (p * (4 + 0)) with (4 * p) by field.
    replace ((1 + p) / 2 * (4 + 0)) with (2 + 2 * p) by field. replace (4 + 0) with 4 by ring. reflexivity. }
  split. { rsimp. rewrite !div_R by lra. reflexivity. }
  repeat split; lra.
Qed.

Lemma C53_lemma (p : R) (xs : list R) : (5 <= length xs)%nat ->
  exists t, p2_final p xs = Some t /\ p2_quantile (N := RNum) (Some p) (map Some xs) = Ret (Some (height (k2 t))).
Proof.
  intros H. unfold p2_final, p2_quantile, quantile. rewrite map_length.
  replace (length xs <? 5)%nat with false by (symmetry; apply Nat.ltb_ge; exact H).
  assert (H5 : length (firstn 5 xs) = 5%nat) by (rewrite firstn_length; lia).
  rewrite firstn_map, skipn_map. rewrite (sort5_sorted _ H5). cbn [bind].
  pose proof (sorted_sorted (firstn 5 xs)) as S. pose proof (Permutation_length (sorted_perm (firstn 5 xs))) as L. rewrite H5 in L. symmetry in L.
  destruct (list5 _ L) as (a & b & c & d & e & E). rewrite E in *.
  eexists. split; [reflexivity|].
  assert (O : a <= b <= c /\ c <= d <= e).
  { inversion S as [|? ? S1 F1]; subst. inversion S1 as [|? ? S2 F2]; subst. inversion S2 as [|? ? S3 F3]; subst. inversion S3 as [|? ? S4 F4]; subst.
    inversion F1; inversion F2; inversion F3; inversion F4; subst. lra. }
  destruct (run_R p _ _ (skipn 5 xs) (start_R p a b c d e (proj1 O) (proj2 O))) as (s' & R & T).
  etransitivity; [exact (f_equal (fun r => bind r (fun s => rd (m_q s) 2)) R)|]. cbn [bind]. destruct T as (-> & _). reflexivity.
Qed.

Lemma lagrange_unique a b c x0 x1 x2 t : x0 <> x1 -> x0 <> x2 -> x1 <> x2 ->
  let f x := a * (x * x) + b * x + c in lagrange x0 (f x0) x1 (f x1) x2 (f x2) t = f t.
Proof. intros H1 H2 H3 f. unfold lagrange, f. field. repeat split; lra. Qed.

(** ** Change of unit *)
Section Affine.
Variables (al be : R).
Hypothesis Hal : 0 < al.
Definition unit_change (x : R) : R := al * x + be.
Definition remark (m : marker) : marker := Mk (pos m) (unit_change (height m)).
Definition retrack (t : track) : track := Track (remark (k0 t)) (remark (k1 t)) (remark (k2 t)) (remark (k3 t)) (remark (k4 t)) (interior t).
Lemma unit_lt x y : unit_change x < unit_change y <-> x < y.
Proof. unfold unit_change. split; intros H; [apply Rmult_lt_reg_l with al; lra|pose proof (Rmult_lt_compat_l al x y); lra]. Qed.
Lemma unit_le x y : unit_change x <= unit_change y <-> x <= y.
Proof. unfold unit_change. split; intros H; [apply Rmult_le_reg_l with al; lra|pose proof (Rmult_le_compat_l al x y); lra]. Qed.
Lemma lagrange_unit x0 y0 x1 y1 x2 y2 t : x0 < x1 -> x1 < x2 ->
  lagrange x0 (unit_change y0) x1 (unit_change y1) x2 (unit_change y2) t = unit_change (lagrange x0 y0 x1 y1 x2 y2 t).
Proof. intros. unfold lagrange, unit_change. field. repeat split; lra. Qed.
Lemma chord_unit x0 y0 x1 y1 t : x0 <> x1 -> chord x0 (unit_change y0) x1 (unit_change y1) t = unit_change (chord x0 y0 x1 y1 t).
Proof. intros. unfold chord, unit_change. field. lra. Qed.
Lemma moved_unit l c r d : pos l < pos c -> pos c < pos r -> moved (remark l) (remark c) (remark r) d = remark (moved l c r d).
Proof.
  intros H1 H2. unfold moved, remark. cbn [pos height]. rewrite lagrange_unit by assumption. set (h := lagrange _ _ _ _ _ _ _).
  assert (N : Mk (pos c + d) (chord (pos c) (unit_change (height c)) (pos (if Rlt_dec 0 d then Mk (pos r) (unit_change (height r)) else Mk (pos l) (unit_change (height l))))
     (height (if Rlt_dec 0 d then Mk (pos r) (unit_change (height r)) else Mk (pos l) (unit_change (height l)))) (pos c + d)) =
   Mk (pos c + d) (unit_change (chord (pos c) (height c) (pos (if Rlt_dec 0 d then r else l)) (height (if Rlt_dec 0 d then r else l)) (pos c + d)))).
  { destruct (Rlt_dec 0 d); cbn [pos height]; rewrite chord_unit by lra; reflexivity. }
  destruct (Rlt_dec (unit_change (height l)) (unit_change h)) as [A|A]; rewrite unit_lt in A;
  destruct (Rlt_dec (height l) h) as [A'|A']; try contradiction; [|exact N].
  destruct (Rlt_dec (unit_change h) (unit_change (height r))) as [B|B]; rewrite unit_lt in B;
  destruct (Rlt_dec h (height r)) as [B'|B']; try contradiction; [reflexivity|exact N].
Qed.
Lemma settle_unit np l c r : pos l < pos c -> pos c < pos r -> settle np (remark l) (remark c) (remark r) = remark (settle np l c r).
Proof.
  intros H1 H2. unfold settle. cbn [pos remark]. rewrite !moved_unit by assumption.
  repeat match goal with |- context [if ?b then _ else _] => destruct b end; reflexivity.
Qed.
Lemma count_unit x m : count (unit_change x) (remark m) = remark (count x m).
Proof.
  unfold count. cbn [height remark]. destruct (Rle_dec (unit_change x) (unit_change (height m))) as [A|A]; rewrite unit_le in A;
  destruct (Rle_dec x (height m)); try contradiction; reflexivity.
Qed.
Lemma observe_chain p t x : chain t -> chain (observe p t x).
Proof.
  intros (C01 & C12 & C23 & C34). unfold observe. destruct t as [t0 t1 t2 t3 t4 K]. cbn [k0 k1 k2 k3 k4 interior] in *.
  destruct (Rlt_dec x (height t0)); [|destruct (Rlt_dec (height t4) x)].
  - unfold chain, ordered in *. cbn [k0 k1 k2 k3 k4 pos height]. repeat split; try apply C01; try apply C12; try apply C23; try apply C34. destruct C01; lra.
  - unfold chain, ordered in *. cbn [k0 k1 k2 k3 k4 pos height]. repeat split; try apply C01; try apply C12; try apply C23; try apply C34. destruct C34; lra.
  - apply (count_ordered x) in C01, C12, C23, C34. set (top := 4 + INR (S K)). cbv zeta.
    destruct (settle_ordered (p / 2 * top) _ _ _ C01 C12) as (A1 & A2).
    destruct (settle_ordered (p * top) _ _ _ A2 C23) as (B1 & B2).
    destruct (settle_ordered ((1 + p) / 2 * top) _ _ _ B2 C34) as (D1 & D2).
    split; [exact A1|]. split; [exact B1|]. split; [exact D1|exact D2].
Qed.
Lemma observe_unit p t x : chain t -> observe p (retrack t) (unit_change x) = retrack (observe p t x).
Proof.
  intros (C01 & C12 & C23 & C34). unfold observe. destruct t as [t0 t1 t2 t3 t4 K]. cbn [k0 k1 k2 k3 k4 interior retrack remark height] in *.
  destruct (Rlt_dec (unit_change x) (unit_change (height t0))) as [A|A]; rewrite unit_lt in A;
  destruct (Rlt_dec x (height t0)); try contradiction; [reflexivity|].
  destruct (Rlt_dec (unit_change (height t4)) (unit_change x)) as [B|B]; rewrite unit_lt in B;
  destruct (Rlt_dec (height t4) x); try contradiction; [reflexivity|].
  apply (count_ordered x) in C01, C12, C23, C34. set (top := 4 + INR (S K)). cbv zeta.
  destruct (settle_ordered (p / 2 * top) _ _ _ C01 C12) as (A1 & A2).
  destruct (settle_ordered (p * top) _ _ _ A2 C23) as (B1 & B2).
  fold (remark t0) (remark t1) (remark t2) (remark t3) (remark t4). rewrite !count_unit.
  rewrite (settle_unit (p / 2 * top)) by (apply C01 || apply C12).
  rewrite (settle_unit (p * top)) by (apply A2 || apply C23).
  rewrite (settle_unit ((1 + p) / 2 * top)) by (apply B2 || apply C34). reflexivity.
Qed.
Lemma run_unit p xs t : chain t -> fold_left (observe p) (map unit_change xs) (retrack t) = retrack (fold_left (observe p) xs t).
Proof.
  revert t. induction xs as [|x xs IH]; intros t C; [reflexivity|]. cbn [map fold_left].
  rewrite observe_unit by assumption. apply IH, observe_chain, C.
Qed.
Lemma insert_unit x l : insert (unit_change x) (map unit_change l) = map unit_change (insert x l).
Proof.
  induction l as [|y l IH]; [reflexivity|]. cbn [map insert].
  destruct (Rle_dec (unit_change x) (unit_change y)) as [A|A]; rewrite unit_le in A; destruct (Rle_dec x y); try contradiction; [reflexivity|].
  cbn [map]. rewrite IH. reflexivity.
Qed.
Lemma sorted_unit l : sorted (map unit_change l) = map unit_change (sorted l).
Proof. induction l as [|x l IH]; [reflexivity|]. cbn [map sorted fold_right]. fold (sorted (map unit_change l)). rewrite IH. apply insert_unit. Qed.
Lemma final_unit p xs t : p2_final p xs = Some t -> p2_final p (map unit_change xs) = Some (retrack t).
Proof.
  unfold p2_final. rewrite firstn_map, skipn_map, sorted_unit. pose proof (sorted_sorted (firstn 5 xs)) as S.
  destruct (sorted (firstn 5 xs)) as [|a [|b [|c [|d [|e [|f l]]]]]]; try discriminate. cbn [map]. intros H. injection H as <-. f_equal.
  rewrite <- run_unit; [reflexivity|].
  inversion S as [|? ? S1 F1]; subst. inversion S1 as [|? ? S2 F2]; subst. inversion S2 as [|? ? S3 F3]; subst. inversion S3 as [|? ? S4 F4]; subst.
  inversion F1; inversion F2; inversion F3; inversion F4; subst. unfold chain, ordered. cbn. repeat split; lra.
Qed.
End Affine.

Lemma C53_unit_lemma (p al be : R) (xs : list R) v : 0 < al ->
  p2_quantile (N := RNum) (Some p) (map Some xs) = Ret (Some v) -> (5 <= length xs)%nat ->
  p2_quantile (N := RNum) (Some p) (map Some (map (fun x => al * x + be) xs)) = Ret (Some (al * v + be)).
Proof.
  intros Ha E H. destruct (C53_lemma p xs H) as (t & F & Q). rewrite Q in E. injection E as <-.
  destruct (C53_lemma p (map (fun x => al * x + be) xs)) as (t' & F' & Q'). { rewrite map_length. exact H. }
  rewrite Q'. pose proof (final_unit al be Ha p xs t F) as G. unfold unit_change in G. rewrite F' in G. injection G as ->. reflexivity.
Qed.

(** ** Example *)
Lemma p2_example : p2_final (1 / 4) [5; 1; 4; 2; 3; 3 / 2] = Some (Track (Mk 0 1) (Mk 1 (4 / 3)) (Mk 2 (19 / 9)) (Mk 4 4) (Mk 5 5) 1).
Proof.
  assert (S : sorted [5; 1; 4; 2; 3] = [1; 2; 3; 4; 5]).
  { unfold sorted. cbn [fold_right insert]. repeat match goal with |- context [Rle_dec ?a ?b] => destruct (Rle_dec a b); [|lra] || (destruct (Rle_dec a b); [lra|]); cbn [insert] end. reflexivity. }
  unfold p2_final. cbn [firstn skipn]. rewrite S. cbn [fold_left]. f_equal.
  unfold observe. cbn [k0 k1 k2 k3 k4 interior height pos INR].
  destruct (Rlt_dec (3 / 2) 1); [lra|]. destruct (Rlt_dec 5 (3 / 2)); [lra|]. cbv zeta. unfold count. cbn [height pos].
  repeat match goal with |- context [Rle_dec (3 / 2) ?b] => destruct (Rle_dec (3 / 2) b); try lra end.
  assert (D1 : settle (1 / 4 / 2 * (4 + 1)) (Mk 0 1) (Mk (1 + 1) 2) (Mk (2 + 1) 3) = Mk 1 (4 / 3)).
  { unfold settle. cbn [pos]. destruct (Rle_dec (1 + 1 + 1) _); [lra|]. destruct (Rle_dec _ (1 + 1 - 1)); [|lra]. destruct (Rlt_dec 0 _); [|lra].
    unfold moved. cbn [pos height]. assert (L : lagrange 0 1 (1 + 1) 2 (2 + 1) 3 (1 + 1 + -1) = 4 / 3) by (unfold lagrange; field). rewrite L.
    destruct (Rlt_dec 1 (4 / 3)); [|lra]. destruct (Rlt_dec (4 / 3) 3); [|lra]. f_equal. ring. }
  rewrite D1.
  assert (D2 : settle (1 / 4 * (4 + 1)) (Mk 1 (4 / 3)) (Mk (2 + 1) 3) (Mk (3 + 1) 4) = Mk 2 (19 / 9)).
  { unfold settle. cbn [pos]. destruct (Rle_dec (2 + 1 + 1) _); [lra|]. destruct (Rle_dec _ (2 + 1 - 1)); [|lra]. destruct (Rlt_dec 1 _); [|lra].
    unfold moved. cbn [pos height]. assert (L : lagrange 1 (4 / 3) (2 + 1) 3 (3 + 1) 4 (2 + 1 + -1) = 19 / 9) by (unfold lagrange; field). rewrite L.
    destruct (Rlt_dec (4 / 3) (19 / 9)); [|lra]. destruct (Rlt_dec (19 / 9) 4); [|lra]. f_equal. ring. }
  rewrite D2.
  assert (D3 : settle ((1 + 1 / 4) / 2 * (4 + 1)) (Mk 2 (19 / 9)) (Mk (3 + 1) 4) (Mk (4 + 1) 5) = Mk 4 4).
  { unfold settle. cbn [pos]. destruct (Rle_dec (3 + 1 + 1) _); [lra|]. destruct (Rle_dec _ (3 + 1 - 1)); [lra|]. f_equal. ring. }
  rewrite D3. f_equal. f_equal. ring.
Qed.
