(** * LogMono: the rounded logarithm of the library is monotone on each binade, and on [2^-48,32) (C83) *)
From Coq Require Import ZArith List Bool Reals Lra Lia Psatz.
From Flocq Require Import Core.Core IEEE754.BinarySingleNaN.
From Verif Require Import Num XMath B64 RNum B64Facts FloatErr FloatUtilsLemmas LogExact LogAcc CastLemmas ExpAcc.
From Coquelicot Require Rcomplements.
Import ListNotations.
Open Scope R_scope.

(** ** Rounded operations on ordered pairs between two bounds *)
Definition M (lo hi a b : b64) : Prop :=
  finite64 lo = true /\ finite64 hi = true /\ finite64 a = true /\ finite64 b = true /\ B2R64 lo <= B2R64 a /\ B2R64 a <= B2R64 b /\ B2R64 b <= B2R64 hi.

Lemma M_intro lo hi a b rl ra rb rh : finite64 lo = true -> finite64 hi = true -> nan64 a = false -> nan64 b = false ->
  xval lo = rndc rl -> xval hi = rndc rh -> xval a = rndc ra -> xval b = rndc rb -> rl <= ra -> ra <= rb -> rb <= rh -> M lo hi a b.
Proof.
  intros Fl Fh Na Nb El Eh Ea Eb H1 H2 H3. apply rndc_mono in H1, H2, H3. rewrite <- El, <- Ea in H1. rewrite <- Ea, <- Eb in H2. rewrite <- Eb, <- Eh in H3.
  rewrite xval_finite in H1 by exact Fl. rewrite (xval_finite hi) in H3 by exact Fh. pose proof (B2R_bounds lo). pose proof (B2R_bounds hi).
  assert (Fa : finite64 a = true) by (apply xval_finite_iff; [exact Na|lra]). assert (Fb : finite64 b = true) by (apply xval_finite_iff; [exact Nb|lra]).
  rewrite xval_finite in H1 by assumption. rewrite !xval_finite in H2 by assumption. rewrite xval_finite in H3 by assumption. repeat split; assumption.
Qed.
Lemma M_plus {l h a b l' h' a' b'} : M l h a b -> M l' h' a' b' -> finite64 (b64_plus l l') = true -> finite64 (b64_plus h h') = true ->
  M (b64_plus l l') (b64_plus h h') (b64_plus a a') (b64_plus b b').
Proof.
  intros (F1 & F2 & F3 & F4 & L1 & L2 & L3) (F1' & F2' & F3' & F4' & L1' & L2' & L3') K1 K2.
  destruct (plus_xval l l' F1 F1') as (N1 & V1). destruct (plus_xval h h' F2 F2') as (N2 & V2). destruct (plus_xval a a' F3 F3') as (N3 & V3). destruct (plus_xval b b' F4 F4') as (N4 & V4).
  eapply M_intro; try eassumption; lra.
Qed.
Lemma M_const c : finite64 c = true -> M c c c c.
Proof. intros F. repeat split; try assumption; lra. Qed.
Lemma M_plusc c {l h a b} : finite64 c = true -> M l h a b -> finite64 (b64_plus l c) = true -> finite64 (b64_plus h c) = true -> M (b64_plus l c) (b64_plus h c) (b64_plus a c) (b64_plus b c).
Proof. intros F H K1 K2. apply M_plus; try assumption. apply M_const, F. Qed.
Lemma M_minusc c {l h a b} : finite64 c = true -> M l h a b -> finite64 (b64_minus l c) = true -> finite64 (b64_minus h c) = true -> M (b64_minus l c) (b64_minus h c) (b64_minus a c) (b64_minus b c).
Proof.
  intros Fc (F1 & F2 & F3 & F4 & L1 & L2 & L3) K1 K2.
  destruct (minus_xval l c F1 Fc) as (N1 & V1). destruct (minus_xval h c F2 Fc) as (N2 & V2). destruct (minus_xval a c F3 Fc) as (N3 & V3). destruct (minus_xval b c F4 Fc) as (N4 & V4).
  eapply M_intro; try eassumption; lra.
Qed.
Lemma M_minus1 {l h a b} : M l h a b -> finite64 (b64_minus l (b64_ofZ 1)) = true -> finite64 (b64_minus h (b64_ofZ 1)) = true ->
  M (b64_minus l (b64_ofZ 1)) (b64_minus h (b64_ofZ 1)) (b64_minus a (b64_ofZ 1)) (b64_minus b (b64_ofZ 1)).
Proof. apply M_minusc. reflexivity. Qed.
Lemma leb0 x : finite64 x = true -> b64_leb x (b64_ofZ 0) = true -> B2R64 x <= 0.
Proof. intros F. rewrite leb_xval by (apply finite_not_nan; assumption || reflexivity). rewrite xval_zero, xval_finite by exact F. case Rle_bool_spec; [auto|discriminate]. Qed.
Lemma ltb0 x : finite64 x = true -> b64_ltb (b64_ofZ 0) x = true -> 0 < B2R64 x.
Proof. intros F. rewrite ltb_xval by (apply finite_not_nan; assumption || reflexivity). rewrite xval_zero, xval_finite by exact F. case Rlt_bool_spec; [auto|discriminate]. Qed.
(** squares of negative numbers: the order is reversed *)
Lemma M_sq {l h a b} : M l h a b -> b64_leb h (b64_ofZ 0) = true -> finite64 (b64_mult l l) = true -> finite64 (b64_mult h h) = true ->
  M (b64_mult h h) (b64_mult l l) (b64_mult b b) (b64_mult a a).
Proof.
  intros (F1 & F2 & F3 & F4 & L1 & L2 & L3) K K1 K2. apply leb0 in K; [|exact F2].
  destruct (mult_xval l l F1 F1) as (N1 & V1). destruct (mult_xval h h F2 F2) as (N2 & V2). destruct (mult_xval a a F3 F3) as (N3 & V3). destruct (mult_xval b b F4 F4) as (N4 & V4).
  eapply M_intro; try eassumption; nra.
Qed.
Lemma M_negscale c {l h a b} : finite64 c = true -> B2R64 c <= 0 -> M l h a b -> finite64 (b64_mult c l) = true -> finite64 (b64_mult c h) = true ->
  M (b64_mult c h) (b64_mult c l) (b64_mult c b) (b64_mult c a).
Proof.
  intros Fc Hc (F1 & F2 & F3 & F4 & L1 & L2 & L3) K1 K2.
  destruct (mult_xval c l Fc F1) as (N1 & V1). destruct (mult_xval c h Fc F2) as (N2 & V2). destruct (mult_xval c a Fc F3) as (N3 & V3). destruct (mult_xval c b Fc F4) as (N4 & V4).
  eapply M_intro; try eassumption; nra.
Qed.
Lemma M_posscale c {l h a b} : finite64 c = true -> 0 <= B2R64 c -> M l h a b -> finite64 (b64_mult c l) = true -> finite64 (b64_mult c h) = true ->
  M (b64_mult c l) (b64_mult c h) (b64_mult c a) (b64_mult c b).
Proof.
  intros Fc Hc (F1 & F2 & F3 & F4 & L1 & L2 & L3) K1 K2.
  destruct (mult_xval c l Fc F1) as (N1 & V1). destruct (mult_xval c h Fc F2) as (N2 & V2). destruct (mult_xval c a Fc F3) as (N3 & V3). destruct (mult_xval c b Fc F4) as (N4 & V4).
  eapply M_intro; try eassumption; nra.
Qed.
Lemma M_opp {l h a b} : M l h a b -> M (b64_opp h) (b64_opp l) (b64_opp b) (b64_opp a).
Proof. intros (F1 & F2 & F3 & F4 & L1 & L2 & L3). unfold M. rewrite !finite_opp. unfold b64_opp. rewrite !B2R_Bopp. repeat split; try assumption; lra. Qed.
Lemma div_grows p q r s : p <= q -> q <= 0 -> 0 < r -> r <= s -> p / r <= q / s.
Proof.
  intros H1 H2 H3 H4. apply Rle_trans with (q / r); [apply Rmult_le_compat_r; [left; apply Rinv_0_lt_compat; exact H3|exact H1]|].
  assert (/ s <= / r) by (apply Rinv_le_contravar; assumption). unfold Rdiv. nra.
Qed.
(** a nonpositive growing numerator over a positive growing denominator *)
Lemma M_div {l h a b l' h' a' b'} : M l h a b -> M l' h' a' b' -> b64_leb h (b64_ofZ 0) = true -> b64_ltb (b64_ofZ 0) l' = true ->
  finite64 (b64_div l l') = true -> finite64 (b64_div h h') = true -> M (b64_div l l') (b64_div h h') (b64_div a a') (b64_div b b').
Proof.
  intros (F1 & F2 & F3 & F4 & L1 & L2 & L3) (F1' & F2' & F3' & F4' & L1' & L2' & L3') S1 S2 K1 K2. apply leb0 in S1; [|exact F2]. apply ltb0 in S2; [|exact F1'].
  destruct (div_xval l l' F1 F1' ltac:(lra)) as (N1 & V1). destruct (div_xval h h' F2 F2' ltac:(lra)) as (N2 & V2).
  destruct (div_xval a a' F3 F3' ltac:(lra)) as (N3 & V3). destruct (div_xval b b' F4 F4' ltac:(lra)) as (N4 & V4).
  eapply M_intro; try eassumption; apply div_grows; lra.
Qed.
Lemma M_ofZ_neg c : (Z.pos c <= 100)%Z -> B2R64 (b64_ofZ (- Z.pos c)) <= 0.
Proof. intros H. destruct (ofZ_exact (- Z.pos c) ltac:(lia)) as (_ & E). rewrite E. apply IZR_le. lia. Qed.
Lemma M_two : 0 <= B2R64 (b64_ofZ 2).
Proof. destruct (ofZ_exact 2 ltac:(lia)) as (_ & E). rewrite E. lra. Qed.

(** ** The continued fraction *)

(** Straight-line programs over a growing list of values, and a check that such a program is monotone between two inputs. *)
Inductive ins : Type :=
| IPlus (i j : nat) | IPlusC (c : b64) (i : nat) | IMinusC (c : b64) (i : nat) | ISq (i : nat) | INeg (c : b64) (i : nat) | IPos (c : b64) (i : nat) | IOpp (i : nat) | IDiv (i j : nat).
Definition at_ (v : list b64) (i : nat) : b64 := nth i v (B754_nan).
Definition eval1 (v : list b64) (p : ins) : b64 :=
  match p with
  | IPlus i j => b64_plus (at_ v i) (at_ v j) | IPlusC c i => b64_plus (at_ v i) c | IMinusC c i => b64_minus (at_ v i) c
  | ISq i => b64_mult (at_ v i) (at_ v i) | INeg c i | IPos c i => b64_mult c (at_ v i) | IOpp i => b64_opp (at_ v i) | IDiv i j => b64_div (at_ v i) (at_ v j)
  end.
Fixpoint eval (v : list b64) (ps : list ins) : list b64 := match ps with [] => v | p :: ps => eval (v ++ [eval1 v p]) ps end.
(** direction of each value: true when it grows with the input, false when it decreases *)
Definition dir_of (ds : list bool) (p : ins) : bool :=
  match p with
  | IPlus i _ | IPlusC _ i | IMinusC _ i | IPos _ i | IDiv i _ => nth i ds true
  | ISq i | INeg _ i | IOpp i => negb (nth i ds true)
  end.
Definition ok1 (ds : list bool) (l h : list b64) (p : ins) : bool :=
  let f := fun i => Nat.ltb i (length ds) in
  match p with
  | IPlus i j => f i && f j && Bool.eqb (nth i ds true) (nth j ds true)
  | IPlusC c i | IMinusC c i => f i && finite64 c
  | ISq i => f i && nth i ds true && b64_leb (at_ h i) (b64_ofZ 0)
  | INeg c i => f i && finite64 c && b64_leb c (b64_ofZ 0)
  | IPos c i => f i && finite64 c && b64_leb (b64_ofZ 0) c
  | IOpp i => f i
  | IDiv i j => f i && f j && nth i ds true && nth j ds true && b64_leb (at_ h i) (b64_ofZ 0) && b64_ltb (b64_ofZ 0) (at_ l j)
  end.
Fixpoint check (ds : list bool) (l h : list b64) (ps : list ins) : bool :=
  match ps with
  | [] => true
  | p :: ps => let a := eval1 l p in let b := eval1 h p in
      if ok1 ds l h p && finite64 a && finite64 b then check (ds ++ [dir_of ds p]) (l ++ [a]) (h ++ [b]) ps else false
  end.
Fixpoint dirs (ds : list bool) (ps : list ins) : list bool := match ps with [] => ds | p :: ps => dirs (ds ++ [dir_of ds p]) ps end.
Definition D (d : bool) (l h a b : b64) : Prop := if d then M l h a b else M h l b a.
Definition inv (ds : list bool) (l h a b : list b64) : Prop :=
  length l = length ds /\ length h = length ds /\ length a = length ds /\ length b = length ds /\
  forall i, (i < length ds)%nat -> D (nth i ds true) (at_ l i) (at_ h i) (at_ a i) (at_ b i).
Lemma at_snoc v x i : at_ (v ++ [x]) i = if Nat.ltb i (length v) then at_ v i else if Nat.eqb i (length v) then x else at_ [] 0.
Proof.
  unfold at_. destruct (Nat.ltb_spec i (length v)); [apply app_nth1; assumption|]. rewrite app_nth2 by lia.
  destruct (Nat.eqb_spec i (length v)) as [->|H1]; [rewrite Nat.sub_diag; reflexivity|]. destruct (i - length v)%nat as [|k] eqn:K; [lia|]. destruct k; reflexivity.
Qed.
Lemma step_ok ds l h a b p : inv ds l h a b -> ok1 ds l h p = true -> finite64 (eval1 l p) = true -> finite64 (eval1 h p) = true ->
  D (dir_of ds p) (eval1 l p) (eval1 h p) (eval1 a p) (eval1 b p).
Proof.
  intros (_ & _ & _ & _ & I) O Fl Fh. unfold ok1 in O. cbv zeta in O.
  destruct p as [i j|c i|c i|i|c i|c i|i|i j]; repeat (apply andb_prop in O; destruct O as (O & ?)); cbn [eval1 dir_of] in *;
    repeat match goal with H : (_ <? length ds)%nat = true |- _ => apply Nat.ltb_lt, I in H end;
    repeat match goal with H : nth _ ds true = true |- _ => rewrite H in * end.
  - match goal with H : Bool.eqb _ _ = true |- _ => apply Bool.eqb_prop in H; rewrite <- H in * end.
    destruct (nth i ds true); cbn [D] in *; apply M_plus; assumption.
  - destruct (nth i ds true); cbn [D] in *; apply M_plusc; assumption.
  - destruct (nth i ds true); cbn [D] in *; apply M_minusc; assumption.
  - cbn [D negb] in *. apply M_sq; assumption.
  - assert (B2R64 c <= 0) by (apply leb0; assumption). destruct (nth i ds true); cbn [D negb] in *; apply M_negscale; assumption.
  - assert (0 <= B2R64 c).
    { match goal with H : b64_leb _ c = true |- _ => rewrite leb_xval, xval_zero, xval_finite in H by (try apply finite_not_nan; assumption || reflexivity); revert H end. case Rle_bool_spec; [auto|discriminate]. }
    destruct (nth i ds true); cbn [D negb] in *; apply M_posscale; assumption.
  - destruct (nth i ds true); cbn [D negb] in *; apply M_opp; assumption.
  - cbn [D] in *. apply M_div; assumption.
Qed.
Lemma inv_snoc ds l h a b d x y u v : inv ds l h a b -> D d x y u v -> inv (ds ++ [d]) (l ++ [x]) (h ++ [y]) (a ++ [u]) (b ++ [v]).
Proof.
  intros (L1 & L2 & L3 & L4 & I) X. unfold inv. rewrite !app_length, L1, L2, L3, L4. repeat split; try reflexivity.
  intros i Hi. cbn [length] in Hi. rewrite !at_snoc, L1, L2, L3, L4. destruct (Nat.ltb_spec i (length ds)) as [H|H].
  - rewrite app_nth1 by exact H. apply I, H.
  - replace i with (length ds) by lia. rewrite Nat.eqb_refl, app_nth2, Nat.sub_diag by lia. exact X.
Qed.
Lemma check_ok ps : forall ds l h a b, inv ds l h a b -> check ds l h ps = true -> inv (dirs ds ps) (eval l ps) (eval h ps) (eval a ps) (eval b ps).
Proof.
  induction ps as [|p ps IH]; intros ds l h a b I C; [exact I|]. cbn [check] in C. cbv zeta in C.
  destruct (ok1 ds l h p && finite64 (eval1 l p) && finite64 (eval1 h p))%bool eqn:E; [|discriminate].
  apply andb_prop in E as (E & E3). apply andb_prop in E as (E1 & E2). cbn [eval dirs]. apply IH; [|exact C].
  apply inv_snoc; [exact I|]. apply step_ok; assumption.
Qed.
Definition last_ (v : list b64) : b64 := at_ v (Nat.pred (length v)).
Definition log_prog : list ins :=
  [IMinusC (b64_ofZ 1) 0; IPlusC (b64_ofZ 2) 1; ISq 1; IPlus 2 2; IPlus 2 4; IPlus 5 4; IPlus 6 4; IPlus 7 4; IPlus 8 4; IPlus 9 4; IPlus 10 4; IPlus 11 4; IPlus 12 4; IPlus 13 4; INeg (b64_ofZ (-100)) 3; IDiv 15 14; IPlus 16 13; INeg (b64_ofZ (-81)) 3; IDiv 18 17; IPlus 19 12; INeg (b64_ofZ (-64)) 3; IDiv 21 20; IPlus 22 11; INeg (b64_ofZ (-49)) 3; IDiv 24 23; IPlus 25 10; INeg (b64_ofZ (-36)) 3; IDiv 27 26; IPlus 28 9; INeg (b64_ofZ (-25)) 3; IDiv 30 29; IPlus 31 8; INeg (b64_ofZ (-16)) 3; IDiv 33 32; IPlus 34 7; INeg (b64_ofZ (-9)) 3; IDiv 36 35; IPlus 37 6; INeg (b64_ofZ (-4)) 3; IDiv 39 38; IPlus 40 5; IOpp 3; IDiv 42 41; IPlus 43 2; IPos (b64_ofZ 2) 1; IDiv 45 44].
Lemma log_prog_ok (z : b64) : last_ (eval [z] log_prog) = log_cf_11 (N := B64) z.
Proof. cbv [last_ at_ eval eval1 log_prog app nth length Nat.pred]. unfold log_cf_11. cbn [B64 num nadd nsub nmul ndiv nopp nofZ]. cbv zeta. reflexivity. Qed.

(** ** Endpoints *)
Definition q14 : b64 := @B754_finite 53 1024 false 4503599627370496 (-54) eq_refl.
Definition q12 : b64 := @B754_finite 53 1024 false 4503599627370496 (-53) eq_refl.
(** the largest double below 1 *)
Definition p1 : b64 := @B754_finite 53 1024 false 9007199254740991 (-53) eq_refl.
Definition lcf (z : b64) : b64 := log_cf_11 (N := B64) z.
Lemma q14_val : B2R64 q14 = 1 / 4.
Proof. unfold q14, B2R64, B2R, F2R. simpl. lra. Qed.
Lemma q12_val : B2R64 q12 = 1 / 2.
Proof. unfold q12, B2R64, B2R, F2R. simpl. lra. Qed.
Lemma p1_val : B2R64 p1 = 1 - / 9007199254740992.
Proof. unfold p1, B2R64, B2R, F2R. simpl. lra. Qed.
Lemma below_one m : finite64 m = true -> 1 / 2 <= B2R64 m -> B2R64 m < 1 -> B2R64 m <= B2R64 p1.
Proof.
  intros F H1 H2. rewrite p1_val. destruct m as [s|s| |s mm ee B]; try discriminate; [cbn in H1; lra|].
  destruct s. { exfalso. assert (E : B2R64 (B754_finite true mm ee B) = IZR (Z.neg mm) * bpow radix2 ee) by reflexivity. rewrite E in H1.
    pose proof (IZR_lt (Z.neg mm) 0 ltac:(lia)). pose proof (bpow_gt_0 radix2 ee). nra. }
  assert (E : B2R64 (B754_finite false mm ee B) = IZR (Z.pos mm) * bpow radix2 ee) by reflexivity. rewrite E in *. clear E F.
  assert (Hm : (Z.pos mm < 2 ^ 53)%Z).
  { apply bounded_inv in B. lia. }
  apply IZR_lt in Hm. pose proof (bpow_gt_0 radix2 ee) as Pe. pose proof (IZR_lt 0 (Z.pos mm) ltac:(lia)) as Pm.
  assert (He : (-53 <= ee)%Z).
  { destruct (Z_le_gt_dec (-53) ee); [assumption|exfalso]. assert (bpow radix2 ee <= bpow radix2 (-54)) by (apply bpow_le; lia).
    replace (bpow radix2 (-54)) with (/ 18014398509481984) in * by (simpl; lra). change (2 ^ 53)%Z with 9007199254740992%Z in Hm. nra. }
  assert (E : IZR (Z.pos mm) * bpow radix2 ee = IZR (Z.pos mm * 2 ^ (ee + 53)) * / 9007199254740992).
  { rewrite mult_IZR, (IZR_Zpower radix2) by lia. replace ee with (ee + 53 + -53)%Z at 1 by lia. rewrite bpow_plus. replace (bpow radix2 (-53)) with (/ 9007199254740992) by (simpl; lra). ring. }
  rewrite E in *. set (k := (Z.pos mm * 2 ^ (ee + 53))%Z) in *. assert (K : (k < 9007199254740992)%Z) by (apply lt_IZR; lra).
  assert (K2 : (k <= 9007199254740991)%Z) by lia. apply IZR_le in K2. lra.
Qed.
Lemma log_check : check [true] [q14] [b64_ofZ 1] log_prog = true.
Proof. vm_cast_no_check (eq_refl true). Qed.
Lemma lcf_mono a b : finite64 a = true -> finite64 b = true -> 1 / 4 <= B2R64 a -> B2R64 a <= B2R64 b -> B2R64 b <= 1 ->
  finite64 (lcf a) = true /\ finite64 (lcf b) = true /\ B2R64 (lcf a) <= B2R64 (lcf b).
Proof.
  intros Fa Fb H1 H2 H3.
  assert (I : inv [true] [q14] [b64_ofZ 1] [a] [b]).
  { unfold inv. cbn [length]. repeat split; try reflexivity. intros i Hi. assert (i = 0)%nat as -> by lia. cbn [nth D at_]. unfold M. destruct (ofZ_exact 1 ltac:(lia)) as (F1 & E1). rewrite E1, q14_val. repeat split; try assumption; reflexivity. }
  pose proof (check_ok log_prog _ _ _ _ _ I log_check) as (L1 & L2 & L3 & L4 & J).
  set (k := Nat.pred (length (dirs [true] log_prog))) in *.
  assert (Ra : at_ (eval [a] log_prog) k = lcf a) by (etransitivity; [|exact (log_prog_ok a)]; unfold last_, k; rewrite <- L3; reflexivity).
  assert (Rb : at_ (eval [b] log_prog) k = lcf b) by (etransitivity; [|exact (log_prog_ok b)]; unfold last_, k; rewrite <- L4; reflexivity).
  assert (X : (k < length (dirs [true] log_prog))%nat) by (apply Nat.ltb_lt; vm_compute; reflexivity). specialize (J _ X).
  assert (Y : nth k (dirs [true] log_prog) true = true) by (vm_compute; reflexivity). rewrite Y, Ra, Rb in J. cbn [D] in J.
  destruct J as (_ & _ & A & B & _ & C & _). repeat split; assumption.
Qed.

(** ** xlog *)
Notation xlog64 := (xlog (N := B64) musl_utils).
Definition tail_ (v : b64) (e : Z) : b64 := b64_plus v (b64_mult (LOG2 (N := B64)) (b64_ofZ e)).
Lemma xlog_form x : finite64 x = true -> 0 < B2R64 x ->
  exists m e, finite64 m = true /\ 1 / 2 <= B2R64 m < 1 /\ B2R64 x = B2R64 m * bpow radix2 e /\
    xlog64 x = (if (Z.eqb e 0 || Z.eqb e (-1))%bool then lcf x else tail_ (lcf m) e).
Proof.
  intros F P. pose proof (finite_not_nan x F) as Nx.
  assert (N0 : nan64 (b64_ofZ 0) = false) by reflexivity.
  assert (L0 : b64_ltb x (b64_ofZ 0) = false).
  { rewrite ltb_xval, xval_zero, xval_finite by assumption. apply Rlt_bool_false. lra. }
  assert (E0 : b64_eqb x (b64_ofZ 0) = false).
  { rewrite eqb_xval, xval_zero, xval_finite by assumption. apply Req_bool_false. lra. }
  destruct (C28_lemma x 0) as (C & _). destruct (C F E0) as (m & e & Em & Fm & Rm & Ex & Sm). clear C.
  exists m, e. pose proof (bpow_gt_0 radix2 e) as Be. assert (Pm : 0 < B2R64 m) by (rewrite Ex in P; nra). rewrite Rabs_pos_eq in Rm by lra.
  split; [exact Fm|]. split; [exact Rm|]. split; [exact Ex|]. unfold xlog. rewrite is_nan_b64, Nx.
  change (@nlt B64 x (nofZ 0)) with (b64_ltb x (b64_ofZ 0)). rewrite L0. cbn [orb].
  change (@neq B64 x (nofZ 0)) with (b64_eqb x (b64_ofZ 0)). rewrite E0.
  change (fu_frexp musl_utils x 0%Z) with (musl_frexp x 0). rewrite Em. reflexivity.
Qed.
Lemma exponent_unique m e k : 1 / 2 <= m < 1 -> bpow radix2 (k - 1) <= m * bpow radix2 e -> m * bpow radix2 e < bpow radix2 k -> e = k.
Proof.
  intros Hm H1 H2. pose proof (bpow_gt_0 radix2 e) as P.
  assert (e - 1 < k)%Z. { apply (lt_bpow radix2). replace (e - 1)%Z with (e + -1)%Z by lia. rewrite bpow_plus. replace (bpow radix2 (-1)) with (1 / 2) by (simpl; lra). nra. }
  assert (k - 1 < e)%Z by (apply (lt_bpow radix2); nra). lia.
Qed.
Lemma exponent_range x m e : finite64 x = true -> 1 / 2 <= m < 1 -> B2R64 x = m * bpow radix2 e -> (-1080 <= e <= 1026)%Z.
Proof.
  intros F Hm E. pose proof (B2R_bounds x) as Bx. pose proof (bpow_gt_0 radix2 e) as P. split.
  - destruct (Z_le_gt_dec (-1080) e); [assumption|exfalso]. assert (bpow radix2 e <= bpow radix2 (-1080)) by (apply bpow_le; lia).
    pose proof (abs_B2R_ge_emin 53 1024 x) as G. assert (FS : is_finite_strict x = true) by (apply is_finite_strict_B2R; rewrite E; nra).
    specialize (G FS). rewrite E in G. rewrite Rabs_pos_eq in G by nra. change (SpecFloat.emin 53 1024) with (-1074)%Z in G.
    assert (bpow radix2 (-1080) < bpow radix2 (-1074)) by (apply bpow_lt; lia). nra.
  - destruct (Z_le_gt_dec e 1026); [assumption|exfalso]. assert (bpow radix2 1026 <= bpow radix2 e) by (apply bpow_le; lia).
    unfold TOP in Bx. assert (bpow radix2 1026 = 4 * bpow radix2 1024) by (change 1026%Z with (2 + 1024)%Z; rewrite bpow_plus; simpl (bpow radix2 2); lra).
    pose proof (bpow_gt_0 radix2 1024). nra.
Qed.

Lemma tail_const e : (-1080 <= e <= 1026)%Z -> finite64 (b64_mult (LOG2 (N := B64)) (b64_ofZ e)) = true.
Proof.
  intros He. destruct (ofZ_exact e ltac:(lia)) as (Fe & Ee). destruct L2_value as (F2 & E2). change (LOG2 (N := B64)) with L2v.
  destruct (mult_xval L2v (b64_ofZ e) F2 Fe) as (N & V). apply xval_finite_iff; [exact N|]. rewrite V, E2, Ee.
  assert (-1080 <= IZR e <= 1026) by (split; apply IZR_le; lia).
  destruct (ofZ_exact 2000 ltac:(lia)) as (F3 & E3). destruct (ofZ_exact (-2000) ltac:(lia)) as (F4 & E4). pose proof (B2R_bounds (b64_ofZ 2000)) as B3. pose proof (B2R_bounds (b64_ofZ (-2000))) as B4.
  assert (A1 : rndc (6243314768165359 / 9007199254740992 * IZR e) <= rndc (B2R64 (b64_ofZ 2000))) by (apply rndc_mono; rewrite E3; lra).
  assert (A2 : rndc (B2R64 (b64_ofZ (-2000))) <= rndc (6243314768165359 / 9007199254740992 * IZR e)) by (apply rndc_mono; rewrite E4; lra).
  rewrite rndc_format in A1, A2. lra.
Qed.
Lemma tail_le u v e : (-1080 <= e <= 1026)%Z -> finite64 u = true -> finite64 v = true -> B2R64 u <= B2R64 v ->
  nan64 (tail_ u e) = false /\ nan64 (tail_ v e) = false /\ xval (tail_ u e) <= xval (tail_ v e).
Proof.
  intros He Fu Fv H. pose proof (tail_const e He) as Fc. unfold tail_. set (c := b64_mult _ _) in *.
  destruct (plus_xval u c Fu Fc) as (N1 & V1). destruct (plus_xval v c Fv Fc) as (N2 & V2). split; [exact N1|]. split; [exact N2|]. rewrite V1, V2. apply rndc_mono. lra.
Qed.

(** *** inside one binade *)
Lemma xlog_binade x y k : finite64 x = true -> finite64 y = true -> bpow radix2 (k - 1) <= B2R64 x -> B2R64 x <= B2R64 y -> B2R64 y < bpow radix2 k ->
  xval (xlog64 x) <= xval (xlog64 y).
Proof.
  intros Fx Fy H1 H2 H3. pose proof (bpow_gt_0 radix2 (k - 1)).
  destruct (xlog_form x Fx ltac:(lra)) as (m & e & Fm & Rm & Ex & Lx). destruct (xlog_form y Fy ltac:(lra)) as (m' & e' & Fm' & Rm' & Ey & Ly).
  assert (e = k) as -> by (apply (exponent_unique (B2R64 m)); [exact Rm|lra|lra]). assert (e' = k) as -> by (apply (exponent_unique (B2R64 m')); [exact Rm'|lra|lra]).
  rewrite Lx, Ly. pose proof (bpow_gt_0 radix2 k) as P. pose proof (exponent_range x (B2R64 m) k Fx Rm Ex) as Rk. destruct (Z.eqb_spec k 0) as [->|K0]; [|destruct (Z.eqb_spec k (-1)) as [->|K1]]; cbn [orb].
  - simpl (bpow radix2 0) in *. destruct (lcf_mono x y Fx Fy ltac:(lra) H2 ltac:(lra)) as (A & B & C). rewrite !xval_finite by assumption. exact C.
  - replace (bpow radix2 (-1)) with (1 / 2) in * by (simpl; lra). destruct (lcf_mono x y Fx Fy ltac:(lra) H2 ltac:(lra)) as (A & B & C). rewrite !xval_finite by assumption. exact C.
  - destruct (lcf_mono m m' Fm Fm' ltac:(lra) ltac:(nra) ltac:(lra)) as (A & B & C). apply tail_le; assumption.
Qed.

(** *** across the binades between 2^-48 and 32 *)
Definition lo3 (c14 c12 : b64) (e : Z) : b64 := if Z.eqb e 0 then c12 else if Z.eqb e (-1) then c14 else tail_ c12 e.
Definition up3 (c12 c1 : b64) (e : Z) : b64 := if Z.eqb e 0 then c1 else if Z.eqb e (-1) then c12 else tail_ c1 e.
Definition lo_ (e : Z) : b64 := lo3 (lcf q14) (lcf q12) e.
Definition up_ (e : Z) : b64 := up3 (lcf q12) (lcf p1) e.
Lemma q_fin : finite64 q14 = true /\ finite64 q12 = true /\ finite64 p1 = true.
Proof. repeat split. Qed.
Lemma xlog_bounds x k : finite64 x = true -> bpow radix2 (k - 1) <= B2R64 x -> B2R64 x < bpow radix2 k ->
  nan64 (lo_ k) = false /\ nan64 (up_ k) = false /\ xval (lo_ k) <= xval (xlog64 x) <= xval (up_ k).
Proof.
  intros Fx H1 H2. pose proof (bpow_gt_0 radix2 (k - 1)). pose proof q_fin as (F14 & F12 & F1). pose proof q14_val as E14. pose proof q12_val as E12. pose proof p1_val as E1.
  destruct (xlog_form x Fx ltac:(lra)) as (m & e & Fm & Rm & Ex & Lx). assert (e = k) as -> by (apply (exponent_unique (B2R64 m)); [exact Rm|lra|lra]).
  rewrite Lx. pose proof (bpow_gt_0 radix2 k) as P. pose proof (exponent_range x (B2R64 m) k Fx Rm Ex) as Rk. unfold lo_, up_, lo3, up3. pose proof (below_one m Fm (proj1 Rm) (proj2 Rm)) as Hp.
  destruct (Z.eqb_spec k 0) as [->|K0]; [|destruct (Z.eqb_spec k (-1)) as [->|K1]]; cbn [orb].
  - simpl (bpow radix2 0) in *. destruct (lcf_mono q12 x F12 Fx ltac:(lra) ltac:(lra) ltac:(lra)) as (A & B & C). destruct (lcf_mono x p1 Fx F1 ltac:(lra) ltac:(lra) ltac:(lra)) as (_ & B' & C').
    rewrite !xval_finite by assumption. repeat split; try (apply finite_not_nan; assumption); assumption.
  - replace (bpow radix2 (-1)) with (1 / 2) in * by (simpl; lra). destruct (lcf_mono q14 x F14 Fx ltac:(lra) ltac:(lra) ltac:(lra)) as (A & B & C). destruct (lcf_mono x q12 Fx F12 ltac:(lra) ltac:(lra) ltac:(lra)) as (_ & B' & C').
    rewrite !xval_finite by assumption. repeat split; try (apply finite_not_nan; assumption); assumption.
  - destruct (lcf_mono q12 m F12 Fm ltac:(lra) ltac:(lra) ltac:(lra)) as (A & B & C). destruct (lcf_mono m p1 Fm F1 ltac:(lra) ltac:(lra) ltac:(lra)) as (_ & B' & C').
    destruct (tail_le _ _ k Rk A B C) as (T1 & _ & T2). destruct (tail_le _ _ k Rk B B' C') as (_ & T3 & T4). repeat split; assumption.
Qed.
Fixpoint steps_ok (c14 c12 c1 : b64) (n : nat) (e : Z) : bool :=
  match n with O => true | S n => b64_leb (up3 c12 c1 e) (lo3 c14 c12 (e + 1)) && b64_leb (lo3 c14 c12 e) (up3 c12 c1 e) && steps_ok c14 c12 c1 n (e + 1) end.
Lemma steps_checked : steps_ok (lcf q14) (lcf q12) (lcf p1) 52 (-47) = true.
Proof. vm_cast_no_check (eq_refl true). Qed.
Lemma leb_le a b : b64_leb a b = true -> xval a <= xval b.
Proof.
  intros H. destruct (nan64 a) eqn:Na; [destruct a; try discriminate; destruct b; discriminate|]. destruct (nan64 b) eqn:Nb; [destruct b; try discriminate; destruct a as [[]|[]| |[]]; discriminate|].
  rewrite leb_xval in H by assumption. revert H. case Rle_bool_spec; [auto|discriminate].
Qed.
Lemma steps_le n : forall e, steps_ok (lcf q14) (lcf q12) (lcf p1) n e = true -> forall i j, (e <= i)%Z -> (i < j)%Z -> (j <= e + Z.of_nat n)%Z -> xval (up_ i) <= xval (lo_ j).
Proof.
  induction n as [|n IH]; intros e H i j H1 H2 H3; [lia|]. cbn [steps_ok] in H. change (up3 (lcf q12) (lcf p1)) with up_ in H. change (lo3 (lcf q14) (lcf q12)) with lo_ in H. apply andb_prop in H as (H & HS). apply andb_prop in H as (HA & HB).
  destruct (Z.eq_dec i e) as [->|Ne]; [|apply (IH (e + 1)%Z HS); lia].
  apply leb_le in HA, HB. destruct (Z.eq_dec j (e + 1)) as [->|Nj]; [exact HA|].
  destruct n as [|n]; [lia|]. pose proof HS as HS'. cbn [steps_ok] in HS'. change (up3 (lcf q12) (lcf p1)) with up_ in HS'. change (lo3 (lcf q14) (lcf q12)) with lo_ in HS'. apply andb_prop in HS' as (HS' & _). apply andb_prop in HS' as (_ & HB'). apply leb_le in HB'.
  pose proof (IH (e + 1)%Z HS (e + 1)%Z j ltac:(lia) ltac:(lia) ltac:(lia)). lra.
Qed.
Lemma xlog_middle x y : finite64 x = true -> finite64 y = true -> bpow radix2 (-48) <= B2R64 x -> B2R64 x <= B2R64 y -> B2R64 y < 32 -> xval (xlog64 x) <= xval (xlog64 y).
Proof.
  intros Fx Fy H1 H2 H3. pose proof (bpow_gt_0 radix2 (-48)).
  assert (X : forall v, bpow radix2 (-48) <= v -> v < 32 -> exists k, (-47 <= k <= 5)%Z /\ bpow radix2 (k - 1) <= v < bpow radix2 k).
  { intros v A B. exists (mag radix2 v). destruct (mag radix2 v) as [k Hk]. cbn [mag_val]. specialize (Hk ltac:(lra)). rewrite Rabs_pos_eq in Hk by lra. split; [|exact Hk].
    assert (-48 < k)%Z by (apply (lt_bpow radix2); lra). change 32 with (bpow radix2 5) in B. assert (k - 1 < 5)%Z by (apply (lt_bpow radix2); lra). lia. }
  destruct (X (B2R64 x) H1 ltac:(lra)) as (i & Ri & Ai & Bi). destruct (X (B2R64 y) ltac:(lra) H3) as (j & Rj & Aj & Bj).
  destruct (Z_lt_ge_dec i j) as [L|G].
  - destruct (xlog_bounds x i Fx Ai Bi) as (_ & _ & _ & U). destruct (xlog_bounds y j Fy Aj Bj) as (_ & _ & W & _).
    pose proof (steps_le 52 (-47) steps_checked i j ltac:(lia) L ltac:(lia)). lra.
  - assert (j - 1 < i)%Z by lia. assert (i - 1 < j)%Z by (apply (lt_bpow radix2); lra). assert (i = j) as -> by lia. apply (xlog_binade x y j); assumption.
Qed.

(** *** at a relative distance of 1e-9 *)
Lemma xlog_apart x y : finite64 x = true -> finite64 y = true -> 0 < B2R64 x -> (1 + 1 / 10 ^ 9) * B2R64 x <= B2R64 y -> xval (xlog64 x) < xval (xlog64 y).
Proof.
  intros Fx Fy P H. assert (Py : 0 < B2R64 y) by lra.
  destruct (xlog_accuracy x Fx P) as (Lx & Ax). destruct (xlog_accuracy y Fy Py) as (Ly & Ay). cbv zeta in Ax, Ay. rewrite !xval_finite by assumption.
  assert (T : forall v, finite64 v = true -> 0 < B2R64 v -> finite64 (xlog64 v) = true /\ Rabs (B2R64 (xlog64 v) - ln (B2R64 v)) <= 11 / 10 ^ 11).
  { intros v Fv Pv. destruct (xlog_accuracy v Fv Pv) as (Lv & A1 & A2 & A3). split; [exact Lv|].
    destruct (xlog_range v) as [Nn|[(s & Z0)|(_ & B)]]; [apply finite_not_nan in Lv; congruence|rewrite Z0 in Pv; cbn in Pv; lra|].
    set (l := B2R64 (xlog64 v)) in *. set (t := ln (B2R64 v)) in *.
    assert (E : Rabs (l - t) <= 1 / 10 ^ 10 + 8 / 10 ^ 16 * Rabs t).
    { pose proof (Rabs_pos t). destruct (Rlt_le_dec (B2R64 v) (1 / 4)); [specialize (A3 (or_introl r)); lra|]. destruct (Rlt_le_dec (B2R64 v) (1 / 2)); [specialize (A2 (conj r r0)); lra|].
      destruct (Rlt_le_dec (B2R64 v) 1); [specialize (A1 (conj r0 r1)); lra|specialize (A3 (or_intror r1)); lra]. }
    assert (Rabs t <= Rabs l + Rabs (l - t)) by (replace t with (l + (t - l)) at 1 by lra; rewrite (Rabs_minus_sym l t); apply Rabs_triang).
    clear A1 A2 A3. pose proof (Rabs_pos t). lra. }
  destruct (T x Fx P) as (_ & Ex). destruct (T y Fy Py) as (_ & Ey).
  assert (G : ln (B2R64 x) + 9 / 10 ^ 10 <= ln (B2R64 y)).
  { assert (ln ((1 + 1 / 10 ^ 9) * B2R64 x) <= ln (B2R64 y)) by (apply Rcomplements.ln_le; lra). rewrite ln_mult in H0 by lra.
    assert (9 / 10 ^ 10 <= ln (1 + 1 / 10 ^ 9)).
    { apply Rnot_lt_le. intros W. apply exp_increasing in W. rewrite exp_ln in W by lra. assert (U := exp_ineq1_le (- (9 / 10 ^ 10))). rewrite exp_Ropp in U. pose proof (exp_pos (9 / 10 ^ 10)).
      assert (V : / exp (9 / 10 ^ 10) * exp (9 / 10 ^ 10) = 1) by (field; lra). nra. }
    lra. }
  apply Rabs_le_inv in Ex, Ey. lra.
Qed.

Lemma xlog_order x y : finite64 x = true -> finite64 y = true -> 0 < B2R64 x -> B2R64 x <= B2R64 y ->
  (exists k, bpow radix2 k <= B2R64 x /\ B2R64 y < bpow radix2 (k + 1)) \/ (bpow radix2 (-48) <= B2R64 x /\ B2R64 y < 32) \/ (1 + 1 / 10 ^ 9) * B2R64 x <= B2R64 y ->
  xval (xlog64 x) <= xval (xlog64 y).
Proof.
  intros Fx Fy P H [(k & A & B)|[(A & B)|A]].
  - apply (xlog_binade x y (k + 1)); try assumption. replace (k + 1 - 1)%Z with k by lia. exact A.
  - apply xlog_middle; assumption.
  - left. apply xlog_apart; assumption.
Qed.
Lemma xlog_monotone x y : finite64 x = true -> finite64 y = true -> 0 < B2R64 x -> B2R64 x <= B2R64 y ->
  ((exists k, bpow radix2 k <= B2R64 x /\ B2R64 y < bpow radix2 (k + 1)) \/ (bpow radix2 (-48) <= B2R64 x /\ B2R64 y < 32) -> b64_leb (xlog64 x) (xlog64 y) = true) /\
  ((1 + 1 / 10 ^ 9) * B2R64 x <= B2R64 y -> b64_ltb (xlog64 x) (xlog64 y) = true).
Proof.
  intros Fx Fy P H. destruct (xlog_accuracy x Fx P) as (Lx & _). destruct (xlog_accuracy y Fy ltac:(lra)) as (Ly & _). split; intros C.
  - rewrite leb_xval by (apply finite_not_nan; assumption). apply Rle_bool_true. apply xlog_order; try assumption. destruct C as [C|C]; [left|right; left]; exact C.
  - rewrite ltb_xval by (apply finite_not_nan; assumption). apply Rlt_bool_true. apply xlog_apart; assumption.
Qed.
(** the sign of the logarithm *)
Lemma xlog_one : xval (xlog64 (b64_ofZ 1)) = 0.
Proof.
  assert (E : b64_eqb (xlog64 (b64_ofZ 1)) (b64_ofZ 0) = true) by (vm_cast_no_check (eq_refl true)).
  destruct (ofZ_exact 1 ltac:(lia)) as (F1 & E1). destruct (xlog_accuracy (b64_ofZ 1) F1 ltac:(lra)) as (L1 & _).
  rewrite eqb_xval in E by (try apply finite_not_nan; assumption || reflexivity). rewrite xval_zero in E. revert E. case Req_bool_spec; [auto|discriminate].
Qed.
Lemma xlog_sign x : finite64 x = true -> 1 <= B2R64 x -> finite64 (xlog64 x) = true /\ 0 <= B2R64 (xlog64 x).
Proof.
  intros F H. destruct (xlog_accuracy x F ltac:(lra)) as (L & _). split; [exact L|]. rewrite <- xval_finite by exact L. rewrite <- xlog_one.
  destruct (ofZ_exact 1 ltac:(lia)) as (F1 & E1). apply xlog_order; try assumption; rewrite ?E1; try lra.
  destruct (Rlt_le_dec (B2R64 x) 2) as [A|A]; [left; exists 0%Z; simpl; lra|right; right; lra].
Qed.
