(** * DetectorLemmas: proofs of the properties of spot_init, spot_fit, spot_step *)
From Coq Require Import ZArith List Bool Lia Reals Lra Permutation.
From Flocq Require Import Core.Core IEEE754.BinarySingleNaN.
From Verif Require Import Num NumFacts XMath Ubend UbendFacts Peaks PeaksFacts Brent Estimator Tail P2 P2Facts
  Spot Session SpotFacts B64 B64Facts Spec SpotB64.
Import ListNotations.
Open Scope Z_scope.

(** ** C01, C02, C03, C04: initialisation *)
Lemma init_result (old : spot B64) q low discard level cap alloc :
  snd (spot_init old q low discard level cap alloc) =
  if (b64_ltb level (d 0) || b64_leb (d 1) level)%bool then -1001
  else if (b64_leb q (d 0) || b64_leb (b64_minus (d 1) level) q)%bool then -1002
  else match alloc (ubend_bytes cap) with Some _ => 0 | None => -1000 end.
Proof.
  unfold spot_init, spot_check.
  change (@nlt B64) with b64_ltb. change (@nle B64) with b64_leb. change (@nsub B64) with b64_minus.
  change (@nofZ B64) with d.
  destruct (b64_ltb level (d 0) || b64_leb (d 1) level)%bool; [reflexivity|].
  rewrite orb_comm.
  destruct (b64_leb q (d 0) || b64_leb (b64_minus (d 1) level) q)%bool; [reflexivity|].
  destruct (alloc (ubend_bytes cap)); reflexivity.
Qed.

Lemma init_rejected_frame (old : spot B64) q low discard level cap alloc :
  let '(s, r) := spot_init old q low discard level cap alloc in
  r = -1001 \/ r = -1002 -> s = old.
Proof.
  pose proof (init_result old q low discard level cap alloc) as H.
  unfold spot_init in *. destruct (spot_check q level) as [c|]; [reflexivity|].
  destruct (alloc (ubend_bytes cap)); cbn in *; intros [E|E]; discriminate.
Qed.

Ltac c01_fin :=
  repeat split; intros; try assumption; try reflexivity; try lra; try discriminate; try (exfalso; lra);
  try (match goal with H : _ \/ _ |- _ => exfalso; destruct H; discriminate end);
  try (match goal with F : _ -> ?s = ?o |- ?s = ?o => apply F; assumption end); auto.

Lemma C01_lemma (old : spot B64) q low discard level cap alloc :
  is_NaN q = false -> is_NaN level = false ->
  let '(s, r) := spot_init old q low discard level cap alloc in
  (r = -1001 <-> (xval level < 0 \/ 1 <= xval level)%R) /\
  (r = -1002 <-> (0 <= xval level < 1)%R /\ (xval q <= 0 \/ xval (b64_minus (d 1) level) <= xval q)%R) /\
  (r = 0 \/ r = -1000 <-> (0 <= xval level < 1)%R /\ (0 < xval q < xval (b64_minus (d 1) level))%R) /\
  (r = -1001 \/ r = -1002 -> s = old).
Proof.
  intros Nq Nl. rewrite is_NaN_eq in *.
  pose proof (init_result old q low discard level cap alloc) as H.
  pose proof (init_rejected_frame old q low discard level cap alloc) as F.
  destruct (spot_init old q low discard level cap alloc) as [s r]. cbn [snd] in H.
  assert (E1 : xval (d 1) = 1%R) by (destruct (ofZ_exact 1) as (A & B); [lia|]; unfold d; rewrite xval_finite; auto).
  assert (E0 : xval (d 0) = 0%R) by reflexivity.
  assert (L : (b64_ltb level (d 0) || b64_leb (d 1) level)%bool = true <-> (xval level < 0 \/ 1 <= xval level)%R).
  { rewrite orb_true_iff, ltb_true_iff, leb_true_iff, E0, E1. intuition. }
  destruct (b64_ltb level (d 0) || b64_leb (d 1) level)%bool.
  { assert (HL : (xval level < 0 \/ 1 <= xval level)%R) by (apply L; reflexivity).
    subst r. c01_fin. }
  assert (HL : (0 <= xval level < 1)%R).
  { destruct (Rlt_le_dec (xval level) 0) as [A|A]; [assert (false = true) by (apply L; auto); discriminate|].
    destruct (Rlt_le_dec (xval level) 1) as [B|B]; [lra|assert (false = true) by (apply L; auto); discriminate]. }
  assert (Nm : nan64 (b64_minus (d 1) level) = false).
  { apply minus_xval; [reflexivity|]. apply finite_of_xval; [assumption|].
    rewrite Rabs_right by lra. apply Rlt_trans with 1%R; [lra|]. unfold TOP. change 1%R with (bpow radix2 0). apply bpow_lt. reflexivity. }
  assert (Q : (b64_leb q (d 0) || b64_leb (b64_minus (d 1) level) q)%bool = true <->
     (xval q <= 0 \/ xval (b64_minus (d 1) level) <= xval q)%R).
  { rewrite orb_true_iff, !leb_true_iff, E0. intuition. }
  destruct (b64_leb q (d 0) || b64_leb (b64_minus (d 1) level) q)%bool.
  { assert (HQ : (xval q <= 0 \/ xval (b64_minus (d 1) level) <= xval q)%R) by (apply Q; reflexivity).
    subst r. c01_fin. }
  assert (HQ : (0 < xval q < xval (b64_minus (d 1) level))%R).
  { destruct (Rle_lt_dec (xval q) 0) as [A|A]; [assert (false = true) by (apply Q; auto); discriminate|].
    destruct (Rlt_le_dec (xval q) (xval (b64_minus (d 1) level))) as [B|B]; [lra|assert (false = true) by (apply Q; auto); discriminate]. }
  destruct (alloc (ubend_bytes cap)); subst r; c01_fin.
Qed.

Lemma C02_lemma (old : spot B64) q low discard level cap alloc blk :
  alloc (ubend_bytes cap) = Some blk ->
  (snd (spot_init old q low discard level cap alloc) = 0 <->
   (is_NaN level = true /\ b64_leb q (d 0) = false) \/
   (b64_leb (d 0) level = true /\ b64_ltb level (d 1) = true /\
    (is_NaN q = true \/ (b64_ltb (d 0) q = true /\ b64_ltb q (b64_minus (d 1) level) = true)))).
Proof.
  intros A. rewrite init_result, A. rewrite (is_NaN_eq level), (is_NaN_eq q).
  destruct (nan64 level) eqn:Nl.
  { destruct (cmp_nan_l level (d 0) Nl) as (-> & _). destruct (cmp_nan_r (d 1) level Nl) as (_ & -> & _).
    destruct (cmp_nan_r (d 0) level Nl) as (_ & -> & _).
    rewrite minus_nan_r by assumption.
    replace (b64_leb B754_nan q) with false by (destruct q; reflexivity).
    cbn [orb]. rewrite orb_false_r. destruct (b64_leb q (d 0)).
    - split; [discriminate|]. intros [(_ & H)|(H & _)]; discriminate.
    - split; auto. }
  assert (L0 : b64_leb (d 0) level = negb (b64_ltb level (d 0))).
  { rewrite leb_xval, ltb_xval by auto. rewrite negb_Rle_bool. reflexivity. }
  assert (L1 : b64_ltb level (d 1) = negb (b64_leb (d 1) level)).
  { rewrite leb_xval, ltb_xval by auto. rewrite negb_Rlt_bool. reflexivity. }
  rewrite L0, L1.
  destruct (b64_ltb level (d 0)); cbn [orb negb].
  { split; [discriminate|]. intros [(H & _)|(H & _)]; discriminate. }
  destruct (b64_leb (d 1) level); cbn [orb negb].
  { split; [discriminate|]. intros [(H & _)|(_ & H & _)]; discriminate. }
  destruct (nan64 q) eqn:Nq.
  { destruct (cmp_nan_l q (d 0) Nq) as (_ & -> & _). destruct (cmp_nan_r (b64_minus (d 1) level) q Nq) as (_ & -> & _).
    cbn. split; auto. }
  assert (Fl : nan64 (b64_minus (d 1) level) = false).
  { destruct (minus_cmp (d 1) level eq_refl Nl) as (H & _). rewrite H. destruct level; reflexivity. }
  assert (Q0 : b64_ltb (d 0) q = negb (b64_leb q (d 0))).
  { rewrite leb_xval, ltb_xval by auto. rewrite negb_Rlt_bool. reflexivity. }
  assert (Q1 : b64_ltb q (b64_minus (d 1) level) = negb (b64_leb (b64_minus (d 1) level) q)).
  { rewrite leb_xval, ltb_xval by auto. rewrite negb_Rlt_bool. reflexivity. }
  rewrite Q0, Q1. destruct (b64_leb q (d 0)); cbn [orb negb].
  { split; [discriminate|]. intros [(H & _)|(_ & _ & [H|(H & _)])]; discriminate. }
  destruct (b64_leb (b64_minus (d 1) level) q); cbn [orb negb].
  { split; [discriminate|]. intros [(H & _)|(_ & _ & [H|(_ & H)])]; discriminate. }
  split; [intros _; right; repeat split; auto|reflexivity].
Qed.

Lemma C03_lemma {N} (old : spot N) q low discard level cap blk s :
  spot_init old q low discard level cap (fun _ => Some blk) = (s, 0) ->
  s_q s = q /\ s_level s = level /\
  s_low s = (if low =? 0 then 0 else 1) /\ s_discard s = (if discard =? 0 then 0 else 1) /\
  s_n s = 0 /\ s_Nt s = 0 /\ s_at s = c_nan /\ s_et s = c_nan /\
  t_gamma (s_tail s) = c_nan /\ t_sigma (s_tail s) = c_nan /\
  ubend_size (window s) = 0 /\ u_capacity (window s) = cap /\ u_data (window s) = blk /\ oldest_first (window s) = [].
Proof.
  intros H. apply init_fields in H as (H1 & H2 & H3 & H4 & H5 & H6 & H7 & H8 & H9 & blk' & Hb & Ht).
  injection Hb as <-. unfold window, oldest_first, cells. rewrite Ht. cbn. auto 20.
Qed.

Lemma C04_lemma {N} (old : spot N) q low discard level cap alloc s r :
  alloc (ubend_bytes cap) = None -> spot_init old q low discard level cap alloc = (s, r) ->
  r = -1000 /\ s_at s = s_at old /\ s_et s = s_et old /\ u_data (window s) = [] \/
  (r = -1001 \/ r = -1002) /\ s = old.
Proof.
  intros A. unfold spot_init. destruct (spot_check q level) as [c|] eqn:E.
  - intros H; injection H as <- <-. right. split; [|reflexivity]. unfold spot_check in E.
    destruct (_ || _)%bool in E; [left; injection E as <-; reflexivity|].
    destruct (_ || _)%bool in E; [right; injection E as <-; reflexivity|discriminate].
  - rewrite A. cbn. intros H; injection H as <- <-. left. auto.
Qed.

(** ** C05: unfitted detector *)
Lemma minus_cnan_r (x : b64) : b64_minus x B754_nan = B754_nan.
Proof. destruct x; reflexivity. Qed.
Lemma mult_cnan_r (x : b64) : b64_mult x B754_nan = B754_nan.
Proof. destruct x; reflexivity. Qed.

Lemma step_nan_thresholds mf (s : spot B64) x :
  s_at s = B754_nan -> s_et s = B754_nan -> is_NaN x = false ->
  spot_step mf s x = Ret (with_counts s (s_Nt s) (u64 (s_n s + 1)), NORMAL).
Proof.
  intros A E Nx. unfold spot_step. rewrite is_NaN_model, Nx.
  cbv zeta. cbn [s_updown s_et with_counts].
  change (@nsub B64) with b64_minus. change (@nmul B64) with b64_mult.
  rewrite A, E, minus_cnan_r, mult_cnan_r.
  change (@nlt B64 (nofZ 0) B754_nan) with false. change (@nle B64 (nofZ 0) B754_nan) with false.
  rewrite andb_false_r. reflexivity.
Qed.

Lemma C05_lemma mf old q low discard level cap blk s xs :
  spot_init old q low discard level cap (fun _ => Some blk) = (s, 0) ->
  (forall x, In x xs -> is_NaN x = false) -> Z.of_nat (length xs) < 2 ^ 64 ->
  spot_steps (N := B64) mf s xs =
    Ret (with_counts s 0 (Z.of_nat (length xs)), map (fun _ => NORMAL) xs).
Proof.
  intros H. apply init_fields in H as (_ & _ & _ & _ & _ & A & E & Ct & Cn & _).
  change (@c_nan B64) with (B754_nan : b64) in *.
  assert (G : forall xs (s : spot B64), s_at s = B754_nan -> s_et s = B754_nan -> 0 <= s_n s ->
    (forall x, In x xs -> is_NaN x = false) -> s_n s + Z.of_nat (length xs) < 2 ^ 64 ->
    spot_steps (N := B64) mf s xs = Ret (with_counts s (s_Nt s) (s_n s + Z.of_nat (length xs)), map (fun _ => NORMAL) xs)).
  { clear. induction xs as [|x xs IH]; intros s A E Hn Hx Hl; cbn [spot_steps].
    - cbn. rewrite Z.add_0_r. destruct s; reflexivity.
    - rewrite (step_nan_thresholds mf s x A E) by (apply Hx; left; reflexivity). cbn [bind].
      cbn [length] in Hl. rewrite u64_small by lia.
      rewrite IH; auto; cbn [s_at s_et s_n with_counts]; try lia.
      2:{ intros y Hy. apply Hx. right. assumption. }
      cbn [bind map s_Nt s_n with_counts].
      replace (s_n s + Z.of_nat (length (x :: xs))) with (s_n s + 1 + Z.of_nat (length xs)) by (cbn [length]; lia).
      reflexivity. }
  intros Hx Hl. rewrite G; auto; rewrite ?Cn, ?Ct; lia || reflexivity.
Qed.

(** ** C06 *)
Lemma C06_lemma mf (s : spot B64) x :
  (is_NaN x = true -> spot_step mf s x = Ret (s, -1005)) /\
  (forall s' r, spot_step mf s x = Ret (s', r) -> r < 0 -> is_NaN x = true /\ r = -1005 /\ s' = s).
Proof.
  split.
  - intros H. unfold spot_step. rewrite is_NaN_model, H. reflexivity.
  - intros s' r H Hr. apply step_inv in H. destruct H as [Nx -> ->|? ? ? -> ->|? ? ? -> ->|? ? ? ? ? ? ? ? ? ? -> ->]; try discriminate.
    rewrite is_NaN_model in Nx. auto.
Qed.

(** ** C07, C08 *)
Lemma discard_flag discard s (H : s_discard (N:=B64) s = (if Z.eqb discard 0 then 0 else 1)) :
  s_discard s <> 0 <-> discard <> 0.
Proof. rewrite H. destruct (Z.eqb_spec discard 0); split; intros; try congruence; lia. Qed.

Lemma C07_lemma mf q low discard level cap (s : spot B64) x :
  detector mf q low discard level cap s -> is_NaN x = false ->
  (discard <> 0 /\ beyond low (s_at s) x = true -> spot_step mf s x = Ret (s, ANOMALY)) /\
  (forall s', spot_step mf s x = Ret (s', ANOMALY) -> discard <> 0 /\ beyond low (s_at s) x = true /\ s' = s).
Proof.
  intros D Nx. pose proof (detector_sided _ _ _ _ _ _ _ D) as S.
  apply detector_facts in D as (_ & _ & Hd & _). pose proof (discard_flag discard s Hd) as DF.
  pose proof (excess_gt_0 low s (s_at s) x S) as X.
  split.
  - intros (Hdis & B). unfold spot_step. rewrite is_NaN_model, Nx.
    change (@nsub B64) with b64_minus. change (@nmul B64) with b64_mult.
    change (@nlt B64) with b64_ltb. change (@nofZ B64) with b64_ofZ. rewrite X, B.
    replace (Z.eqb (s_discard s) 0) with false. reflexivity.
    symmetry. apply Z.eqb_neq. apply DF. assumption.
  - intros s' H. apply step_inv in H. destruct H as [? ? E|? Hd' C -> E|? ? ? ? E|? ? ? ? ? ? ? ? ? ? ? E]; try discriminate.
    split; [apply DF; assumption|]. split; [|reflexivity]. rewrite <- X. exact C.
Qed.

Lemma C08_lemma mf q low discard level cap (s : spot B64) x s' r :
  detector mf q low discard level cap s -> is_NaN x = false ->
  spot_step mf s x = Ret (s', r) ->
  (r = NORMAL \/ r = EXCESS \/ r = ANOMALY) /\
  (r <> ANOMALY -> same_infinity x (s_et s) = false ->
     (r = EXCESS <-> at_or_beyond low (s_et s) x = true)).
Proof.
  intros D Nx H. pose proof (detector_sided _ _ _ _ _ _ _ D) as S.
  rewrite is_NaN_eq in Nx.
  pose proof (excess_ge_0 low s (s_et s) x S Nx) as X. rewrite same_infinity_eq.
  apply step_inv in H.
  destruct H as [Nx' ? E|? ? C ? ->|? ? C ? ->|? ? ? ? ? ? C ? ? ? ? ->].
  - rewrite is_nan_b64 in Nx'. congruence.
  - split; auto. intros; contradiction.
  - split; auto. intros _ Hs. change (b64_leb (b64_ofZ 0) (b64_mult (s_updown s) (b64_minus x (s_et s))) = false) in C.
    rewrite X, Hs, andb_true_r in C. rewrite C. split; discriminate.
  - split; auto. intros _ Hs. change (b64_leb (b64_ofZ 0) (b64_mult (s_updown s) (b64_minus x (s_et s))) = true) in C.
    rewrite X, Hs, andb_true_r in C. rewrite C. split; auto.
Qed.

(** ** C10 *)
Lemma beyond_mono low t x y : is_NaN y = false ->
  at_or_beyond low x y = true -> beyond low t x = true -> beyond low t y = true.
Proof.
  unfold at_or_beyond, beyond. intros Ny. destruct (low =? 0); rewrite leb_true_iff, !ltb_true_iff;
  intros (H1 & H2 & H3) (H4 & H5 & H6); repeat split; auto; lra.
Qed.
Lemma at_or_beyond_mono low t x y : is_NaN y = false ->
  at_or_beyond low x y = true -> at_or_beyond low t x = true -> at_or_beyond low t y = true.
Proof.
  unfold at_or_beyond, beyond. intros Ny. destruct (low =? 0); rewrite !leb_true_iff;
  intros (H1 & H2 & H3) (H4 & H5 & H6); repeat split; auto; lra.
Qed.

Lemma same_inf_mono low t x y : at_or_beyond low x y = true -> at_or_beyond low t x = true ->
  same_inf x t = false -> same_inf y t = false.
Proof.
  unfold at_or_beyond. destruct (low =? 0); rewrite !leb_true_iff; intros (H1 & H2 & H3) (H4 & H5 & H6);
  destruct y as [sy|sy| |sy my ey By]; try reflexivity; destruct t as [st|st| |st mt et Bt]; try reflexivity;
  destruct sy, st; try reflexivity; intros HS; exfalso; pose proof TOP_pos; pose proof (B2R_bounds x) as BX;
  destruct x as [sx|sx| |sx mx ex Bx]; try destruct sx; try discriminate; cbn -[TOP] in *; try lra.
  all: simpl in BX; lra.
Qed.

Lemma C10_lemma mf q low discard level cap (s : spot B64) x y sx rx sy ry :
  detector mf q low discard level cap s -> is_NaN x = false -> is_NaN y = false ->
  at_or_beyond low x y = true ->
  spot_step mf s x = Ret (sx, rx) -> spot_step mf s y = Ret (sy, ry) -> rx <= ry.
Proof.
  intros D Nx Ny HB Hx Hy.
  pose proof (detector_sided _ _ _ _ _ _ _ D) as S.
  pose proof (C08_lemma _ _ _ _ _ _ _ _ _ _ D Nx Hx) as (Cx & _).
  pose proof (C08_lemma _ _ _ _ _ _ _ _ _ _ D Ny Hy) as (Cy & _).
  pose proof (C07_lemma _ _ _ _ _ _ s y D Ny) as (Ay & Ay').
  destruct Cx as [->|[-> | ->]].
  - destruct Cy as [->|[-> | ->]]; unfold NORMAL, EXCESS, ANOMALY; lia.
  - destruct Cy as [->|[-> | ->]]; unfold NORMAL, EXCESS, ANOMALY; try lia. exfalso.
    rewrite is_NaN_eq in Nx. pose proof (excess_ge_0 low s (s_et s) x S Nx) as Xx.
    pose proof Ny as Ny2. rewrite is_NaN_eq in Ny2. pose proof (excess_ge_0 low s (s_et s) y S Ny2) as Xy.
    apply step_inv in Hx. destruct Hx as [? ? E|? ? ? ? E|? ? ? ? E|? ? ? ? ? ? C ? ? ? ? E]; try discriminate.
    apply step_inv in Hy. destruct Hy as [? ? E'|? ? ? ? E'|? ? C' ? E'|? ? ? ? ? ? ? ? ? ? ? E']; try discriminate.
    change (b64_leb (b64_ofZ 0) (b64_mult (s_updown s) (b64_minus x (s_et s))) = true) in C.
    change (b64_leb (b64_ofZ 0) (b64_mult (s_updown s) (b64_minus y (s_et s))) = false) in C'.
    rewrite Xx in C. rewrite Xy in C'. apply andb_prop in C as (C1 & C2).
    apply negb_true_iff in C2.
    rewrite (at_or_beyond_mono low _ x y Ny HB C1), (same_inf_mono low _ x y HB C1 C2) in C'. discriminate.
  - pose proof (C07_lemma _ _ _ _ _ _ s x D Nx) as (_ & Ax). apply Ax in Hx as (Hd & B & _).
    assert (E : spot_step mf s y = Ret (s, ANOMALY)).
    { apply Ay. split; [assumption|]. eapply beyond_mono; eauto. }
    rewrite Hy in E. injection E as _ ->. lia.
Qed.

(** ** C09, C12 *)
Lemma C09_lemma {N} (mf : MathFns N) s x s' r : spot_step mf s x = Ret (s', r) ->
  (r = ANOMALY -> s' = s) /\
  (r = NORMAL -> s' = with_counts s (s_Nt s) (u64 (s_n s + 1))) /\
  (r = EXCESS ->
     s_n s' = u64 (s_n s + 1) /\ s_Nt s' = u64 (s_Nt s + 1) /\
     s_et s' = s_et s /\ s_q s' = s_q s /\ s_level s' = s_level s /\ s_low s' = s_low s /\
     s_discard s' = s_discard s /\ s_updown s' = s_updown s /\
     exists pushed ll,
       tail_push (s_tail s) (nmul (s_updown s) (nsub x (s_et s))) = Ret pushed /\
       tail_fit mf pushed = Ret (s_tail s', ll) /\
       spot_quantile mf s' (s_q s') = Ret (s_at s')).
Proof.
  intros H. apply step_inv in H. destruct H as [Nx -> ->|? ? ? -> ->|? ? ? -> ->|t1 t2 ll a ? ? ? E1 E2 E3 -> ->];
  (split; [|split]); intros E; try discriminate; try reflexivity.
  cbn [s_n s_Nt s_et s_q s_level s_low s_discard s_updown with_at with_tail with_counts s_at s_tail].
  do 8 (split; [reflexivity|]). exists t1, ll. split; [assumption|]. split; [assumption|]. exact E3.
Qed.

(** The appended value is the distance to the threshold. *)
Lemma C09_window_lemma mf q low discard level cap (s : spot B64) x s' :
  detector mf q low discard level cap s -> spot_step mf s x = Ret (s', EXCESS) ->
  oldest_first (window s') = last_k cap (oldest_first (window s) ++
     [Some (if low =? 0 then b64_minus x (s_et s) else b64_opp (b64_minus x (s_et s)))]).
Proof.
  intros D H. pose proof (detector_sided _ _ _ _ _ _ _ D) as S.
  apply detector_facts in D as (_ & _ & _ & _ & _ & l & W).
  destruct (step_wf mf cap s x l s' _ W H) as (_ & _ & [(_ & W')|(E & _)]); [|contradiction].
  assert (OF : forall u l, rep (N:=B64) cap u l -> oldest_first u = map Some l).
  { clear. intros u l (H1 & Hc & Hd & [(Hf & H2 & H3 & H4 & _)|(Hf & H2 & H3 & H4)]).
    - unfold oldest_first, cells, ubend_size. rewrite Hf. cbn. rewrite H2, Nat2Z.id. exact H4.
    - unfold oldest_first. rewrite Hf. cbn. exact H4. }
  unfold window. fold (win s) (win s'). rewrite (OF _ _ W), (OF _ _ W').
  assert (Ex : (if low =? 0 then b64_minus x (s_et s) else b64_opp (b64_minus x (s_et s))) =
               @nmul B64 (s_updown s) (nsub x (s_et s))).
  { destruct S as [(-> & ->)|(Hl & ->)].
    - symmetry. apply mult_1_l.
    - destruct (Z.eqb_spec low 0); [contradiction|]. symmetry. apply mult_m1_l. }
  rewrite Ex. rewrite <- (wf_lastn cap s l W) at 1.
  destruct W as (Hc & _). rewrite qpush_lastn by lia.
  change (map Some l ++ [Some ?v]) with (map Some l ++ map Some [v]). rewrite <- map_app.
  unfold last_k. rewrite map_length.
  change (skipn (length ?a - Z.to_nat cap) (map Some ?a)) with (skipn (length a - Z.to_nat cap) (map Some a)).
  pose proof (lastn_map (@Some (num B64)) (Z.to_nat cap) (l ++ [nmul (s_updown s) (nsub x (s_et s))])) as M.
  unfold lastn at 1 in M. rewrite map_length in M. rewrite <- M. reflexivity.
Qed.

Lemma C12_lemma {N} (mf : MathFns N) s xs s' rs : spot_steps mf s xs = Ret (s', rs) ->
  s_et s' = s_et s /\ s_q s' = s_q s /\ s_level s' = s_level s /\ s_low s' = s_low s /\
  s_discard s' = s_discard s /\ s_updown s' = s_updown s /\ u_capacity (window s') = u_capacity (window s) /\
  length (u_data (window s')) = length (u_data (window s)).
Proof.
  assert (UP : forall (u : ubend N) x u' e, ubend_push u x = Ret (u', e) ->
     u_capacity u' = u_capacity u /\ length (u_data u') = length (u_data u)).
  { intros u x u' e. unfold ubend_push.
    destruct (if Z.eqb (u_filled u) 0 then _ else _); cbn [bind]; [|discriminate].
    destruct (wr _ _ _) eqn:E; cbn [bind]; [|discriminate]. apply wr_length in E.
    intros H; injection H as <- _. destruct (Z.eqb _ _); auto. }
  assert (PP : forall (p : peaks N) x p', peaks_push p x = Ret p' ->
     u_capacity (p_cont p') = u_capacity (p_cont p) /\ length (u_data (p_cont p')) = length (u_data (p_cont p))).
  { intros p x p'. unfold peaks_push. destruct (ubend_push _ _) as [[c e]|] eqn:E; cbn [bind]; [|discriminate].
    apply UP in E. destruct (negb _).
    - destruct (_ || _)%bool.
      + unfold peaks_update_stats. destruct (for_lt _ _ _) as [[[[? ?] ?] ?]|]; cbn [bind]; [|discriminate].
        intros H; injection H as <-. exact E.
      + intros H; injection H as <-. exact E.
    - intros H; injection H as <-. exact E. }
  revert s rs; induction xs as [|x xs IH]; intros s rs; cbn [spot_steps].
  - intros H; injection H as <- <-. auto 10.
  - destruct (spot_step mf s x) as [[s1 r]|] eqn:E; cbn [bind]; [|discriminate].
    destruct (spot_steps mf s1 xs) as [[s2 l]|] eqn:E2; cbn [bind]; [|discriminate].
    intros H; injection H as <- <-. apply IH in E2.
    apply step_inv in E. destruct E as [Nx -> ->|? ? ? -> ->|? ? ? -> ->|t1 t2 ll a ? ? ? E1 E2' E3 -> ->]; auto.
    destruct E2 as (?&?&?&?&?&?&H7&H8). repeat (split; [assumption|]).
    unfold window in *. cbn [s_tail with_at with_tail] in *. rewrite (tail_fit_peaks mf _ _ _ E2') in H7, H8.
    unfold tail_push in E1. destruct (peaks_push _ _) as [p|] eqn:EP; cbn [bind] in E1; [|discriminate].
    injection E1 as <-. apply PP in EP as (P1 & P2). cbn [t_peaks] in *. split; congruence.
Qed.

(** ** C11 *)
Lemma u64_idem z : u64 (u64 z) = u64 z.
Proof. unfold u64. apply Z.mod_mod. lia. Qed.
Lemma u64_add a b : u64 (u64 a + b) = u64 (a + b).
Proof. unfold u64. apply Zplus_mod_idemp_l. Qed.

Lemma steps_counts {N} (mf : MathFns N) s xs s' rs : spot_steps mf s xs = Ret (s', rs) ->
  u64 (s_n s') = u64 (s_n s + count (fun r => (r =? NORMAL) || (r =? EXCESS)) rs) /\
  u64 (s_Nt s') = u64 (s_Nt s + count (fun r => r =? EXCESS) rs) /\ length rs = length xs.
Proof.
  unfold count.
  revert s rs; induction xs as [|x xs IH]; intros s rs; cbn [spot_steps].
  - intros H; injection H as <- <-. cbn. rewrite !Z.add_0_r. auto.
  - destruct (spot_step mf s x) as [[s1 r]|] eqn:E; cbn [bind]; [|discriminate].
    destruct (spot_steps mf s1 xs) as [[s2 l]|] eqn:E2; cbn [bind]; [|discriminate].
    intros H; injection H as <- <-. apply IH in E2 as (E2 & E3 & E4). rewrite E2, E3. cbn [length].
    apply step_inv in E. destruct E as [Nx -> ->|? ? ? -> ->|? ? ? -> ->|t1 t2 ll a ? ? ? E1 E2' E3' -> ->];
    cbn [s_n s_Nt with_counts with_at with_tail]; rewrite ?u64_add; split; try split; try congruence;
    try (f_equal; cbn; lia); cbn; rewrite ?u64_add; f_equal; lia.
Qed.

Lemma fit_excess_count low (s : spot B64) et data : sided low s ->
  Z.of_nat (length (fit_excesses s et data)) = count (beyond low et) data.
Proof.
  intros S. unfold fit_excesses, count. f_equal.
  induction data as [|x data IH]; [reflexivity|]. cbn [map filter].
  change (@nlt B64 (nofZ 0) (nmul (s_updown s) (nsub x et)))
    with (b64_ltb (b64_ofZ 0) (b64_mult (s_updown s) (b64_minus x et))).
  rewrite (excess_gt_0 low s et x S). destruct (beyond low et x); cbn [length]; congruence.
Qed.

Lemma filter_length_le {A} (f : A -> bool) l : (length (filter f l) <= length l)%nat.
Proof. induction l as [|a l IH]; cbn; [lia|]. destruct (f a); cbn; lia. Qed.

Lemma count_le {A} (f : A -> bool) l : 0 <= count f l <= Z.of_nat (length l).
Proof. unfold count. pose proof (filter_length_le f l). lia. Qed.

Lemma count_impl {A} (f g : A -> bool) l : (forall a, f a = true -> g a = true) -> count f l <= count g l.
Proof.
  intros H. unfold count. induction l as [|a l IH]; cbn [filter]; [lia|].
  destruct (f a) eqn:E; [rewrite (H a E); cbn [length]; lia|]. destruct (g a); cbn [length]; lia.
Qed.

Lemma C11_lemma mf q low discard level cap (s s1 s2 : spot B64) data r xs rs :
  detector mf q low discard level cap s ->
  spot_fit mf s data = Ret (s1, r) -> r = 0 ->
  spot_steps mf s1 xs = Ret (s2, rs) ->
  Z.of_nat (length data) + Z.of_nat (length xs) < 2 ^ 64 ->
  s_n s2 = Z.of_nat (length data) + count (fun c => (c =? NORMAL) || (c =? EXCESS)) rs /\
  s_Nt s2 = count (beyond low (s_et s1)) data + count (fun c => c =? EXCESS) rs /\
  s_Nt s2 <= s_n s2.
Proof.
  intros D F -> ST HL. pose proof (detector_sided _ _ _ _ _ _ _ D) as S.
  apply detector_facts in D as (_ & _ & _ & _ & _ & l & W).
  destruct (fit_wf mf cap s data l s1 0 W F) as [(E & _)|(_ & Ne & W1 & Cn & Ct & _)]; [discriminate|].
  pose proof (steps_counts mf s1 xs s2 rs ST) as (H1 & H2 & H3).
  rewrite (fit_excess_count low s _ data S) in Ct.
  assert (B1 : 0 <= count (beyond low (s_et s1)) data <= Z.of_nat (length data)) by apply count_le.
  rewrite u64_small in Ct by lia.
  assert (B2 : 0 <= count (fun c => (c =? NORMAL) || (c =? EXCESS))%bool rs <= Z.of_nat (length rs)) by apply count_le.
  assert (B3 : 0 <= count (fun c => c =? EXCESS) rs <= Z.of_nat (length rs)) by apply count_le.
  assert (B4 : count (fun c => c =? EXCESS) rs <= count (fun c => (c =? NORMAL) || (c =? EXCESS))%bool rs).
  { apply count_impl. intros a ->. apply orb_true_r. }
  (* the counters themselves stay in range *)
  assert (R : 0 <= s_n s2 < 2 ^ 64 /\ 0 <= s_Nt s2 < 2 ^ 64).
  { assert (G : forall xs s s' rs, 0 <= s_n s < 2 ^ 64 /\ 0 <= s_Nt s < 2 ^ 64 ->
       spot_steps mf s xs = Ret (s', rs) -> 0 <= s_n s' < 2 ^ 64 /\ 0 <= s_Nt s' < 2 ^ 64).
    { clear. induction xs as [|x xs IH]; intros s s' rs R; cbn [spot_steps].
      - intros H; injection H as <- <-. assumption.
      - destruct (spot_step mf s x) as [[s1 r]|] eqn:E; cbn [bind]; [|discriminate].
        destruct (spot_steps mf s1 xs) as [[s2 l]|] eqn:E2; cbn [bind]; [|discriminate].
        intros H; injection H as <- <-. apply IH in E2; [assumption|].
        apply step_inv in E. destruct E as [Nx -> ->|? ? ? -> ->|? ? ? -> ->|t1 t2 ll a ? ? ? E1 E2' E3' -> ->];
        cbn [s_n s_Nt with_counts with_at with_tail]; auto; split;
        try (unfold u64; apply Z.mod_pos_bound; lia); apply R. }
    eapply G; [|exact ST]. rewrite Cn, Ct. lia. }
  rewrite Cn in H1. rewrite Ct in H2.
  rewrite u64_small in H1 by lia. rewrite u64_small in H1 by lia.
  rewrite u64_small in H2 by lia. rewrite u64_small in H2 by lia.
  lia.
Qed.
