(** * StrLemmas: proofs about the bounded string copies *)
From Coq Require Import ZArith Bool String Ascii List Lia.
From Verif Require Import Num NumFacts Spot Str.
Import ListNotations.
Open Scope Z_scope.

(** ** Statement vocabulary *)
(** What a buffer of at least [size] bytes contains after receiving [src]: the longest prefix of [src] that leaves
    room for a NUL, then NULs up to [size]; the rest of the buffer as before. *)
Definition copied (src : list Z) (size : Z) (old : list Z) : list Z :=
  firstn (Z.to_nat (size - 1)) src ++
  repeat 0 (Z.to_nat size - Nat.min (length src) (Z.to_nat (size - 1))) ++
  skipn (Z.to_nat size) old.

(** ** Proofs *)
Lemma nth_error_copied src size old i : 1 <= size <= Z.of_nat (length old) ->
  nth_error (copied src size old) i =
    (if i <? Nat.min (length src) (Z.to_nat (size - 1)) then nth_error src i
     else if i <? Z.to_nat size then Some 0%Z else nth_error old i)%nat.
Proof.
  intros H. unfold copied.
  set (k := Nat.min (length src) (Z.to_nat (size - 1))).
  assert (Lk : length (firstn (Z.to_nat (size - 1)) src) = k) by (rewrite firstn_length; lia).
  destruct (Nat.ltb_spec i k).
  - rewrite nth_error_app1 by lia. rewrite <- (firstn_skipn (Z.to_nat (size - 1)) src) at 2.
    rewrite nth_error_app1 by lia. reflexivity.
  - rewrite nth_error_app2 by lia. rewrite Lk.
    destruct (Nat.ltb_spec i (Z.to_nat size)).
    + rewrite nth_error_app1 by (rewrite repeat_length; lia). apply nth_error_repeat. lia.
    + rewrite nth_error_app2 by (rewrite repeat_length; lia). rewrite repeat_length.
      rewrite <- (firstn_skipn (Z.to_nat size) old) at 2. rewrite nth_error_app2 by (rewrite firstn_length; lia).
      f_equal. rewrite firstn_length. lia.
Qed.

Lemma copied_length src size old : 1 <= size <= Z.of_nat (length old) -> length (copied src size old) = length old.
Proof. intros H. unfold copied. rewrite !app_length, firstn_length, repeat_length, skipn_length. lia. Qed.

Lemma list_ext {A} (l m : list A) : (forall i, nth_error l i = nth_error m i) -> l = m.
Proof.
  revert m; induction l as [|a l IH]; intros [|b m] H; auto.
  - specialize (H O). discriminate.
  - specialize (H O). discriminate.
  - pose proof (H O) as H0. injection H0 as ->. f_equal. apply IH. intros i. exact (H (S i)).
Qed.

(** The copy loop started at [i]. *)
Lemma copy_loop_spec src size : Forall (fun c => c <> 0) src -> 0 <= size -> forall fuel i dst,
  (length src < i + fuel)%nat -> (i <= length src)%nat -> Z.of_nat i <= size -> size <= Z.of_nat (length dst) ->
  let k := Nat.min (length src) (Z.to_nat size) in
  exists dst', copy_loop fuel (src ++ [0]) dst size (Z.of_nat i) = Ret (dst', Z.of_nat k) /\ length dst' = length dst /\
    (forall j, nth_error dst' j = if ((i <=? j) && (j <? k))%nat then nth_error src j else nth_error dst j).
Proof.
  intros Hs Hz. induction fuel as [|fuel IH]; intros i dst Hf Hi Hiz Hd k; [lia|].
  cbn [copy_loop]. destruct (Z.ltb_spec (Z.of_nat i) size) as [Hlt|Hge].
  - destruct (rd_ok (src ++ [0]) (Z.of_nat i)) as (c & Hr & Hc); [rewrite app_length; cbn; lia|].
    rewrite Hr. cbn [bind]. rewrite Nat2Z.id in Hc.
    destruct (Nat.eq_dec i (length src)) as [->|Hne].
    + rewrite nth_error_app2, Nat.sub_diag in Hc by lia. injection Hc as <-. cbn [negb Z.eqb].
      exists dst. assert (Ek : k = length src) by lia. split; [rewrite Ek; reflexivity|]. split; [reflexivity|].
      intros j. destruct (Nat.leb_spec (length src) j); cbn [andb]; [|reflexivity].
      destruct (Nat.ltb_spec j k); [lia|reflexivity].
    + rewrite nth_error_app1 in Hc by lia. pose proof (nth_error_In _ _ Hc) as Hin.
      rewrite Forall_forall in Hs. specialize (Hs c Hin). rewrite (proj2 (Z.eqb_neq c 0) Hs). cbn [negb].
      rewrite (wr_ok dst (Z.of_nat i) c) by lia. cbn [bind]. rewrite Nat2Z.id.
      replace (Z.of_nat i + 1) with (Z.of_nat (S i)) by lia.
      destruct (IH (S i) (upd dst i c)) as (dst' & E & L & G); [lia|lia|lia|rewrite upd_length; lia|].
      exists dst'. split; [exact E|]. rewrite upd_length in L. split; [exact L|].
      intros j. rewrite G. fold k. destruct (Nat.eq_dec i j) as [<-|Hij].
      * destruct (Nat.leb_spec (S i) i); [lia|]. cbn [andb]. rewrite nth_error_upd_eq by lia.
        destruct (Nat.leb_spec i i); [|lia]. destruct (Nat.ltb_spec i k); [cbn; auto|lia].
      * rewrite nth_error_upd_neq by assumption.
        destruct (Nat.leb_spec (S i) j), (Nat.leb_spec i j); try lia; reflexivity.
  - exists dst. assert (Ek : k = i) by lia. split; [rewrite Ek; reflexivity|]. split; [reflexivity|].
    intros j. destruct (Nat.leb_spec i j); cbn [andb]; [|reflexivity].
    destruct (Nat.ltb_spec j k); [lia|reflexivity].
Qed.

Lemma zero_fill n i dst : Z.of_nat (i + n) <= Z.of_nat (length dst) ->
  exists dst', for_from n (Z.of_nat i) (fun i dst => wr dst i 0) dst = Ret dst' /\ length dst' = length dst /\
    (forall j, nth_error dst' j = if ((i <=? j) && (j <? i + n))%nat then Some 0 else nth_error dst j).
Proof.
  revert i dst. induction n as [|n IH]; intros i dst H; cbn [for_from].
  - exists dst. split; [reflexivity|]. split; [reflexivity|].
    intros j. destruct (Nat.leb_spec i j), (Nat.ltb_spec j (i + 0)); cbn [andb]; auto; lia.
  - rewrite wr_ok by lia. cbn [bind]. rewrite Nat2Z.id. replace (Z.of_nat i + 1) with (Z.of_nat (S i)) by lia.
    destruct (IH (S i) (upd dst i 0)) as (dst' & E & L & G); [rewrite upd_length; lia|].
    exists dst'. split; [exact E|]. rewrite upd_length in L. split; [exact L|].
    intros j. rewrite G. destruct (Nat.eq_dec i j) as [<-|Hij].
    + destruct (Nat.leb_spec (S i) i); [lia|]. cbn [andb]. rewrite nth_error_upd_eq by lia.
      destruct (Nat.leb_spec i i), (Nat.ltb_spec i (i + S n)); cbn [andb]; auto; lia.
    + rewrite nth_error_upd_neq by assumption.
      destruct (Nat.leb_spec (S i) j), (Nat.leb_spec i j), (Nat.ltb_spec j (S i + n)), (Nat.ltb_spec j (i + S n)); cbn [andb]; auto; lia.
Qed.

Lemma C35_copy_lemma src dst size : Forall (fun c => c <> 0) src -> 1 <= size <= Z.of_nat (length dst) -> size < 2 ^ 64 ->
  c_strncpy (Some dst) src size = Ret (Some (copied src size dst)).
Proof.
  intros Hs H H64. unfold c_strncpy.
  destruct (copy_loop_spec src size Hs ltac:(lia) (S (length src)) 0 dst) as (d1 & E1 & L1 & G1); try lia.
  cbn [Z.of_nat] in E1. rewrite E1. cbn [bind]. set (k := Nat.min (length src) (Z.to_nat size)) in *.
  destruct (zero_fill (Z.to_nat (size - Z.of_nat k)) k d1) as (d2 & E2 & L2 & G2); [lia|].
  rewrite E2. cbn [bind]. unfold u64. rewrite Z.mod_small by lia.
  rewrite wr_ok by lia. cbn [bind]. do 2 f_equal. apply list_ext. intros j.
  rewrite nth_error_copied by lia.
  destruct (Nat.eq_dec (Z.to_nat (size - 1)) j) as [e|Hne].
  - rewrite <- e. rewrite nth_error_upd_eq by lia.
    destruct (Nat.ltb_spec (Z.to_nat (size - 1)) (Nat.min (length src) (Z.to_nat (size - 1)))); [lia|].
    destruct (Nat.ltb_spec (Z.to_nat (size - 1)) (Z.to_nat size)); [reflexivity|lia].
  - rewrite nth_error_upd_neq by assumption. rewrite G2, G1.
    destruct (Nat.leb_spec k j), (Nat.ltb_spec j (k + Z.to_nat (size - Z.of_nat k))), (Nat.leb_spec 0 j), (Nat.ltb_spec j k),
      (Nat.ltb_spec j (Nat.min (length src) (Z.to_nat (size - 1)))), (Nat.ltb_spec j (Z.to_nat size)); cbn [andb]; auto; lia.
Qed.

Lemma C35_null_lemma src size : c_strncpy None src size = Ret None.
Proof. reflexivity. Qed.

Lemma C35_zero_lemma src dst : Z.of_nat (length dst) < 2 ^ 64 -> c_strncpy (Some dst) src 0 = Undef OutOfBounds.
Proof.
  intros H. unfold c_strncpy. cbn [copy_loop]. destruct (length src); cbn [copy_loop bind Z.ltb Z.compare].
  all: cbn [bind Z.sub Z.to_nat for_from Z.opp Z.add Z.pos_sub]. 
  all: rewrite wr_oob; [reflexivity|]; unfold u64; change ((-1) mod 2 ^ 64) with (2 ^ 64 - 1); lia.
Qed.
Lemma copy_loop_short src size : forall fuel i dst,
  (length src < i + fuel)%nat -> (i <= length src)%nat -> (i <= length dst)%nat -> Z.of_nat (length dst) < size ->
  copy_loop fuel (src ++ [0]) dst size (Z.of_nat i) = Undef OutOfBounds \/
  exists dst' k, copy_loop fuel (src ++ [0]) dst size (Z.of_nat i) = Ret (dst', Z.of_nat k) /\ length dst' = length dst /\
    (k <= length dst)%nat.
Proof.
  induction fuel as [|fuel IH]; intros i dst Hf Hi Hd Hs; [lia|].
  cbn [copy_loop]. destruct (Z.ltb_spec (Z.of_nat i) size) as [Hlt|Hge].
  - destruct (rd_ok (src ++ [0]) (Z.of_nat i)) as (c & Hr & Hc); [rewrite app_length; cbn; lia|].
    rewrite Hr. cbn [bind]. rewrite Nat2Z.id in Hc.
    destruct (Z.eqb_spec c 0) as [->|Hne]; cbn [negb]; [right; eauto|].
    assert (Hi' : (i < length src)%nat).
    { destruct (Nat.eq_dec i (length src)) as [->|]; [|lia]. rewrite nth_error_app2, Nat.sub_diag in Hc by lia. cbn in Hc. congruence. }
    destruct (Nat.eq_dec i (length dst)) as [->|Hnd].
    + left. rewrite wr_oob by lia. reflexivity.
    + rewrite wr_ok by lia. cbn [bind]. rewrite Nat2Z.id. replace (Z.of_nat i + 1) with (Z.of_nat (S i)) by lia.
      destruct (IH (S i) (upd dst i c)) as [E|(d & k & E & L & Hk)]; rewrite ?upd_length in *; try lia; [auto|].
      right. eauto.
  - lia.
Qed.
Lemma zero_fill_oob n i dst : (i <= length dst)%nat -> (length dst < i + n)%nat ->
  for_from n (Z.of_nat i) (fun i dst => wr dst i 0) dst = Undef OutOfBounds.
Proof.
  revert i dst. induction n as [|n IH]; intros i dst H1 H2; [lia|]. cbn [for_from].
  destruct (Nat.eq_dec i (length dst)) as [->|Hn].
  - rewrite wr_oob by lia. reflexivity.
  - rewrite wr_ok by lia. cbn [bind]. rewrite Nat2Z.id. replace (Z.of_nat i + 1) with (Z.of_nat (S i)) by lia.
    apply IH; rewrite upd_length; lia.
Qed.
(** a buffer shorter than the size given: undefined *)
Lemma C35_short_lemma src dst size : Forall (fun c => c <> 0) src ->
  Z.of_nat (length dst) < size < 2 ^ 64 -> c_strncpy (Some dst) src size = Undef OutOfBounds.
Proof.
  intros Hs H. unfold c_strncpy.
  destruct (copy_loop_short src size (S (length src)) 0 dst) as [E|(d1 & k & E & L & Hk)]; try lia; cbn [Z.of_nat] in E; rewrite E; cbn [bind].
  - reflexivity.
  - rewrite zero_fill_oob by lia. reflexivity.
Qed.

Lemma bytes_nonzero s : (forall c, In c (list_ascii_of_string s) -> c <> zero) -> Forall (fun c => c <> 0) (bytes_of s).
Proof.
  intros H. unfold bytes_of. rewrite Forall_map, Forall_forall. intros c Hc E. apply (H c Hc).
  rewrite <- (ascii_nat_embedding c). replace (nat_of_ascii c) with 0%nat by lia. reflexivity.
Qed.

Definition messages : list (Z * string) :=
  [ (1000, "Memory allocation failed");
    (1001, "The level parameter is out of bounds (it must be between 0 and 1, but close to 1)");
    (1002, "The q parameter must between 0 and 1-level");
    (1003, "The excess threshold has not been initialized");
    (1004, "The anomaly threshold has not been initialized") ]%string.

Lemma C34_lemma err msg dst size : In (err, msg) messages -> 1 <= size <= Z.of_nat (length dst) -> size < 2 ^ 64 ->
  libspot_error err (Some dst) size = Ret (Some (copied (bytes_of msg) size dst)).
Proof.
  intros H Hs H64. cbn in H.
  repeat (destruct H as [H|H]; [injection H as <- <-; apply (C35_copy_lemma _ _ _); [|assumption|assumption]|]); [..|destruct H];
  repeat constructor; discriminate.
Qed.
Lemma C34_other_lemma err buf size : (forall msg, ~ In (err, msg) messages) -> libspot_error err buf size = Ret buf.
Proof.
  intros H. unfold libspot_error.
  destruct (Z.leb_spec ERR_MEMORY_ALLOCATION_FAILED err) as [H1|]; [|reflexivity].
  destruct (Z.ltb_spec err ERR_DATA_IS_NAN) as [H2|]; [|reflexivity]. exfalso.
  unfold ERR_MEMORY_ALLOCATION_FAILED, ERR_DATA_IS_NAN in *.
  assert (E : err = 1000 \/ err = 1001 \/ err = 1002 \/ err = 1003 \/ err = 1004) by lia.
  repeat (destruct E as [->|E] || subst err); eapply H; cbn; eauto 10.
Qed.
