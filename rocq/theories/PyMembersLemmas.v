(** * PyMembersLemmas: proofs about the member descriptors and raw() *)
From stdpp Require Import gmap.
From Coq Require Import ZArith List Bool String Lia.
From Verif Require Import Num XMath Ubend Peaks Brent Estimator Tail P2 Spot B64 Session Spec Heap HeapSpec Layout JsBinding JsLemmas PyBinding PyMembers MemberSpec.
Open Scope Z_scope.

Lemma le_value_bytes n : forall v, le_value (le_bytes n v) = v mod 256 ^ Z.of_nat n.
Proof.
  induction n as [|n IH]; intros v; [cbn; rewrite Z.mod_1_r; reflexivity|].
  cbn [le_bytes le_value]. rewrite IH, Nat2Z.inj_succ, Z.pow_succ_r by lia.
  rewrite Z.rem_mul_r; [|lia|apply Z.pow_pos_nonneg; lia]. reflexivity.
Qed.
Lemma stored_float m ptr s a path x o : stored lp64 m ptr s a -> In (path, VDouble x) (spot_fields s a) ->
  locate lp64 0 c_Spot path = Some (o, CDouble) -> read_member m (ptr + o) T_DOUBLE = DFloat x.
Proof.
  intros H I L. apply H in I as (o' & t & L' & B). rewrite L in L'. injection L' as <- <-.
  cbn [repr] in B. rewrite le_bytes_length in B. cbn [read_member]. rewrite B, le_value_bytes.
  rewrite Z.mod_small by apply to_bits_range. rewrite of_to_bits. reflexivity.
Qed.
Lemma stored_ulong m ptr s a path z o : stored lp64 m ptr s a -> In (path, VULong z) (spot_fields s a) ->
  locate lp64 0 c_Spot path = Some (o, CULong) -> read_member m (ptr + o) T_ULONG = DInt (z mod 2 ^ 64).
Proof.
  intros H I L. apply H in I as (o' & t & L' & B). rewrite L in L'. injection L' as <- <-.
  cbn [repr] in B. rewrite le_bytes_length in B. cbn [read_member]. rewrite B, le_value_bytes. reflexivity.
Qed.

Lemma getattr_at m obj name k path o : find (fun e => String.eqb (fst e) name) Spot_members = Some (name, (k, path)) ->
  (exists t, locate lp64 0 c_PySpot path = Some (o, t)) -> py_getattr m obj name = Some (read_member m (obj + o) k).
Proof. intros H (t & L). unfold py_getattr. rewrite H, L. reflexivity. Qed.
Lemma members_lemma m obj s a : stored lp64 m (obj + 16) s a ->
  forall name v, In (name, v) (member_values s) -> py_getattr m obj name = Some v.
Proof.
  intros H name v I. cbn [member_values In] in I.
  repeat (destruct I as [I|I];
    [injection I as <- <-;
     (erewrite getattr_at; [|reflexivity|eexists; reflexivity]); f_equal;
     match goal with |- read_member _ (_ + ?o) _ = _ => replace (obj + o) with (obj + 16 + (o - 16)) by lia end;
     first [ eapply stored_float; [exact H|cbn; solve [eauto 30]|reflexivity]
           | eapply stored_ulong; [exact H|cbn; solve [eauto 30]|reflexivity] ]|]).
  destruct I.
Qed.
Lemma members_only m obj name : ~ In name (map fst Spot_members) -> py_getattr m obj name = None.
Proof.
  intros H. unfold py_getattr.
  destruct (find (fun e => String.eqb (fst e) name) Spot_members) as [[n' [k path]]|] eqn:E; [|reflexivity].
  apply find_some in E as (I & E). apply String.eqb_eq in E. cbn in E. subst n'.
  exfalso. apply H. apply (in_map fst) in I. exact I.
Qed.

(** ** raw *)
Lemma nth_firstn_lt {A} (d : A) : forall j k l, (j < k)%nat -> nth j (firstn k l) d = nth j l d.
Proof.
  induction j as [|j IH]; intros [|k] [|x l] H; try lia; try reflexivity. cbn. apply IH. lia.
Qed.
Lemma nth_skipn {A} (d : A) : forall o j l, nth j (skipn o l) d = nth (o + j) l d.
Proof. induction o as [|o IH]; intros j [|x l]; cbn; try reflexivity; [destruct j; reflexivity|apply IH]. Qed.
Lemma firstn_skipn_map_seq {A} (f : nat -> A) n o k : (o + k <= n)%nat ->
  firstn k (skipn o (map f (seq 0 n))) = map (fun j => f (o + j)%nat) (seq 0 k).
Proof.
  intros H. apply (nth_ext _ _ (f 0%nat) (f (o + 0)%nat)).
  { rewrite firstn_length, skipn_length, !map_length, !seq_length. lia. }
  intros j Hj. rewrite firstn_length, skipn_length, map_length, seq_length in Hj.
  rewrite nth_firstn_lt by lia. rewrite nth_skipn, map_nth, (map_nth (fun j => f (o + j)%nat)), !seq_nth by lia. reflexivity.
Qed.
Lemma raw_eq m obj : py_raw m obj = bytes m (obj + 16) 152.
Proof. reflexivity. Qed.
Lemma raw_lemma m obj s a : stored lp64 m (obj + 16) s a ->
  forall path v, In (path, v) (spot_fields s a) ->
    exists o t, locate lp64 0 c_Spot path = Some (o, t) /\
      firstn (List.length (repr lp64 v)) (skipn (Z.to_nat o) (py_raw m obj)) = repr lp64 v.
Proof.
  intros H path v I. destruct (H path v I) as (o & t & L & B). exists o, t. split; [exact L|].
  rewrite <- B at 2. rewrite raw_eq. unfold bytes.
  assert (R : 0 <= o /\ o + Z.of_nat (List.length (repr lp64 v)) <= 152).
  { clear B H. cbn [spot_fields In] in I.
    repeat (destruct I as [I|I];
      [injection I as <- <-; vm_compute in L; injection L as <- <-; cbn [repr]; rewrite le_bytes_length; vm_compute; split; discriminate|]).
    destruct I. }
  rewrite firstn_skipn_map_seq by lia. apply map_ext. intros k. f_equal. lia.
Qed.
Lemma raw_length m obj : List.length (py_raw m obj) = 152%nat.
Proof. rewrite raw_eq. unfold bytes. rewrite map_length, seq_length. reflexivity. Qed.

Lemma raw_no_window m ptr s a d : stored lp64 m ptr s a -> stored lp64 m ptr (with_cells s d) a.
Proof. intros H path v I. apply (H path v). exact I. Qed.

(** ** Agreement with as_dict *)
Lemma dict_lemma m obj (w : world B64) i a dict : stored lp64 m (obj + 16) (detector_state w i) a ->
  0 <= s_Nt (detector_state w i) < 2 ^ 64 -> 0 <= s_n (detector_state w i) < 2 ^ 64 -> py_as_dict w i = Ret dict ->
  forall name key, In (name, key) same_member ->
  exists v, py_getattr m obj name = Some v /\ In (key, v) dict.
Proof.
  intros H R1 R2 E name key I. unfold py_as_dict in E. fold (detector_state w i) in E. cbn zeta in E.
  destruct (to_python_list _ _) as [l|x]; [|discriminate E]. injection E as <-.
  pose proof (members_lemma m obj (detector_state w i) a H) as M. unfold member_values in M. rewrite !Z.mod_small in M by assumption.
  cbn [same_member In] in I.
  repeat (destruct I as [I|I]; [injection I as <- <-; eexists; split; [apply M; cbn; auto 20|cbn; auto 20]|]).
  destruct I.
Qed.

(** ** Every detector has an image *)
(* 4 bytes of padding before the last member, the pointer *)
Definition py_cells (s : spot B64) (a : Z) : list Z :=
  repeat 0 16 ++ List.concat (map (fun f => repr lp64 (snd f)) (firstn 19 (spot_fields s a))) ++ repeat 0 4 ++ repr lp64 (VPtr a).
Definition py_image (obj : Z) (s : spot B64) (a : Z) : memory := fun z => nth (Z.to_nat (z - obj)) (py_cells s a) 0.
Lemma bytes_py_image obj s a o n : 0 <= o -> bytes (py_image obj s a) (obj + 16 + o) n =
  map (fun k => nth (16 + Z.to_nat o + k) (py_cells s a) 0) (seq 0 n).
Proof. intros H. unfold bytes. apply map_ext. intros k. unfold py_image. f_equal. lia. Qed.
Lemma py_image_stored obj s a : stored lp64 (py_image obj s a) (obj + 16) s a.
Proof.
  intros path v I. cbn [spot_fields In] in I.
  repeat (destruct I as [I|I];
    [injection I as <- <-; eexists _, _; (split; [reflexivity|]); rewrite bytes_py_image by (vm_compute; discriminate); unfold py_cells, spot_fields;
     cbn [firstn map snd]; unfold repr; cbn -[Z.div Z.modulo to_bits Z.pow]; reflexivity|]).
  destruct I.
Qed.
