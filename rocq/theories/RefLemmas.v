(** * RefLemmas: reference accounting (C88) *)
From Coq Require Import ZArith List Bool Arith Lia.
From Verif Require Import Num XMath Ubend Peaks Brent Estimator Tail P2 Spot B64 Str Heap PyBinding PyRefs RefSpec.
Import ListNotations.
Local Open Scope nat_scope.

Definition occ (l : list nat) (o : nat) : nat := count_occ Nat.eq_dec l o.
Definition kids (x : option object) : list nat := match x with Some x => children (ob_body x) | None => [] end.
Definition cont (h : list (option object)) (o : nat) : nat := list_sum (map (fun x => occ (kids x) o) h).
Definition spots (h : list (option object)) : nat := length (filter (fun x => match x with Some (MkObject _ BSpot) => true | _ => false end) h).

Lemma contained_cont p o : contained p o = cont (p_objects p) o.
Proof. unfold contained, cont. f_equal. apply map_ext. intros [x|]; reflexivity. Qed.

Lemma lookup_update h o y a : lookup (update h o y) a = if Nat.eqb a o then (if Nat.ltb o (length h) then y else None) else lookup h a.
Proof.
  revert o a. induction h as [|x h IH]; intros [|o] [|a]; cbn; try reflexivity.
  - destruct (Nat.eqb a o); reflexivity.
  - unfold lookup in IH. rewrite IH. destruct (Nat.eqb a o); [|reflexivity]. change (S o <? S (length h)) with (o <? length h). reflexivity.
Qed.
Lemma lookup_lt h o x : lookup h o = Some x -> o < length h.
Proof. unfold lookup. intros H. destruct (le_lt_dec (length h) o) as [L|L]; [|exact L]. rewrite nth_overflow in H by exact L. discriminate H. Qed.
Lemma lookup_same h o x y : lookup h o = Some x -> lookup (update h o y) o = y.
Proof. intros H. rewrite lookup_update, Nat.eqb_refl. apply lookup_lt in H. apply Nat.ltb_lt in H. rewrite H. reflexivity. Qed.
Lemma lookup_other h o y a : a <> o -> lookup (update h o y) a = lookup h a.
Proof. intros H. rewrite lookup_update. apply Nat.eqb_neq in H. rewrite H. reflexivity. Qed.
Lemma length_update h o y : length (update h o y) = length h.
Proof. revert o. induction h as [|x h IH]; intros [|o]; cbn; auto. Qed.
Lemma cont_update h o x y a : lookup h o = Some x -> cont (update h o y) a + occ (kids (Some x)) a = cont h a + occ (kids y) a.
Proof.
  unfold cont. revert o. induction h as [|z h IH]; intros [|o] H; try discriminate H.
  - cbn in H. subst z. cbn. lia.
  - cbn [update map list_sum fold_right]. specialize (IH o H). change (fold_right Nat.add 0) with list_sum in *. lia.
Qed.
Lemma lookup_app h b a : lookup (h ++ [b]) a = if Nat.eqb a (length h) then b else lookup h a.
Proof.
  unfold lookup. destruct (Nat.eqb_spec a (length h)) as [->|N]; [apply nth_middle|].
  destruct (lt_dec a (length h)); [apply app_nth1; assumption|]. rewrite (nth_overflow h) by lia. apply nth_overflow. rewrite app_length. cbn. lia.
Qed.
Lemma cont_app h b a : cont (h ++ [b]) a = cont h a + occ (kids b) a.
Proof. unfold cont. rewrite map_app, list_sum_app. cbn. lia. Qed.
Lemma spots_update h o x y : lookup h o = Some x -> spots (update h o y) + spots [Some x] = spots h + spots [y].
Proof.
  unfold spots. revert o. induction h as [|z h IH]; intros [|o] H; try discriminate H.
  - cbn in H. subst z. cbn [update filter]. destruct y as [[? []]|], x as [? []]; cbn; lia.
  - specialize (IH o H). cbn [update filter] in IH |- *. destruct z as [[? []]|]; cbn [length]; lia.
Qed.
Lemma spots_app h b : spots (h ++ [b]) = spots h + spots [b].
Proof. unfold spots. rewrite filter_app, app_length. reflexivity. Qed.

(** ** Accounts: every count is the number of references *)
Definition Inv (h : list (option object)) (refs : nat -> nat) : Prop := forall o,
  match lookup h o with
  | Some x => ob_count x = Z.of_nat (refs o + cont h o) /\ (ob_body x <> BSpot -> 1 <= refs o + cont h o)
  | None => refs o + cont h o = 0
  end.
Lemma Inv_ext h f g : (forall o, f o = g o) -> Inv h f -> Inv h g.
Proof. intros E I o. specialize (I o). rewrite (E o) in I. exact I. Qed.
Lemma Inv_alive h f o : Inv h f -> 1 <= f o + cont h o -> exists x, lookup h o = Some x.
Proof. intros I H. specialize (I o). destruct (lookup h o) as [x|]; [eauto|lia]. Qed.

Lemma lookup_incref h o a : lookup (incref h o) a = match lookup h a with Some x => Some (MkObject (ob_count x + if Nat.eqb a o then 1 else 0) (ob_body x)) | None => None end.
Proof.
  unfold incref. destruct (lookup h o) as [x|] eqn:E.
  - destruct (Nat.eqb_spec a o) as [->|N].
    + rewrite (lookup_same _ _ _ _ E), E. reflexivity.
    + rewrite lookup_other by exact N. destruct (lookup h a) as [[]|]; [|reflexivity]. cbn. rewrite Z.add_0_r. reflexivity.
  - destruct (Nat.eqb_spec a o) as [->|N]; [rewrite E; reflexivity|]. destruct (lookup h a) as [[]|]; [|reflexivity]. cbn. rewrite Z.add_0_r. reflexivity.
Qed.
Lemma cont_incref h o a : cont (incref h o) a = cont h a.
Proof. unfold incref. destruct (lookup h o) as [x|] eqn:E; [|reflexivity]. pose proof (cont_update h o x (Some (MkObject (ob_count x + 1) (ob_body x))) a E) as H. cbn [kids ob_body] in H. lia. Qed.
Lemma spots_incref h o : spots (incref h o) = spots h.
Proof. unfold incref. destruct (lookup h o) as [[c b]|] eqn:E; [|reflexivity]. pose proof (spots_update h o _ (Some (MkObject (c + 1) b)) E) as H. destruct b; cbn in *; lia. Qed.
Lemma length_incref h o : length (incref h o) = length h.
Proof. unfold incref. destruct (lookup h o); [apply length_update|reflexivity]. Qed.
Lemma Inv_incref h f o : Inv h f -> 1 <= f o + cont h o -> Inv (incref h o) (fun a => f a + if Nat.eqb a o then 1 else 0).
Proof.
  intros I H a. rewrite lookup_incref, cont_incref. pose proof (I a) as Ia. destruct (lookup h a) as [x|] eqn:E; cbn [ob_count ob_body].
  - destruct Ia as (C & K). split; [rewrite C; destruct (Nat.eqb a o); lia|]. intros N. specialize (K N). lia.
  - destruct (Nat.eqb_spec a o) as [->|N]; [exfalso; lia|]. lia.
Qed.
Lemma occ_cons x l a : occ (x :: l) a = (if Nat.eqb a x then 1 else 0) + occ l a.
Proof. unfold occ. cbn. destruct (Nat.eq_dec x a) as [->|N]; [rewrite Nat.eqb_refl; reflexivity|]. destruct (Nat.eqb_spec a x); [congruence|reflexivity]. Qed.
Lemma occ_app l m a : occ (l ++ m) a = occ l a + occ m a.
Proof. apply count_occ_app. Qed.
Lemma Inv_increfs l : forall h f, Inv h f -> (forall a, In a l -> 1 <= f a + cont h a) ->
  Inv (fold_left incref l h) (fun a => f a + occ l a) /\ (forall a, cont (fold_left incref l h) a = cont h a) /\ spots (fold_left incref l h) = spots h /\ length (fold_left incref l h) = length h.
Proof.
  induction l as [|x l IH]; intros h f I H.
  - cbn. split; [|auto]. eapply Inv_ext; [|exact I]. intros. cbn. lia.
  - cbn [fold_left]. pose proof (Inv_incref h f x I (H x (or_introl eq_refl))) as I1.
    destruct (IH _ _ I1) as (J & C & S & L).
    + intros a Ha. specialize (H a (or_intror Ha)). rewrite cont_incref. destruct (Nat.eqb a x); lia.
    + split; [eapply Inv_ext; [|exact J]; intros a; cbn beta; rewrite occ_cons; lia|]. split; [intros a; rewrite C; apply cont_incref|]. rewrite S, L. split; [apply spots_incref|apply length_incref].
Qed.
Lemma fresh_zero h f : Inv h f -> f (length h) + cont h (length h) = 0.
Proof. intros I. specialize (I (length h)). unfold lookup in I. rewrite nth_overflow in I by lia. exact I. Qed.

(** allocation of [b], whose items have been counted, one reference given to somebody *)
Lemma Inv_alloc h f g b : Inv h f -> (forall a, f a = g a + occ (children b) a) ->
  Inv (h ++ [Some (MkObject 1 b)]) (fun a => g a + if Nat.eqb a (length h) then 1 else 0).
Proof.
  intros I E a. rewrite lookup_app, cont_app. cbn [kids ob_body]. pose proof (fresh_zero h f I) as Z0. destruct (Nat.eqb_spec a (length h)) as [->|N].
  - cbn [ob_count ob_body]. rewrite E in Z0. split; [|lia]. assert (g (length h) = 0 /\ cont h (length h) = 0 /\ occ (children b) (length h) = 0) as (-> & -> & ->) by lia. reflexivity.
  - specialize (I a). rewrite E in I. destruct (lookup h a) as [x|]; [|lia]. destruct I as (C & K). split; [rewrite C; lia|]. intros X. specialize (K X). lia.
Qed.

(** ** Release *)
Lemma release_inv fuel : forall h w todo f h' w', Inv h (fun a => f a + occ todo a) -> release fuel h w todo = Ret (h', w') -> Inv h' f /\ spots h' = spots h /\ length h' = length h.
Proof.
  induction fuel as [|fuel IH]; intros h w [|o todo] f h' w' I R; cbn [release] in R.
  - inversion R; subst. split; [|auto]. eapply Inv_ext; [|exact I]. intros; cbn; lia.
  - discriminate R.
  - inversion R; subst. split; [|auto]. eapply Inv_ext; [|exact I]. intros; cbn; lia.
  - destruct (lookup h o) as [x|] eqn:E.
    2: { specialize (I o). rewrite E, occ_cons, Nat.eqb_refl in I. lia. }
    pose proof (I o) as Io. rewrite E, occ_cons, Nat.eqb_refl in Io. destruct Io as (C & _). destruct (Z.eqb_spec (ob_count x) 1) as [C1|C1].
    + assert (Z0 : f o = 0 /\ occ todo o = 0 /\ cont h o = 0) by lia. destruct Z0 as (Z1 & Z2 & Z3).
      assert (G : forall h' w', release fuel (update h o None) w (children (ob_body x) ++ todo) = Ret (h', w') -> ob_body x <> BSpot -> Inv h' f /\ spots h' = spots h /\ length h' = length h).
      { intros h2 w2 R2 NS. apply (IH _ _ _ f) in R2.
        - destruct R2 as (J & S & L). split; [exact J|]. rewrite S, L, length_update. split; [|reflexivity]. pose proof (spots_update h o x None E) as U. destruct x as [c b]. destruct b; cbn in *; try lia. congruence.
        - intros a. pose proof (I a) as Ia; cbn beta in Ia. pose proof (cont_update h o x None a E) as U. cbn [kids] in U. change (occ [] a) with 0 in U. rewrite occ_cons in Ia. rewrite occ_app.
          destruct (Nat.eqb_spec a o) as [Eo|N]; [subst a|].
          + rewrite (lookup_same _ _ _ _ E). rewrite E in Ia. lia.
          + rewrite lookup_other by exact N. destruct (lookup h a) as [y|]; [|lia]. destruct Ia as (Ca & Ka). split; [rewrite Ca; lia|]. intros X. specialize (Ka X). lia. }
      destruct (ob_body x) as [| | |l|l|l|] eqn:B; try (apply G with (w' := w'); [exact R|discriminate]).
      destruct (w_step w (OFree (Z.of_nat o))) as [[w1 r1]|]; [|discriminate R]. apply (IH _ _ _ f) in R.
      * destruct R as (J & S & L). split; [exact J|]. rewrite S, L, length_update. split; [|reflexivity]. pose proof (spots_update h o x (Some (MkObject 0 BSpot)) E) as U. destruct x as [c b]. cbn in B. subst b. cbn in *. lia.
      * intros a. pose proof (I a) as Ia; cbn beta in Ia. pose proof (cont_update h o x (Some (MkObject 0 BSpot)) a E) as U. cbn [kids ob_body children] in U. rewrite B in U. cbn [children] in U. rewrite occ_cons in Ia.
        destruct (Nat.eqb_spec a o) as [Eo|N]; [subst a|].
        -- rewrite (lookup_same _ _ _ _ E). cbn [ob_count ob_body]. split; [lia|intros X; congruence].
        -- rewrite lookup_other by exact N. destruct (lookup h a) as [y|]; [|lia]. destruct Ia as (Ca & Ka). split; [rewrite Ca; lia|]. intros X. specialize (Ka X). lia.
    + apply (IH _ _ _ f) in R.
      * destruct R as (J & S & L). split; [exact J|]. rewrite S, L, length_update. split; [|reflexivity]. pose proof (spots_update h o x (Some (MkObject (ob_count x - 1) (ob_body x))) E) as U. destruct x as [c b]. destruct b; cbn in *; lia.
      * intros a. pose proof (I a) as Ia; cbn beta in Ia. pose proof (cont_update h o x (Some (MkObject (ob_count x - 1) (ob_body x))) a E) as U. cbn [kids ob_body] in U. rewrite occ_cons in Ia.
        destruct (Nat.eqb_spec a o) as [Eo|N]; [subst a|].
        -- rewrite (lookup_same _ _ _ _ E). cbn [ob_count ob_body]. split; lia.
        -- rewrite lookup_other by exact N. destruct (lookup h a) as [y|]; [|lia]. destruct Ia as (Ca & Ka). split; [rewrite Ca; lia|]. intros X. specialize (Ka X). lia.
Qed.
Lemma fuel_update h o x y : lookup h o = Some x -> list_sum (map size_of (update h o y)) + size_of (Some x) = list_sum (map size_of h) + size_of y.
Proof.
  revert o. induction h as [|z h IH]; intros [|o] H; try discriminate H.
  - cbn in H. subst z. cbn. lia.
  - cbn [update map list_sum fold_right]. specialize (IH o H). change (fold_right Nat.add 0) with list_sum in *. lia.
Qed.
(** the bound on the number of steps is never reached *)
Lemma release_fuel_ok : forall fuel h w todo, release_fuel h todo <= fuel -> (forall (w : world B64) i, w_step w (OFree i) <> Undef Diverge) -> release fuel h w todo <> Undef Diverge.
Proof.
  unfold release_fuel. induction fuel as [|fuel IH]; intros h w [|o todo] H W; cbn [release]; try discriminate.
  - cbn in H. lia.
  - cbn [length] in H. destruct (lookup h o) as [x|] eqn:E; [|apply IH; [lia|exact W]]. destruct (Z.eqb_spec (ob_count x) 1) as [C|C].
    + assert (G : release fuel (update h o None) w (children (ob_body x) ++ todo) <> Undef Diverge).
      { apply IH; [|exact W]. pose proof (fuel_update h o x None E) as U. cbn [size_of] in U. rewrite app_length. lia. }
      destruct (ob_body x) eqn:B; try exact G. pose proof (W w (Z.of_nat o)) as Wo. destruct (w_step w (OFree (Z.of_nat o))) as [[w1 r1]|u]; [|intros X; apply Wo; inversion X; reflexivity].
      apply IH; [|exact W]. pose proof (fuel_update h o x (Some (MkObject 0 BSpot)) E) as U. cbn [size_of ob_body children length] in U. lia.
    + apply IH; [|exact W]. pose proof (fuel_update h o x (Some (MkObject (ob_count x - 1) (ob_body x))) E) as U. cbn [size_of ob_body] in U. lia.
Qed.
Lemma free_converges (w : world B64) i : w_step w (OFree i) <> Undef Diverge.
Proof.
  cbn [w_step]. unfold w_free_spot, xfree. destruct (cs_data (w_inst w i)); [|discriminate]. repeat match goal with |- context [match ?e with _ => _ end] => destruct e; try discriminate end.
Qed.
Lemma decref_ok h w o : decref h w o <> Undef Diverge.
Proof. apply release_fuel_ok; [reflexivity|exact free_converges]. Qed.

(** ** The programs *)
Section Run.
Variables (mallocs : Z -> bool) (junk : list Z).
Definition refs (p : py) (leak : nat -> nat) (o : nat) : nat := occ (p_held p) o + leak o.

Lemma occ_drop o l a : In o l -> occ (drop_one o l) a + (if Nat.eqb a o then 1 else 0) = occ l a.
Proof.
  induction l as [|x l IH]; intros H; [destruct H|]. cbn [drop_one]. rewrite occ_cons. destruct (Nat.eqb_spec o x) as [->|N]; [lia|].
  rewrite occ_cons. destruct H as [H|H]; [congruence|]. specialize (IH H). lia.
Qed.
Lemma holds_in p o : holds p o = true -> In o (p_held p).
Proof. unfold holds. intros H. apply existsb_exists in H as (x & Hx & E). apply Nat.eqb_eq in E. subst. exact Hx. Qed.
Lemma holds_occ p o : holds p o = true -> 1 <= occ (p_held p) o.
Proof. intros H. apply holds_in in H. apply (count_occ_In Nat.eq_dec) in H. unfold occ. lia. Qed.
Lemma occ_in l a : 1 <= occ l a -> In a l.
Proof. intros H. apply (count_occ_In Nat.eq_dec). unfold occ in H. lia. Qed.
Lemma cont_ge h o x a : lookup h o = Some x -> occ (children (ob_body x)) a <= cont h a.
Proof. intros E. pose proof (cont_update h o x None a E) as U. cbn [kids] in U. change (occ [] a) with 0 in U. lia. Qed.
Lemma in_occ l a : In a l -> 1 <= occ l a.
Proof. intros H. apply (count_occ_In Nat.eq_dec) in H. unfold occ. lia. Qed.

Definition leaks (e : event) (o : nat) : nat := match e with Fitted s => if Nat.eqb o s then 1 else 0 | _ => 0 end.
Definition made (e : event) : nat := match e with Constructed _ | Failed _ => 1 | _ => 0 end.

Lemma op_inv p o leak p' e : Inv (p_objects p) (refs p leak) -> py_op mallocs junk p o = Ret (p', e) ->
  Inv (p_objects p') (refs p' (fun a => leak a + leaks e a)) /\ spots (p_objects p') = spots (p_objects p) + made e /\ p_type p' = (p_type p + Z.of_nat (made e))%Z.
Proof.
  intros I R. destruct p as [h hd ty w]. unfold refs in *. cbn [p_objects p_held p_type] in *.
  assert (Same : forall w2 e2, leaks e2 = (fun _ => 0) -> made e2 = 0 -> Ret (MkPy h hd ty w2, e2) = Ret (p', e) ->
    Inv (p_objects p') (fun a => occ (p_held p') a + (leak a + leaks e a)) /\ spots (p_objects p') = spots h + made e /\ p_type p' = (ty + Z.of_nat (made e))%Z).
  { intros w2 e2 L M X. inversion X; subst. rewrite M. cbn [p_objects p_held p_type]. split; [eapply Inv_ext; [|exact I]; intros a; rewrite L; cbn beta; lia|]. split; lia. }
  destruct o as [b|q low discard level me|s data|s x|s x|s x|o]; cbn [py_op p_objects p_held p_type p_world] in R.
  - assert (G : (if forallb (holds (MkPy h hd ty w)) (children b) then let '(n, h0) := alloc (fold_left incref (children b) h) b in Ret (MkPy h0 (n :: hd) ty w, Created n) else Ret (MkPy h hd ty w, Skipped)) = Ret (p', e) -> b <> BSpot ->
      Inv (p_objects p') (fun a => occ (p_held p') a + (leak a + leaks e a)) /\ spots (p_objects p') = spots h + made e /\ p_type p' = (ty + Z.of_nat (made e))%Z).
    { clear R. intros R NS. destruct (forallb _ (children b)) eqn:H; [|apply (Same w Skipped); [reflexivity|reflexivity|exact R]].
      rewrite forallb_forall in H. destruct (Inv_increfs (children b) h _ I) as (J & C & S & L).
      { intros a Ha. specialize (H a Ha). apply holds_occ in H. cbn [p_held] in H. lia. }
      unfold alloc in R. inversion R; subst. cbn [p_objects p_held p_type leaks made]. split; [|split; [|lia]].
      - eapply Inv_ext; [|apply (Inv_alloc _ _ (fun a => occ hd a + leak a) b J)]; [|intros a; reflexivity]. intros a. cbn beta. rewrite occ_cons. lia.
      - rewrite spots_app, S. destruct b; try reflexivity. congruence. }
    destruct b as [| | |l|l|l|]; try (apply G; [exact R|discriminate]). apply (Same w Skipped); [reflexivity|reflexivity|exact R].
  - unfold alloc in R. destruct (py_init _ _ _ _ _ _ _ _) as [[w1 r1]|]; cbn [bind] in R; [|discriminate R].
    pose proof (Inv_alloc h _ (fun a => occ hd a + leak a) BSpot I ltac:(intros a; cbn; lia)) as J. destruct (c_value r1) as [v|].
    + inversion R; subst. cbn [p_objects p_held p_type leaks made]. split; [|split; [rewrite spots_app; reflexivity|lia]]. eapply Inv_ext; [|exact J]. intros a. cbn beta. rewrite occ_cons. lia.
    + destruct (decref _ w1 (length h)) as [[h2 w2]|] eqn:D; [|discriminate R]. inversion R; subst. cbn [p_objects p_held p_type leaks made].
      apply (release_inv _ _ _ _ (fun a => occ hd a + (leak a + 0))) in D.
      * destruct D as (K & S & _). split; [exact K|]. split; [rewrite S, spots_app; reflexivity|lia].
      * eapply Inv_ext; [|exact J]. intros a. cbn beta. rewrite occ_cons. change (occ [] a) with 0. lia.
  - destruct (holds _ s && holds _ data && is_spot h s)%bool eqn:H; [|apply (Same w Skipped); [reflexivity|reflexivity|exact R]].
    apply andb_prop in H as (H & _). apply andb_prop in H as (_ & H). apply holds_occ in H. cbn [p_held] in H.
    unfold seq_fast in R. destruct (lookup h data) as [[c b]|] eqn:E.
    2: { destruct (py_fit _ _ _ _ _) as [[w1 r1]|]; [|discriminate R]. apply (Same w1 Called); [reflexivity|reflexivity|exact R]. }
    assert (G : forall w1, Ret (MkPy (incref h data) hd ty w1, Fitted data) = Ret (p', e) ->
      Inv (p_objects p') (fun a => occ (p_held p') a + (leak a + leaks e a)) /\ spots (p_objects p') = spots h + made e /\ p_type p' = (ty + Z.of_nat (made e))%Z).
    { intros w1 X. inversion X; subst. cbn [p_objects p_held p_type leaks made]. split; [|split; [rewrite spots_incref; lia|lia]].
      eapply Inv_ext; [|apply (Inv_incref h _ data I); lia]. intros a. cbn beta. lia. }
    destruct b as [x|z| |l|l|l|]; unfold alloc in R; destruct (py_fit _ _ _ _ _) as [[w1 r1]|]; cbn [bind] in R; try discriminate R;
      try (apply (Same w1 Called); [reflexivity|reflexivity|exact R]); try (apply (G w1); exact R).
    inversion R; subst. cbn [p_objects p_held p_type leaks made].
    destruct (Inv_increfs l h _ I) as (J & C & S & L).
    { intros a Ha. pose proof (cont_ge h data _ a E) as K. cbn [ob_body children] in K. apply in_occ in Ha. lia. }
    split; [|split; [rewrite spots_app, S; cbn; lia|lia]].
    eapply Inv_ext; [|apply (Inv_alloc _ _ (fun a => occ hd a + leak a) (BList l) J)]; [|intros a; reflexivity]. intros a. cbn beta. lia.
  - destruct (_ && _ && _)%bool; [|apply (Same w Skipped); [reflexivity|reflexivity|exact R]]. unfold call in R. destruct (py_step _ _ _) as [[w1 r1]|]; [|discriminate R]. apply (Same w1 Called); [reflexivity|reflexivity|exact R].
  - destruct (_ && _ && _)%bool; [|apply (Same w Skipped); [reflexivity|reflexivity|exact R]]. unfold call in R. destruct (py_quantile _ _ _) as [[w1 r1]|]; [|discriminate R]. apply (Same w1 Called); [reflexivity|reflexivity|exact R].
  - destruct (_ && _ && _)%bool; [|apply (Same w Skipped); [reflexivity|reflexivity|exact R]]. unfold call in R. destruct (py_probability _ _ _) as [[w1 r1]|]; [|discriminate R]. apply (Same w1 Called); [reflexivity|reflexivity|exact R].
  - destruct (holds _ o) eqn:H; [|apply (Same w Skipped); [reflexivity|reflexivity|exact R]]. apply holds_in in H. cbn [p_held] in H.
    destruct (decref h w o) as [[h2 w2]|] eqn:D; [|discriminate R]. inversion R; subst. cbn [p_objects p_held p_type leaks made].
    apply (release_inv _ _ _ _ (fun a => occ (drop_one o hd) a + (leak a + 0))) in D.
    + destruct D as (K & S & _). split; [exact K|]. split; [rewrite S; lia|lia].
    + eapply Inv_ext; [|exact I]. intros a. cbn beta. pose proof (occ_drop o hd a H). rewrite occ_cons. change (occ [] a) with 0. lia.
Qed.

Lemma run_inv os : forall p leak p' tr, Inv (p_objects p) (refs p leak) -> py_run mallocs junk p os = Ret (p', tr) ->
  Inv (p_objects p') (refs p' (fun a => leak a + fits tr a)) /\ spots (p_objects p') = spots (p_objects p) + detectors tr /\ p_type p' = (p_type p + Z.of_nat (detectors tr))%Z.
Proof.
  induction os as [|o os IH]; intros p leak p' tr I R; cbn [py_run] in R.
  - inversion R; subst. unfold fits, detectors. cbn. split; [eapply Inv_ext; [|exact I]; intros; unfold refs; lia|]. split; lia.
  - destruct (py_op mallocs junk p o) as [[p1 e]|] eqn:E; cbn [bind] in R; [|discriminate R]. destruct (py_run mallocs junk p1 os) as [[p2 es]|] eqn:E2; cbn [bind] in R; [|discriminate R]. inversion R; subst.
    destruct (op_inv _ _ _ _ _ I E) as (I1 & S1 & T1). destruct (IH _ _ _ _ I1 E2) as (I2 & S2 & T2).
    split; [|rewrite S2, S1, T2, T1; unfold detectors; cbn [filter]; destruct e; cbn; lia].
    eapply Inv_ext; [|exact I2]. intros a. unfold refs. f_equal. unfold fits. cbn [filter]. destruct e; cbn [leaks length]; try lia. rewrite (Nat.eqb_sym a). destruct (Nat.eqb s a); cbn; lia.
Qed.

Lemma accounting w os p tr : py_run mallocs junk (py_start w) os = Ret (p, tr) -> forall o,
  match object_of p o with
  | Some x => ob_count x = Z.of_nat (held p o + contained p o + fits tr o) /\ (ob_body x <> BSpot -> 1 <= held p o + contained p o + fits tr o)
  | None => held p o = 0 /\ contained p o = 0 /\ fits tr o = 0
  end.
Proof.
  intros R o. assert (I0 : Inv (p_objects (py_start w)) (refs (py_start w) (fun _ => 0))). { intros a. destruct a; reflexivity. }
  destruct (run_inv os _ _ _ _ I0 R) as (I & _). specialize (I o). unfold object_of, held. rewrite contained_cont. unfold refs, lookup, occ in I. destruct (nth o (p_objects p) None) as [x|]; [|lia].
  destruct I as (C & K). split; [rewrite C; lia|]. intros X. specialize (K X). lia.
Qed.
Lemma detectors_stay w os p tr : py_run mallocs junk (py_start w) os = Ret (p, tr) ->
  detector_blocks p = detectors tr /\ p_type p = (p_type (py_start w) + Z.of_nat (detectors tr))%Z.
Proof.
  intros R. assert (I0 : Inv (p_objects (py_start w)) (refs (py_start w) (fun _ => 0))). { intros a. destruct a; reflexivity. }
  destruct (run_inv os _ _ _ _ I0 R) as (_ & S & T). split; [exact S|exact T].
Qed.
End Run.

(** ** Forms used in Props_Refs.v *)
Lemma fitted_stays mallocs junk w os p tr o : py_run mallocs junk (py_start w) os = Ret (p, tr) -> 1 <= fits tr o ->
  exists x, object_of p o = Some x /\ (Z.of_nat (fits tr o) <= ob_count x)%Z.
Proof.
  intros R F. pose proof (accounting mallocs junk w os p tr R o) as A. destruct (object_of p o) as [x|].
  - exists x. split; [reflexivity|]. destruct A as [-> _]. lia.
  - lia.
Qed.
Lemma only_fits_keep mallocs junk w os p tr o x : py_run mallocs junk (py_start w) os = Ret (p, tr) ->
  object_of p o = Some x -> ob_body x <> BSpot -> held p o = 0 -> contained p o = 0 -> 1 <= fits tr o.
Proof.
  intros R E B H1 H2. pose proof (accounting mallocs junk w os p tr R o) as A. rewrite E in A. destruct A as [_ A]. specialize (A B). lia.
Qed.
