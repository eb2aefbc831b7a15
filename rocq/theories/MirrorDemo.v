(** * Concrete mirror images used in the Examples of C39 *)
From Coq Require Import ZArith List Bool.
From Flocq Require Import IEEE754.BinarySingleNaN.
From Verif Require Import Num XMath Ubend Session Peaks Brent Estimator Tail P2 Spot B64 Spec Demo DemoCheck MirrorSpec.
Import ListNotations.
Open Scope Z_scope.

Definition opposite_b (a b : b64) : bool := (is_NaN a && is_NaN b) || b64_eqb a (b64_opp b).
Lemma opposite_of a b : opposite_b a b = true -> opposite a b.
Proof. intros H. apply orb_prop in H as [H|H]; [left; apply andb_prop; assumption|right; assumption]. Qed.

Definition mirror_b (s t : spot B64) : bool :=
  same (s_updown s) (d 1) && same (s_updown t) (d (-1)) && opposite_b (s_et t) (s_et s) && opposite_b (s_at t) (s_at s) &&
  same (s_q t) (s_q s) && (s_discard t =? s_discard s) && (s_Nt t =? s_Nt s) && (s_n t =? s_n s) && same_tail (s_tail t) (s_tail s).
Lemma mirror_b_ok s t : mirror_b s t = true -> mirror s t.
Proof.
  unfold mirror_b. intros H. repeat match type of H with _ && _ = true => apply andb_prop in H; destruct H as (H & ?) end.
  repeat match goal with X : same _ _ = true |- _ => apply same_ok in X | X : same_tail _ _ = true |- _ => apply same_tail_ok in X
    | X : (_ =? _) = true |- _ => apply Z.eqb_eq in X | X : opposite_b _ _ = true |- _ => apply opposite_of in X end.
  unfold mirror. auto 12.
Qed.

(** detectors for both sides, calibrated on opposite batches *)
Definition opposite_pair (data : list b64) : spot B64 * spot B64 :=
  (run (demo_init 0 1 4) [CFit (N := B64) data], run (demo_init 1 1 4) [CFit (N := B64) (map b64_opp data)]).
Definition pair_check (a b : res (spot B64 * list (answer B64))) (P : spot B64 -> spot B64 -> bool) : bool :=
  match a, b with Ret (s, _), Ret (t, _) => mirror_b s t && P s t | _, _ => false end.
Lemma pair_ok data P :
  pair_check (session cm (demo_init 0 1 4) [CFit (N := B64) data]) (session cm (demo_init 1 1 4) [CFit (N := B64) (map b64_opp data)]) P = true ->
  let s := fst (opposite_pair data) in let t := snd (opposite_pair data) in
  detector cm (dy 1 7) 0 1 (dy 3 2) 4 s /\ detector cm (dy 1 7) 1 1 (dy 3 2) 4 t /\ mirror s t /\ P s t = true.
Proof.
  intros H. cbv zeta. unfold opposite_pair. cbn [fst snd].
  assert (D : defined (demo_init 0 1 4) [CFit (N := B64) data] = true /\ defined (demo_init 1 1 4) [CFit (N := B64) (map b64_opp data)] = true /\
    mirror_b (run (demo_init 0 1 4) [CFit (N := B64) data]) (run (demo_init 1 1 4) [CFit (N := B64) (map b64_opp data)]) = true /\
    P (run (demo_init 0 1 4) [CFit (N := B64) data]) (run (demo_init 1 1 4) [CFit (N := B64) (map b64_opp data)]) = true).
  { unfold pair_check in H. unfold defined, run. destruct (session cm (demo_init 0 1 4) _) as [[s l]|]; [|discriminate].
    destruct (session cm (demo_init 1 1 4) _) as [[t l']|]; [|discriminate]. apply andb_prop in H. destruct H. auto. }
  destruct D as (D1 & D2 & D3 & D4). split; [apply demo_detector; [reflexivity|exact D1]|]. split; [apply demo_detector; [reflexivity|exact D2]|].
  split; [apply mirror_b_ok; exact D3|exact D4].
Qed.

(** calibrated on 1,2,3 and on -1,-2,-3; they answer alike *)
Definition pair3 := opposite_pair (map d [1; 2; 3]).
Lemma pair3_facts : let up := fst pair3 in let low := snd pair3 in
  detector cm (dy 1 7) 0 1 (dy 3 2) 4 up /\ detector cm (dy 1 7) 1 1 (dy 3 2) 4 low /\ mirror up low /\
  codes up (map (@CStep B64) (map d [2; -5; 1; 100; 4])) = Some [1; 0; 1; 2; 1] /\
  codes low (map (@CStep B64) (map d [-2; 5; -1; -100; -4])) = Some [1; 0; 1; 2; 1].
Proof.
  destruct (pair_ok (map d [1; 2; 3]) (fun s t => check s (map (@CStep B64) (map d [2; -5; 1; 100; 4])) [1; 0; 1; 2; 1] (fun _ => true) &&
    check t (map (@CStep B64) (map d [-2; 5; -1; -100; -4])) [1; 0; 1; 2; 1] (fun _ => true))) as (D1 & D2 & M & P); [vm_compute; reflexivity|].
  apply andb_prop in P as (P1 & P2). apply check_ok in P1, P2. cbv zeta. split; [exact D1|]. split; [exact D2|]. split; [exact M|].
  split; [exact (proj1 (proj2 P1))|exact (proj1 (proj2 P2))].
Qed.

(** calibrated on 5,5,5,5,5 and the opposite: an observation at the threshold *)
Definition first_cells (a b : res (spot B64 * Z)) : option (option b64) * option (option b64) :=
  match a, b with Ret (s', _), Ret (t', _) => (nth_error (u_data (window s')) 0, nth_error (u_data (window t')) 0) | _, _ => (None, None) end.
Definition zeros_differ (c : option (option b64) * option (option b64)) : bool :=
  match c with (Some (Some (B754_zero false)), Some (Some (B754_zero true))) => true | _ => false end.
Lemma zeros_not_mirror (s t : spot B64) x : zeros_differ (first_cells (spot_step cm s x) (spot_step cm t (b64_opp x))) = true ->
  exists s' t' r r', spot_step cm s x = Ret (s', r) /\ spot_step cm t (b64_opp x) = Ret (t', r') /\ ~ mirror s' t'.
Proof.
  intros P. unfold first_cells in P. destruct (spot_step cm s x) as [[s' r]|]; [|discriminate].
  destruct (spot_step cm t (b64_opp x)) as [[t' r']|]; [|discriminate].
  exists s', t', r, r'. split; [reflexivity|]. split; [reflexivity|].
  intros (_ & _ & _ & _ & _ & _ & _ & _ & E). unfold window in P. rewrite E in P.
  destruct (nth_error (u_data (p_cont (t_peaks (s_tail s')))) 0) as [[[[|]|[|]| |[|] ? ? ?]|]|]; discriminate P.
Qed.
Lemma mirror_at_threshold : exists (s t : spot B64) (x : b64),
  detector cm (dy 1 7) 0 1 (dy 3 2) 4 s /\ detector cm (dy 1 7) 1 1 (dy 3 2) 4 t /\ mirror s t /\
  exists s' t' r r', spot_step cm s x = Ret (s', r) /\ spot_step cm t (b64_opp x) = Ret (t', r') /\ ~ mirror s' t'.
Proof.
  destruct (pair_ok (map d [5; 5; 5; 5; 5]) (fun s t => zeros_differ (first_cells (spot_step cm s (d 5)) (spot_step cm t (b64_opp (d 5)))))) as (D1 & D2 & M & P);
    [vm_compute; reflexivity|].
  exact (ex_intro _ _ (ex_intro _ _ (ex_intro _ _ (conj D1 (conj D2 (conj M (zeros_not_mirror _ _ _ P))))))).
Qed.

Definition asymmetric_b (a b : res (spot B64 * Z)) : bool :=
  match a, b with Ret (s, r), Ret (t, r') => (r =? 0) && (r' =? 0) && negb (opposite_b (s_et t) (s_et s)) | _, _ => false end.
(** opposite batches with exactly complementary orders (3/4 and 1/4) *)
Lemma asymmetric_ok (a b : res (spot B64 * Z)) : asymmetric_b a b = true ->
  exists s t, a = Ret (s, 0) /\ b = Ret (t, 0) /\ ~ opposite (s_et t) (s_et s).
Proof.
  unfold asymmetric_b. destruct a as [[s r]|]; [|discriminate]. destruct b as [[t r']|]; [|discriminate].
  intros H. apply andb_prop in H as (H & H3). apply andb_prop in H as (H1 & H2).
  apply Z.eqb_eq in H1, H2. subst. exists s, t. split; [reflexivity|]. split; [reflexivity|].
  intros C. apply negb_true_iff in H3.
  assert (X : opposite_b (s_et t) (s_et s) = true).
  { unfold opposite_b. destruct C as [(-> & ->)|C]; [reflexivity|]. rewrite C. apply orb_true_r. }
  congruence.
Qed.
Lemma calibration_asymmetric : exists (data : list b64) (s t : spot B64),
  spot_fit cm (demo_init 0 1 4) data = Ret (s, 0) /\ spot_fit cm (demo_init 1 1 4) (map b64_opp data) = Ret (t, 0) /\
  ~ opposite (s_et t) (s_et s).
Proof. exists demo_batch. apply asymmetric_ok. vm_compute. reflexivity. Qed.
