(** * DemoCheck: several facts about one run of the demonstration detectors, computed once *)
From Coq Require Import ZArith List Bool Lia.
From Flocq Require Import IEEE754.BinarySingleNaN.
From Verif Require Import Num XMath Ubend Session Peaks Brent Estimator Tail P2 Spot B64 Spec Demo.
Import ListNotations.
Open Scope Z_scope.

Definition show_answer (a : answer B64) : Z := match a with ACode c => c | ANum _ => 7 end.
Definition check (s : spot B64) (cs : list (call B64)) (cds : list Z) (P : spot B64 -> bool) : bool :=
  match session cm s cs with
  | Ret (s', l) => (if list_eq_dec Z.eq_dec (map show_answer l) cds then true else false) && P s'
  | Undef _ => false
  end.
Lemma check_ok s cs cds P : check s cs cds P = true ->
  session cm s cs = Ret (run s cs, match session cm s cs with Ret (_, l) => l | Undef _ => [] end) /\ codes s cs = Some cds /\ P (run s cs) = true.
Proof.
  unfold check, codes, run. destruct (session cm s cs) as [[s' l]|]; [|discriminate]. intros H. apply andb_prop in H as (H1 & H2).
  change (fun a : answer B64 => match a with ACode c => c | ANum _ => 7 end) with show_answer.
  destruct (list_eq_dec Z.eq_dec (map show_answer l) cds) as [->|]; [|discriminate]. auto.
Qed.
Lemma check_defined s cs cds P : check s cs cds P = true -> defined s cs = true.
Proof. unfold check, defined. destruct (session cm s cs) as [[s' l]|]; [reflexivity|discriminate]. Qed.
Lemma codes_app s cs cs' cds cds' : codes s cs = Some cds -> codes (run s cs) cs' = Some cds' -> codes s (cs ++ cs') = Some (cds ++ cds').
Proof.
  revert s cds. induction cs as [|c cs IH]; intros s cds.
  - unfold codes at 1. cbn [session map]. intros H; injection H as <-. unfold run. cbn [session app]. auto.
  - unfold codes at 1, run. cbn [session app]. destruct (do_call cm s c) as [[s1 a]|] eqn:E; cbn [bind]; [|discriminate].
    destruct (session cm s1 cs) as [[s2 l]|] eqn:E2; cbn [bind]; [|discriminate]. cbn [map]. intros H; injection H as <-. intros H2.
    specialize (IH s1 (map (fun a => match a with ACode c => c | ANum _ => 7 end) l)).
    unfold codes at 1, run in IH. rewrite E2 in IH. specialize (IH eq_refl H2). revert IH. unfold codes. cbn [session]. rewrite E. cbn [bind].
    destruct (session cm s1 (cs ++ cs')) as [[s3 l3]|]; cbn [bind]; [|discriminate]. cbn [map]. intros H; injection H as ->. reflexivity.
Qed.

(** ** Equality of doubles, windows and tails as booleans *)
Definition same (x y : b64) : bool :=
  match x, y with
  | B754_zero s, B754_zero s' => Bool.eqb s s'
  | B754_infinity s, B754_infinity s' => Bool.eqb s s'
  | B754_nan, B754_nan => true
  | B754_finite s m e _, B754_finite s' m' e' _ => Bool.eqb s s' && Pos.eqb m m' && Z.eqb e e'
  | _, _ => false
  end.
Lemma same_ok x y : same x y = true -> x = y.
Proof.
  intros H. apply B2SF_inj. destruct x as [s|s| |s m e ?], y as [s'|s'| |s' m' e' ?]; try discriminate H; cbn [same] in H; cbn [B2SF].
  - apply eqb_prop in H. congruence.
  - apply eqb_prop in H. congruence.
  - reflexivity.
  - apply andb_prop in H as (H & H3). apply andb_prop in H as (H1 & H2). apply eqb_prop in H1. apply Pos.eqb_eq in H2. apply Z.eqb_eq in H3. congruence.
Qed.
Definition same_cell (x y : option b64) : bool := match x, y with Some x, Some y => same x y | None, None => true | _, _ => false end.
Fixpoint same_cells (l l' : list (option b64)) : bool :=
  match l, l' with [], [] => true | x :: l, y :: l' => same_cell x y && same_cells l l' | _, _ => false end.
Lemma same_cells_ok l l' : same_cells l l' = true -> l = l'.
Proof.
  revert l'. induction l as [|x l IH]; intros [|y l'] H; try discriminate; [reflexivity|]. cbn [same_cells] in H. apply andb_prop in H as (H1 & H2).
  f_equal; [|apply IH; exact H2]. destruct x, y; try discriminate; [|reflexivity]. f_equal. apply same_ok. exact H1.
Qed.
Definition same_tail (t t' : tail B64) : bool :=
  let p := t_peaks t in let u := p_cont p in let p' := t_peaks t' in let u' := p_cont p' in
  same (t_gamma t) (t_gamma t') && same (t_sigma t) (t_sigma t') && same (p_e p) (p_e p') && same (p_e2 p) (p_e2 p') &&
  same (p_min p) (p_min p') && same (p_max p) (p_max p') && same (u_last u) (u_last u') &&
  (u_cursor u =? u_cursor u') && (u_capacity u =? u_capacity u') && (u_filled u =? u_filled u') && same_cells (u_data u) (u_data u').
Lemma same_tail_ok t t' : same_tail t t' = true -> t = t'.
Proof.
  destruct t as [g s [e e2 mn mx [c k u f l]]], t' as [g' s' [e' e2' mn' mx' [c' k' u' f' l']]].
  unfold same_tail. cbn [t_gamma t_sigma t_peaks p_e p_e2 p_min p_max p_cont u_last u_cursor u_capacity u_filled u_data].
  intros H. repeat match type of H with _ && _ = true => apply andb_prop in H; destruct H as (H & ?) end.
  repeat match goal with X : same _ _ = true |- _ => apply same_ok in X | X : same_cells _ _ = true |- _ => apply same_cells_ok in X
    | X : (_ =? _) = true |- _ => apply Z.eqb_eq in X end. subst. reflexivity.
Qed.
