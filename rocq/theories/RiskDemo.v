(** * RiskDemo: a smaller risk flags more (witness of C79) *)
From Coq Require Import ZArith List Bool Lia Reals Lra Sorting.Sorted.
From Flocq Require Import Core.Core IEEE754.BinarySingleNaN.
From Verif Require Import Num NumFacts XMath Ubend UbendFacts Session Peaks PeaksFacts Brent Estimator Tail P2 Spot SpotFacts RNum Spec B64 ExactWindow
  WindowLemmas FitEffect TailSpec ExactTail GrimshawExact StaleLemmas TranslateDemo Props_P2Exact Demo ScaleDemo OrderDemo OrderApi RiskSpec RiskLemmas.
Import ListNotations.
Open Scope Z_scope.

Definition fit_then (s : spot B64) (data xs : list b64) : option (list Z) :=
  match spot_fit cm s data with
  | Ret (s1, r0) => if r0 =? 0 then match spot_steps cm s1 xs with Ret (_, r) => Some r | Undef _ => None end else None
  | Undef _ => None
  end.
Lemma fit_then_inv s data xs r : fit_then s data xs = Some r ->
  exists s1 s2, spot_fit cm s data = Ret (s1, 0) /\ spot_steps cm s1 xs = Ret (s2, r).
Proof.
  unfold fit_then. destruct (spot_fit cm s data) as [[s1 r0]|]; [|discriminate]. destruct (Z.eqb_spec r0 0) as [->|]; [|discriminate].
  destruct (spot_steps cm s1 xs) as [[s2 r']|] eqn:E; [|discriminate]. intros H; injection H as <-. exists s1, s2. auto.
Qed.

Definition risk_batch : list b64 := map d [8; 5].
Definition risk_stream : list b64 := map d [14; 13; 18; 17].
Definition risk_init (q : b64) : spot B64 * Z := spot_init (N := B64) junk q 0 1 (dy 3 2) 3 (fun _ => Some (block 3)).

Lemma risk_witness : exists (a0 b0 a1 b1 a2 b2 : spot B64),
  risk_init (dy 3 5) = (a0, 0) /\ risk_init (dy 1 3) = (b0, 0) /\ same_but_q a0 b0 /\
  spot_fit cm a0 risk_batch = Ret (a1, 0) /\ spot_fit cm b0 risk_batch = Ret (b1, 0) /\
  spot_steps cm a1 risk_stream = Ret (a2, [EXCESS; EXCESS; ANOMALY; ANOMALY]) /\
  spot_steps cm b1 risk_stream = Ret (b2, [ANOMALY; EXCESS; EXCESS; EXCESS]).
Proof.
  assert (EA : fit_then (fst (risk_init (dy 3 5))) risk_batch risk_stream = Some [EXCESS; EXCESS; ANOMALY; ANOMALY]) by (vm_cast_no_check (eq_refl (Some [EXCESS; EXCESS; ANOMALY; ANOMALY]))).
  assert (EB : fit_then (fst (risk_init (dy 1 3))) risk_batch risk_stream = Some [ANOMALY; EXCESS; EXCESS; EXCESS]) by (vm_cast_no_check (eq_refl (Some [ANOMALY; EXCESS; EXCESS; EXCESS]))).
  apply fit_then_inv in EA. apply fit_then_inv in EB. destruct EA as (a1 & a2 & A1 & A2). destruct EB as (b1 & b2 & B1 & B2).
  exists (fst (risk_init (dy 3 5))), (fst (risk_init (dy 1 3))), a1, b1, a2, b2.
  assert (K : forall q, snd (risk_init q) = 0 -> risk_init q = (fst (risk_init q), 0)).
  { intros q H. rewrite <- H. apply surjective_pairing. }
  split; [apply K; vm_compute; reflexivity|]. split; [apply K; vm_compute; reflexivity|]. split; [|auto].
  unfold same_but_q, risk_init, spot_init.
  assert (C1 : spot_check (N := B64) (dy 3 5) (dy 3 2) = None) by (vm_compute; reflexivity).
  assert (C2 : spot_check (N := B64) (dy 1 3) (dy 3 2) = None) by (vm_compute; reflexivity).
  rewrite C1, C2. repeat split.
Qed.

Lemma risk_flags : exists (a0 b0 a1 b1 a2 b2 : spot B64) data xs ra rb,
  spot_init (N := B64) junk (dy 3 5) 0 1 (dy 3 2) 3 (fun _ => Some (block 3)) = (a0, 0) /\
  spot_init (N := B64) junk (dy 1 3) 0 1 (dy 3 2) 3 (fun _ => Some (block 3)) = (b0, 0) /\
  spot_fit (c_math musl_utils) a0 data = Ret (a1, 0) /\ spot_fit (c_math musl_utils) b0 data = Ret (b1, 0) /\
  spot_steps (c_math musl_utils) a1 xs = Ret (a2, ra) /\ spot_steps (c_math musl_utils) b1 xs = Ret (b2, rb) /\
  ra = [EXCESS; EXCESS; ANOMALY; ANOMALY] /\ rb = [ANOMALY; EXCESS; EXCESS; EXCESS].
Proof.
  destruct risk_witness as (a0 & b0 & a1 & b1 & a2 & b2 & I1 & I2 & _ & F1 & F2 & S1 & S2).
  exists a0, b0, a1, b1, a2, b2, risk_batch, risk_stream, [EXCESS; EXCESS; ANOMALY; ANOMALY], [ANOMALY; EXCESS; EXCESS; EXCESS].
  exact (conj I1 (conj I2 (conj F1 (conj F2 (conj S1 (conj S2 (conj eq_refl eq_refl))))))).
Qed.

(** the batch 1, ..., 12 (example of C78) *)
Definition docs_fit (s : spot B64) (xs : list b64) : bool :=
  match spot_fit cm s xs with Ret (s', r) => (r =? 0) && (s_Nt s' =? 9) | Undef _ => false end.
Lemma docs_fit_inv s xs : docs_fit s xs = true -> exists s', spot_fit cm s xs = Ret (s', 0) /\ s_Nt s' = 9.
Proof.
  unfold docs_fit. destruct (spot_fit cm s xs) as [[s' r]|]; [|discriminate]. intros H. apply andb_prop in H as (H1 & H2).
  apply Z.eqb_eq in H1. apply Z.eqb_eq in H2. subst r. exists s'. auto.
Qed.
Fixpoint sorted_b (l : list b64) : bool :=
  match l with [] => true | x :: l' => forallb (fun y => b64_ltb x y) l' && sorted_b l' end.
Lemma sorted_b_ok l : sorted_b l = true -> StronglySorted (fun x y : b64 => b64_ltb x y = true) l.
Proof.
  induction l as [|x l IH]; [constructor|]. cbn [sorted_b]. intros H. apply andb_prop in H as (H1 & H2). constructor; [apply IH, H2|].
  apply Forall_forall. intros y I. rewrite forallb_forall in H1. apply H1, I.
Qed.
Lemma docs_batch : exists (s s' : spot B64),
  let xs := map d (map Z.of_nat (seq 1 12)) in
  detector cm (dy 1 7) 0 1 (dy 3 2) 4 s /\ spot_fit cm s xs = Ret (s', 0) /\ StronglySorted (fun x y : b64 => b64_ltb x y = true) xs /\ s_Nt s' = 9.
Proof.
  destruct (docs_fit_inv (run (demo_init 0 1 4) []) (map d (map Z.of_nat (seq 1 12)))) as (s' & F & T); [vm_compute; reflexivity|].
  exists (run (demo_init 0 1 4) []), s'. cbv zeta. split; [apply demo_detector; vm_compute; reflexivity|]. split; [exact F|].
  split; [apply sorted_b_ok; vm_compute; reflexivity|exact T].
Qed.
