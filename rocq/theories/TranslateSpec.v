(** * TranslateSpec: a change of origin of the observations (specification vocabulary of C64) *)
From Coq Require Import ZArith List Reals.
From Verif Require Import Num XMath Ubend Peaks Brent Estimator Tail P2 Spot Session RNum.
Import ListNotations.
Open Scope R_scope.

(** x + b; NaN stays NaN *)
Definition shift (b : R) (x : num RNum) : num RNum := match (x : xr) with Some a => Some (a + b) | None => None end.

(** the same detector with both thresholds moved by b *)
Definition shift_detector (b : R) (s : spot RNum) : spot RNum :=
  MkSpot (s_q s) (s_level s) (s_discard s) (s_low s) (s_updown s) (shift b (s_at s)) (shift b (s_et s)) (s_Nt s) (s_n s) (s_tail s).

(** the same call with every observation moved by b *)
Definition shift_call (b : R) (c : call RNum) : call RNum :=
  match c with
  | CFit data => CFit (map (shift b) data)
  | CStep x => CStep (shift b x)
  | CQuantile q => CQuantile q
  | CProbability z => CProbability (shift b z)
  end.

(** the expected answer: codes and probabilities are the same, quantiles are moved by b *)
Definition shift_answer (b : R) (c : call RNum) (a : answer RNum) : answer RNum :=
  match c, a with CQuantile _, ANum v => ANum (shift b v) | _, _ => a end.
Fixpoint shift_answers (b : R) (cs : list (call RNum)) (l : list (answer RNum)) : list (answer RNum) :=
  match cs, l with c :: cs', a :: l' => shift_answer b c a :: shift_answers b cs' l' | _, _ => [] end.

(** batches hold at least five numbers (none of them NaN) *)
Definition proper_call (c : call RNum) : Prop :=
  match c with CFit data => (5 <= length data)%nat /\ ~ In (None : num RNum) data | _ => True end.
