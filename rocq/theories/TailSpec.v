(** * TailSpec: the generalised Pareto distribution (specification vocabulary of C31, C32, C47-C49) *)
From Coq Require Import List Reals.
From Verif Require Import Num Peaks Tail Spot RNum.
Open Scope R_scope.

(** [gpd_support gamma sigma y]: the value y lies inside the support (density positive) *)
Definition gpd_support (gamma sigma y : R) : Prop := 0 < 1 + gamma * y / sigma.
(** P(Y > y) *)
Definition gpd_survival (gamma sigma y : R) : R :=
  if Req_EM_T gamma 0 then exp (- y / sigma) else Rpower (1 + gamma * y / sigma) (- / gamma).
(** density of Y at y *)
Definition gpd_density (gamma sigma y : R) : R :=
  if Req_EM_T gamma 0 then exp (- y / sigma) / sigma
  else Rpower (1 + gamma * y / sigma) (- / gamma - 1) / sigma.
(** log-likelihood of a sample *)
Definition gpd_log_likelihood (gamma sigma : R) (ys : list R) : R :=
  fold_right Rplus 0 (map (fun y => ln (gpd_density gamma sigma y)) ys).

Definition mean (ys : list R) : R := fold_right Rplus 0 ys / INR (length ys).
(** population variance *)
Definition variance (ys : list R) : R := mean (map (fun y => (y - mean ys) * (y - mean ys)) ys).

(** A detector with real (not NaN) parameters: excess threshold, direction (+1 upper tail, -1 lower tail), scale and shape,
    and at least one excess counted. *)
Definition real_detector (s : spot RNum) (et dir sigma gamma : R) : Prop :=
  s_et s = Some et /\ s_updown s = Some dir /\ (dir = 1 \/ dir = -1) /\
  t_sigma (s_tail s) = Some sigma /\ 0 < sigma /\ t_gamma (s_tail s) = Some gamma /\
  (0 < s_Nt s)%Z /\ (0 < s_n s)%Z.
(** observed frequency of the excesses *)
Definition excess_rate (s : spot RNum) : R := IZR (s_Nt s) / IZR (s_n s).
