(** * RoundTripSpec: detectors with parameters of everyday size (specification vocabulary of C91) *)
From Coq Require Import ZArith Reals.
From Verif Require Import Num Spot B64 AccSpec.
Open Scope R_scope.

(** Scale between 1e-30 and 1e30, excess threshold within 1000 scales of zero, shape zero or between 1/100 and 2 in absolute
    value, risk between a millionth of the frequency of the excesses and that frequency; when the shape is negative the
    quantile keeps away from the end point of the law (1 + shape * quantile / scale >= exp (-6)). *)
Definition everyday (s : spot B64) (et sigma gamma q : R) : Prop :=
  / 10 ^ 30 <= sigma <= 10 ^ 30 /\ Rabs et <= 1000 * sigma /\ (gamma = 0 \/ 1 / 100 <= Rabs gamma <= 2) /\
  1 / 10 ^ 6 * (IZR (s_Nt s) / IZR (s_n s)) <= q <= IZR (s_Nt s) / IZR (s_n s) /\ gamma * ln (relative_risk s q) <= 6.
