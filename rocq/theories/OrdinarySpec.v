(** * OrdinarySpec: windows of ordinary excesses (vocabulary of C90) *)
From Coq Require Import ZArith Reals.
From Flocq Require Import IEEE754.BinarySingleNaN.
From Verif Require Import Num Ubend Peaks B64.
Open Scope R_scope.

(** The largest excess is between 2e-8 times their number and 1e30, the smallest at least 1e-80, the computed mean not below the
    smallest, the computed standard deviation at least a thousandth of the computed mean. *)
Definition ordinary (p : peaks B64) : Prop :=
  is_finite (p_max p) = true /\ 2 / 10 ^ 8 * IZR (peaks_size p) <= B2R (p_max p : b64) <= 10 ^ 30 /\
  is_finite (p_min p) = true /\ / 10 ^ 80 <= B2R (p_min p : b64) /\
  is_finite (peaks_mean p) = true /\ B2R (p_min p : b64) <= B2R (peaks_mean p : b64) <= 10 ^ 31 /\
  is_finite (peaks_var p) = true /\ B2R (peaks_mean p : b64) * B2R (peaks_mean p : b64) <= 10 ^ 6 * B2R (peaks_var p : b64).
