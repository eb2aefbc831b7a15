(** * RNum: the exact real arithmetic instance *)
From Coq Require Import ZArith List Bool Reals.
From Flocq Require Import Core.Core.
From Verif Require Import Num XMath.
Open Scope Z_scope.

(** A real number, or [None] = "not a number" (stands for NaN and for the infinities: every
    operation on [None], and every division by zero, is [None]; comparisons with it are false). *)
Definition xr : Type := option R.

Definition xr2 (f : R -> R -> R) (x y : xr) : xr :=
  match x, y with Some a, Some b => Some (f a b) | _, _ => None end.
Definition xr_div (x y : xr) : xr :=
  match x, y with
  | Some a, Some b => if Req_bool b 0 then None else Some (a / b)%R
  | _, _ => None
  end.
Definition xr_opp (x : xr) : xr := match x with Some a => Some (- a)%R | None => None end.
Definition xrb (f : R -> R -> bool) (x y : xr) : bool :=
  match x, y with Some a, Some b => f a b | _, _ => false end.

Definition RNum : NumOps := {|
  num := xr;
  nadd := xr2 Rplus; nsub := xr2 Rminus; nmul := xr2 Rmult; ndiv := xr_div;
  nopp := xr_opp;
  nlt := xrb Rlt_bool; nle := xrb Rle_bool; neq := xrb Req_bool;
  nofZ := fun z => Some (IZR z);
  ntrunc := fun x => match x with Some a => Some (Ztrunc a) | None => None end
|}.

(** The mathematical ldexp and frexp: x * 2^n, and x = m * 2^e with 1/2 <= |m| < 1. *)
Definition R_ldexp (x : xr) (n : Z) : xr :=
  match x with Some a => Some (a * bpow radix2 n)%R | None => None end.
Definition R_frexp (x : xr) (e0 : Z) : xr * Z :=
  match x with
  | Some a =>
      if Req_bool a 0 then (Some a, 0)
      else (Some (a * bpow radix2 (- mag_val radix2 a (mag radix2 a)))%R, mag_val radix2 a (mag radix2 a))
  | None => (None, e0)
  end.
Definition R_utils : FloatUtils RNum := Build_FloatUtils RNum R_ldexp R_frexp.

(** Exact logarithm, exponential and power (a^x = exp (x ln a)) with the domain of the C functions:
    no logarithm of zero or negative numbers. *)
Definition R_log (x : xr) : xr :=
  match x with Some a => if Rlt_bool 0 a then Some (ln a) else None | None => None end.
Definition R_exp (x : xr) : xr := match x with Some a => Some (exp a) | None => None end.
Definition exact_math : MathFns RNum :=
  Build_MathFns RNum R_log (fun x => Ret (R_exp x)) (fun a x => Ret (R_exp (xr2 Rmult x (R_log a)))).
