(** * B64: the IEEE-754 binary64 instance and the bit-level functions of xmath.c *)
From Coq Require Import ZArith List Bool.
From Flocq Require Import Core.Core IEEE754.BinarySingleNaN IEEE754.Bits.
From Flocq Require IEEE754.Binary.
From Verif Require Import Num XMath.
Open Scope Z_scope.

(** [double]: one datum per IEEE-754 binary64 datum, all NaNs identified. *)
Definition b64 : Type := binary_float 53 1024.

#[global] Instance Hprec64 : FLX.Prec_gt_0 53 := eq_refl.
#[global] Instance Hmax64 : Prec_lt_emax 53 1024 := eq_refl.

Definition b64_plus (x y : b64) : b64 := Bplus mode_NE x y.
Definition b64_minus (x y : b64) : b64 := Bminus mode_NE x y.
Definition b64_mult (x y : b64) : b64 := Bmult mode_NE x y.
Definition b64_div (x y : b64) : b64 := Bdiv mode_NE x y.
Definition b64_opp (x : b64) : b64 := Bopp x.
Definition b64_ltb (x y : b64) : bool := Bltb x y.
Definition b64_leb (x y : b64) : bool := Bleb x y.
Definition b64_eqb (x y : b64) : bool := Beqb x y.
(** integer to double conversion, rounded to nearest even (C99 Annex F) *)
Definition b64_ofZ (z : Z) : b64 := binary_normalize 53 1024 Hprec64 Hmax64 mode_NE z 0 false.
Definition b64_trunc (x : b64) : option Z :=
  if BinarySingleNaN.is_finite x then Some (Btrunc x) else None.

(** Double arithmetic of C with IEC 60559 (Annex F) semantics. *)
Definition B64 : NumOps := {|
  num := b64;
  nadd := b64_plus; nsub := b64_minus; nmul := b64_mult; ndiv := b64_div;
  nopp := b64_opp;
  nlt := b64_ltb; nle := b64_leb; neq := b64_eqb;
  nofZ := b64_ofZ;
  ntrunc := b64_trunc
|}.

(** ** Object representation: the union [double_cast] of xmath.c:80-83 *)
Definition to_bits (x : b64) : Z := bits_of_b64 (Binary.BSN2B 53 1024 default_nan_pl64 x).
Definition of_bits (i : Z) : b64 := Binary.B2BSN 53 1024 (b64_of_bits i).



(** xmath.c:90-110 [musl_frexp]; [rec] is the recursive call at line 97, [e0] the previous
    content of [*e]. *)
Definition musl_frexp_body (rec : b64 -> Z -> b64 * Z) (x : b64) (e0 : Z) : b64 * Z :=
  let yi := to_bits x in
  let ee := Z.land (Z.shiftr yi 52) 0x7ff in
  if ee =? 0 then
    if negb (b64_eqb x (b64_ofZ 0)) then
      let '(m, e) := rec (b64_mult x (b64_ofZ (2 ^ 64))) e0 in
      (m, e - 64)
    else (x, 0)
  else if ee =? 0x7ff then (x, e0)
  else
    let yi := Z.lor (Z.land yi 0x800fffffffffffff) 0x3fe0000000000000 in
    (of_bits yi, ee - 0x3fe).

(** The recursion is unrolled twice: x * 2^64 is normal (theorem [musl_frexp_rec_depth]). The inner
    default is never used. *)
Definition musl_frexp (x : b64) (e0 : Z) : b64 * Z :=
  musl_frexp_body (musl_frexp_body (fun x e => (x, e))) x e0.

(** 0x1p1023, and 0x1p-1022 * 0x1p53 (constant expression of xmath.c:142, exact) *)
Definition two1023 : b64 := b64_ofZ (2 ^ 1023).
Definition twom969 : b64 :=
  b64_mult (b64_div (b64_ofZ 1) (b64_ofZ (2 ^ 1022))) (b64_ofZ (2 ^ 53)).

(** xmath.c:121-154 [musl_ldexp] *)
Definition musl_ldexp_scale (x : b64) (n : Z) : b64 * Z :=
  if 1023 <? n then
    let y := b64_mult x two1023 in
    let n := n - 1023 in
    if 1023 <? n then
      let y := b64_mult y two1023 in
      let n := n - 1023 in
      (y, if 1023 <? n then 1023 else n)
    else (y, n)
  else if n <? -1022 then
    let y := b64_mult x twom969 in
    let n := n + (1022 - 53) in
    if n <? -1022 then
      let y := b64_mult y twom969 in
      let n := n + (1022 - 53) in
      (y, if n <? -1022 then -1022 else n)
    else (y, n)
  else (x, n).

Definition musl_ldexp (x : b64) (n : Z) : b64 :=
  let '(y, n) := musl_ldexp_scale x n in
  let ui := u64 (Z.shiftl (u64 (0x3ff + n)) 52) in
  b64_mult y (of_bits ui).

(** Default function pointers, xmath.c:237-242 *)
Definition musl_utils : FloatUtils B64 :=
  Build_FloatUtils B64 musl_ldexp musl_frexp.
