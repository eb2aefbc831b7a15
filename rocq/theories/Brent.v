(** * Brent: model of /repo/src/brent.c *)
From Coq Require Import ZArith List Bool.
From Verif Require Import Num XMath.
Open Scope Z_scope.
Open Scope num_scope.

Section Brent.
Context {N : NumOps}.

(** brent.c:12  BRENT_DEFAULT_EPSILON = 2.0e-8 (correctly rounded: both operands are exact) *)
Definition BRENT_DEFAULT_EPSILON : num N := #2 / #100000000.
(** brent.c:14  BRENT_ITMAX = 200 *)
Definition BRENT_ITMAX : nat := 200%nat.

(** literals 0.5 *)
Definition c_half : num N := #1 / #2.

(** brent.c:17-22 *)
Definition c_fabs (a : num N) : num N := if a <? #0 then - a else a.

(** The local variables a, b, c, d, e, fa, fb, fc of brent.c:30-40. *)
Record bst : Type := MkBst {
  b_a : num N; b_b : num N; b_c : num N; b_d : num N; b_e : num N;
  b_fa : num N; b_fb : num N; b_fc : num N
}.

(** brent.c:48,55: both strictly positive or both strictly negative *)
Definition same_sign (x y : num N) : bool :=
  (((x >? #0) && (y >? #0)) || ((x <? #0) && (y <? #0)))%bool.

(** brent.c:55-67 *)
Definition brent_rename (s : bst) : bst :=
  let s1 :=
    if same_sign (b_fb s) (b_fc s) then
      let w := b_b s - b_a s in
      MkBst (b_a s) (b_b s) (b_a s) w w (b_fa s) (b_fb s) (b_fa s)
    else s in
  if c_fabs (b_fc s1) <? c_fabs (b_fb s1) then
    MkBst (b_b s1) (b_c s1) (b_b s1) (b_d s1) (b_e s1) (b_fb s1) (b_fc s1) (b_fb s1)
  else s1.

(** brent.c:68-69 *)
Definition brent_tol1 (tol : num N) (b : num N) : num N :=
  #2 * BRENT_DEFAULT_EPSILON * c_fabs b + c_half * tol.

(** brent.c:73-102: the new (d, e) *)
Definition brent_de (tol1 xm : num N) (s : bst) : num N * num N :=
  let '(MkBst a b c d e fa fb fc) := s in
  if ((c_fabs e >=? tol1) && (c_fabs fa >? c_fabs fb))%bool then
    let sr := fb / fa in
    let '(p, q) :=
      if a ==? c then (#2 * xm * sr, #1 - sr)
      else
        let q := fa / fc in
        let r := fb / fc in
        (sr * (#2 * xm * q * (q - r) - (b - a) * (r - #1)),
         (q - #1) * (r - #1) * (sr - #1)) in
    let q := if p >? #0 then - q else q in
    let p := c_fabs p in
    let min1 := #3 * xm * q - c_fabs (tol1 * q) in
    let min2 := c_fabs (e * q) in
    if #2 * p <? (if min1 <? min2 then min1 else min2)
    then (p / q, d)
    else (xm, xm)
  else (xm, xm).

(** brent.c:105-108 *)
Definition brent_next (tol1 xm b d : num N) : num N :=
  if c_fabs d >? tol1 then b + d
  else b + (if xm >=? #0 then c_fabs tol1 else - c_fabs tol1).

Section Func.
Variable func : num N -> res (num N).

(** brent.c:54-110: the loop; [fuel] counts the remaining iterations. [None] is the exit by
    exhaustion (brent.c:111-113). *)
Fixpoint brent_loop (fuel : nat) (tol : num N) (s : bst) : res (option (num N)) :=
  match fuel with
  | O => Ret None
  | S fuel' =>
      let s := brent_rename s in
      let tol1 := brent_tol1 tol (b_b s) in
      let xm := c_half * (b_c s - b_b s) in
      if ((c_fabs xm <=? tol1) || (b_fb s ==? #0))%bool then Ret (Some (b_b s))
      else
        let '(d, e) := brent_de tol1 xm s in
        let b' := brent_next tol1 xm (b_b s) d in
        fb' <- func b' ;;
        brent_loop fuel' tol (MkBst (b_b s) b' (b_c s) d e (b_fb s) fb' (b_fc s))
  end.

(** brent.c:24-114. The result is ( *found, return value). *)
Definition brent (x1 x2 : num N) (tol : num N) : res (bool * num N) :=
  fa <- func x1 ;;
  fb <- func x2 ;;
  if same_sign fa fb then Ret (false, #0)
  else
    r <- brent_loop BRENT_ITMAX tol (MkBst x1 x2 x2 #0 #0 fa fb fb) ;;
    match r with
    | Some b => Ret (true, b)
    | None => Ret (false, #0)
    end.

End Func.
End Brent.
Arguments bst N : clear implicits.
