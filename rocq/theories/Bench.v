(** * Bench: model of the programs of /repo/benchmark *)
From Coq Require Import ZArith List Bool.
From Flocq Require Import Core.Core IEEE754.BinarySingleNaN.
From Verif Require Import Num XMath B64 P2.
Import ListNotations.
Open Scope Z_scope.
Open Scope num_scope.

(** ** The union of pow_accuracy_speed.c:16-23 (the same in the four other programs)

    The bit fields are allocated from the low bit (every supported compiler). As everywhere in the
    model all NaNs are one datum: [sig_field] of a NaN is the significand of the default NaN. *)
Definition sig_field (x : b64) : Z := Z.land (to_bits x) 0xfffffffffffff.
Definition expo_field (x : b64) : Z := Z.land (Z.shiftr (to_bits x) 52) 0x7ff.
(** assignment to [bits.exponent]: the value is reduced modulo 2^11 *)
Definition set_exp (x : b64) (e : Z) : b64 :=
  of_bits (Z.lor (Z.land (to_bits x) 0x800fffffffffffff) (Z.shiftl (e mod 2 ^ 11) 52)).

(** ** Logarithm *)

(** log_cf_accuracy.c:37-45 [K]; [n] = d - m *)
Fixpoint log_K {N : NumOps} (n : nat) (x : num N) (m : Z) : num N :=
  match n with
  | O => #0
  | S n' =>
      let md := nofZ m in
      let a := - md * md in
      let b := md + md + #1 in
      a * x * x / (b * (#2 + x) + log_K n' x (m + 1)%Z)
  end.

(** log_cf_accuracy.c:47-50 [log_cf], for a depth d >= 1 *)
Definition log_cf {N : NumOps} (d : nat) (x : num N) : num N :=
  let z := x - #1 in
  #2 * z / (#2 + z + log_K (d - 1) z 1).

(** pow_accuracy_speed.c:119-132 [_log] (log_cf_speed.c:71-84 is the same), and with [cf] = [log_cf d]
    log_cf_accuracy.c:52-65. [_log_cf_11] (pow_accuracy_speed.c:52-89, log_cf_speed.c:32-69) is the
    text of the library function. *)
Definition bench_log (cf : b64 -> b64) (x : b64) : b64 :=
  let e := expo_field x in
  if (e =? 1022)%Z || (e =? 1023)%Z then cf x
  else b64_plus (cf (set_exp x 1023)) (b64_mult (b64_minus (b64_ofZ e) (b64_ofZ 1023)) (LOG2 (N := B64))).

(** ** Exponential *)

(** exp_cf_accuracy.c:36-43 [K]; [n] = d - m *)
Fixpoint exp_K {N : NumOps} (n : nat) (z2 : num N) (m : Z) : num N :=
  match n with
  | O => #0
  | S n' =>
      let mm := nofZ (2 * m) in
      let a := #1 / (#4 * (mm - #1) * (mm + #1)) in
      z2 * a / (#1 + exp_K n' z2 (m + 1)%Z)
  end.

(** exp_cf_accuracy.c:45-48 [exp_cf], for a depth d >= 1 *)
Definition exp_cf {N : NumOps} (d : nat) (z : num N) : num N :=
  let z2 := z * z in
  #1 + #2 * z / (#2 - z + #2 * exp_K (d - 1) z2 1).

(** exp_cf_speed.c:32-41 [_exp_cf_6] *)
Definition exp_cf_6_speed {N : NumOps} (z : num N) : num N :=
  let z2 := z * z in
  #2 * z /
    (#2 * z2 / (#12 * z2 / (z2 * (z2 + #396) / (#6 * (z2 + #154)) + #60) + #12) - z + #2)
  + #1.

(** conversion to unsigned long long (pow_accuracy_speed.c:109) *)
Definition to_uint64 (x : b64) : res Z :=
  match b64_trunc x with
  | Some k => if (Z.leb 0 k && Z.ltb k (2 ^ 64))%bool then Ret k else Undef CastRange
  | None => Undef CastRange
  end.

(** pow_accuracy_speed.c:104-117 [_exp]; [rec] is the recursive call of line 106. [_exp_cf_6]
    (pow_accuracy_speed.c:91-102) is the text of the library function. *)
Definition bench_exp_body (rec : b64 -> res b64) (x : b64) : res b64 :=
  if b64_ltb x (b64_ofZ 0) then (y <- rec (b64_opp x) ;; Ret (b64_div (b64_ofZ 1) y))
  else if b64_ltb (LOG2 (N := B64)) x then
    (k <- to_uint64 (b64_div x (LOG2 (N := B64))) ;;
     let r := b64_minus x (b64_mult (LOG2 (N := B64)) (b64_ofZ k)) in
     let w := exp_cf_6 (N := B64) r in
     Ret (set_exp w (expo_field w + k)%Z))
  else Ret (exp_cf_6 (N := B64) x).
Definition bench_exp (x : b64) : res b64 :=
  bench_exp_body (bench_exp_body (fun _ => Undef Diverge)) x.

(** pow_accuracy_speed.c:134 [_pow] *)
Definition bench_pow (x alpha : b64) : res b64 :=
  bench_exp (b64_mult alpha (bench_log (log_cf_11 (N := B64)) x)).

(** ** The accuracy loop

    pow_accuracy_speed.c:165-195, log_cf_accuracy.c:85-115, exp_cf_accuracy.c:87-117: one step for
    the value [ref] of the C library and the value [app] of the approximation. The two fields that
    hold the abscissa of the maximum are left out (they are never printed), so are the grid and the
    C library: the loop receives the list of the pairs. *)
Definition bench_err : Type := Z * b64.
Definition accuracy_step (e : bench_err) (ref app : b64) : bench_err :=
  let '(es, er) := e in
  let s := sig_field ref in
  let t := sig_field app in
  let ds := (if t <=? s then s - t else t - s)%Z in
  let es := (if es <? ds then ds else es)%Z in
  let er := if negb (b64_eqb ref (b64_ofZ 0)) then
              let r := b64_div (b64_minus app ref) ref in
              if b64_ltb er r then r else er
            else er in
  (es, er).
Definition accuracy_loop (l : list (b64 * b64)) : bench_err :=
  fold_left (fun e p => accuracy_step e (fst p) (snd p)) l (0%Z, b64_ofZ 0).

(** ** P2 *)

(** benchmark/p2.c:44-93 [sort5]: every comparison is [>] *)
Definition cell_gt {N : NumOps} (a : list (num N)) (i j : Z) : res bool :=
  x <- rd a i ;;
  y <- rd a j ;;
  Ret (x >? y).
Definition bench_sort5 {N : NumOps} (a : list (num N)) : res (list (num N)) :=
  b <- cell_gt a 1 0 ;;
  a <- (if b then swap a 0 1 else Ret a) ;;
  b <- cell_gt a 3 2 ;;
  a <- (if b then swap a 3 2 else Ret a) ;;
  b <- cell_gt a 0 2 ;;
  a <- (if b : bool then
          (a <- swap a 1 2 ;; swap a 2 3)
        else
          (a <- swap a 1 2 ;; swap a 0 1)) ;;
  b <- cell_gt a 4 1 ;;
  a <- (if b : bool then
          (b <- cell_gt a 4 0 ;;
           if b : bool then
             (a <- swap a 4 3 ;; a <- swap a 3 2 ;; a <- swap a 2 1 ;; swap a 1 0)
           else
             (a <- swap a 4 3 ;; a <- swap a 3 2 ;; swap a 2 1))
        else
          (b <- cell_gt a 4 2 ;;
           if b : bool then (a <- swap a 4 3 ;; swap a 3 2)
           else swap a 4 3)) ;;
  b <- cell_gt a 4 2 ;;
  if b : bool then
    (b <- cell_gt a 4 1 ;;
     if b : bool then
       (a <- swap a 4 3 ;; a <- swap a 3 2 ;; swap a 2 1)
     else
       (a <- swap a 4 3 ;; swap a 3 2))
  else
    (b <- cell_gt a 4 3 ;;
     if b : bool then swap a 4 3 else Ret a).

(** benchmark/p2.c:138-201 [quantile]. The treatment of one observation (lines 155-192) and
    [init_p2], [linear], [parabolic], [sign] (lines 95-136) are the text of the library functions. *)
Definition bench_quantile {N : NumOps} (p : num N) (xs : list (num N)) : res (num N) :=
  if (length xs <? 5)%nat then Ret c_nan
  else
    q <- bench_sort5 (firstn 5 xs) ;;
    s <- p2_run (let s := init_p2 p in MkP2 q (m_n s) (m_np s) (m_dn s)) (skipn 5 xs) ;;
    rd (m_q s) 2.
