(** * The repository's own unit tests, replayed on the binary64 model

    Validation of the model, not a property of the code: the tests of /repo/test/src that need neither rand() nor libm are
    evaluated here on the model ([B64], musl frexp and ldexp). The long ones (log_likelihood on 387 data and 121 pairs of
    parameters, the four fits on 1000 excesses, tail_probability and tail_quantile on the same excesses) take too long for the build; tools/suite replays them. *)
From Coq Require Import ZArith List Bool.
From Flocq Require Import IEEE754.BinarySingleNaN.
From Verif Require Import Num XMath Ubend Peaks Brent Estimator Tail P2 Spot B64 Str Demo SuiteData.
Import ListNotations.
Open Scope Z_scope.
Notation d := b64_ofZ.

(** unity/unity.c:871-877 *)
Definition within (delta expected actual : b64) : bool :=
  match expected, actual with
  | B754_infinity s, B754_infinity s' => Bool.eqb s s'
  | B754_nan, B754_nan => true
  | _, _ => let diff := b64_minus actual expected in
            let diff := if b64_ltb diff (d 0) then b64_opp diff else diff in
            let delta := if b64_ltb delta (d 0) then b64_opp delta else delta in
            is_finite diff && negb (b64_ltb delta diff)
  end.
(** unity/unity_internals.h:248, 1025: TEST_ASSERT_EQUAL_DOUBLE allows a relative error of 1e-12 *)
Definition equal_double (expected actual : b64) : bool := within (b64_mult expected (b64_div (d 1) (d (10 ^ 12)))) expected actual.
Definition isnan (x : b64) : bool := match x with B754_nan => true | _ => false end.
Definition ret (r : res b64) (p : b64 -> bool) : bool := match r with Ret x => p x | Undef _ => false end.
Definition arg (e : entry) : b64 :=
  match e with
  | Inv k => b64_div (d 1) (d k)
  | OnePlusInv k => b64_plus (d 1) (b64_div (d 1) (d k))
  | OneMinusInv k => b64_minus (d 1) (b64_div (d 1) (d k))
  | Int k => d k
  end.
Definition lit (v : Z * Z) : b64 := binary_normalize 53 1024 Hprec64 Hmax64 mode_NE (fst v) (- snd v) false.
Definition precision := b64_div (d 1) (d (10 ^ 10)).

(** test/src/xmath_test.c:398-409 *)
Definition xlog_m : b64 -> b64 := xlog musl_utils.
Definition xexp_m : b64 -> res b64 := xexp musl_utils.
Example test_xlog : isnan (xlog_m qnan) && isnan (xlog_m (d (-1))) && b64_eqb (xlog_m (d 0)) ninf && b64_eqb (xlog_m (d 1)) (d 0) &&
  forallb (fun r => within precision (lit (snd r)) (xlog_m (arg (fst r)))) log_table = true.
Proof. vm_compute. reflexivity. Qed.
(** test/src/xmath_test.c:432-441 *)
Example test_xexp : ret (xexp_m qnan) isnan && ret (xexp_m (d 0)) (b64_eqb (d 1)) &&
  forallb (fun r => ret (xexp_m (arg (fst r))) (within precision (lit (snd r)))) exp_table = true.
Proof. vm_compute. reflexivity. Qed.
(** test/src/xmath_test.c:464-476 *)
Example test_xpow : forallb (fun i => ret (xpow musl_utils (d 1 : num B64) (d i)) (equal_double (d 1))) (map Z.of_nat (seq 0 20)) &&
  forallb (fun i => ret (xpow musl_utils (d 2 : num B64) (d i)) (equal_double (d (2 ^ i)))) (map Z.of_nat (seq 0 20)) = true.
Proof. vm_compute. reflexivity. Qed.
(** test/src/xmath_test.c:478-491 *)
Example test_xmin : let m (a b : b64) : b64 := xmin (N := B64) a b in
  equal_double (d 1) (m (d 1) (d 2)) && equal_double (d 1) (m (d 2) (d 1)) && equal_double (d (-2)) (m (d 1) (d (-2))) && equal_double (d (-2)) (m (d (-2)) (d 1)) &&
  equal_double (d 7) (m (d 7) (d 7)) && equal_double (d 0) (m (d 0) pinf) && equal_double (d 0) (m pinf (d 0)) && b64_eqb ninf (m (d 0) ninf) && b64_eqb ninf (m ninf (d 0)) &&
  isnan (m (d 0) qnan) && isnan (m qnan (d 0)) = true.
Proof. vm_compute. reflexivity. Qed.
(** test/src/xmath_test.c:493-498 *)
Example test_is_nan : is_nan (qnan : num B64) = true.
Proof. vm_compute. reflexivity. Qed.

(** test/src/brent_test.c:32-88, 117-128. The two other tests of that file use log and exp of libm. *)
Definition fcall (f : b64 -> b64) : num B64 -> res (num B64) := fun x => Ret (f x).
Definition finds (f : b64 -> b64) (a b root : b64) : bool :=
  let eps := b64_mult (d 2) (BRENT_DEFAULT_EPSILON (N := B64)) in
  match brent (fcall f) a b eps with Ret (found, x) => found && within eps root x | Undef _ => false end.
Definition linear_f (root x : b64) : b64 := b64_minus x root.
Definition square_f (root x : b64) : b64 := b64_mult (b64_minus x root) (b64_plus x root).
Definition cubic_f (root x : b64) : b64 := b64_mult (b64_mult x (b64_minus x root)) (b64_plus x root).
Definition noroot_f (p x : b64) : b64 := b64_plus (b64_plus (b64_mult x x) (b64_mult p p)) (d 1).
Example test_brent_linear : finds (linear_f (d 1)) (d (-5)) (d 5) (d 1) = true.
Proof. vm_compute. reflexivity. Qed.
Example test_brent_square : let root := b64_plus (d 3) (b64_div (d 1) (d 3)) in
  finds (square_f root) (d 0) (d 5) root && finds (square_f root) (d (-5)) (d 0) (b64_opp root) = true.
Proof. vm_compute. reflexivity. Qed.
Example test_brent_cubic : finds (cubic_f (d 2)) (d 1) (d 5) (d 2) && finds (cubic_f (d 2)) (d (-5)) (d (-1)) (d (-2)) &&
  finds (cubic_f (d 2)) (d (-1)) (d 1) (d 0) && finds (cubic_f (d 2)) (d (-5)) (d 5) (d 0) = true.
Proof. vm_compute. reflexivity. Qed.
Example test_brent_noroot : match brent (fcall (noroot_f (d 1))) (d (-10) : num B64) (d 10 : num B64) (b64_mult (d 2) (BRENT_DEFAULT_EPSILON (N := B64))) with Ret (found, _) => negb found | Undef _ => false end = true.
Proof. vm_compute. reflexivity. Qed.

(** test/src/ubend_test.c *)
Definition ub (cap : Z) : ubend B64 := fst (ubend_init (N := B64) (Some (block cap)) cap).
Fixpoint ub_pushes (u : ubend B64) (x : b64) (check : Z -> ubend B64 -> b64 -> bool) (i : Z) (k : nat) : res (ubend B64 * bool) :=
  match k with
  | O => Ret (u, true)
  | S k => r <- ubend_push u (x : num B64) ;; let '(u, e) := r in r <- ub_pushes u x check (i + 1) k ;; let '(v, b) := r in Ret (v, check i u e && b)
  end.
Example test_ubend_init : let u := ub 5 in (u_cursor u, u_filled u, u_capacity u, isnan (u_last u)) = (0, 0, 5, true).
Proof. vm_compute. reflexivity. Qed.
Example test_ubend_push : match (r <- ub_pushes (ub 10) (d 42) (fun _ _ e => isnan e) 0 10 ;; let '(u, b) := r in r <- ubend_push u (d 0 : num B64) ;; Ret (b && equal_double (d 42) (snd r)))
  with Ret b => b | Undef _ => false end = true.
Proof. vm_compute. reflexivity. Qed.
Example test_ubend_size : match (r <- ub_pushes (ub 15) (d (-1)) (fun i u _ => ubend_size u =? i + 1) 0 15 ;; let '(u, b) := r in
    r <- ub_pushes u (d (-1)) (fun _ u _ => ubend_size u =? 15) 0 15 ;; Ret (b && snd r))
  with Ret b => b | Undef _ => false end = true.
Proof. vm_compute. reflexivity. Qed.
Example test_ubend_free : let u := ubend_free (ub 15) in (u_cursor u, u_capacity u, u_filled u, isnan (u_last u)) = (0, 0, -1, true).
Proof. vm_compute. reflexivity. Qed.

(** test/src/peaks_test.c *)
Definition pk (cap : Z) : peaks B64 := fst (peaks_init (N := B64) (Some (block cap)) cap).
(** push the values one after the other, checking the statistics after each *)
Fixpoint pk_pushes (p : peaks B64) (xs : list (b64 * (peaks B64 -> bool))) : res (peaks B64 * bool) :=
  match xs with
  | [] => Ret (p, true)
  | (x, check) :: xs => p <- peaks_push p (x : num B64) ;; r <- pk_pushes p xs ;; let '(q, b) := r in Ret (q, check p && b)
  end.
Definition all_ok (r : res (peaks B64 * bool)) : bool := match r with Ret (_, b) => b | Undef _ => false end.
Definition one_to (n : nat) : list Z := map Z.of_nat (seq 1 n).
Example test_peaks_init : let p := pk 10 in b64_eqb (p_e p) (d 0) && b64_eqb (p_e2 p) (d 0) && isnan (p_min p) && isnan (p_max p) = true.
Proof. vm_compute. reflexivity. Qed.
(** lines 22-48 *)
Example test_peaks_push : all_ok (r <- pk_pushes (pk 10)
      (flat_map (fun i => [(d i, fun _ : peaks B64 => true); (d (- i), fun p : peaks B64 => equal_double (d (- i)) (p_min p) && equal_double (d i) (p_max p))]) (one_to 5) ++
       [(d 6, fun p : peaks B64 => (peaks_size p =? 10) && equal_double (d 6) (p_max p)); (d (-6), fun p : peaks B64 => (peaks_size p =? 10) && equal_double (d (-6)) (p_min p))]) ;;
    let '(p, b) := r in let maxi := p_max p in
    r <- pk_pushes p (repeat (p_min p, fun _ : peaks B64 => true) 10) ;; Ret (fst r, b && snd r && negb (b64_eqb maxi (p_min (fst r))))) = true.
Proof. vm_compute. reflexivity. Qed.
(** lines 50-68 *)
Example test_peaks_mean : all_ok (pk_pushes (pk 50)
   (map (fun i => (d i, fun p : peaks B64 => equal_double (b64_mult (b64_div (d 1) (d 2)) (d (i + 1))) (peaks_mean p))) (one_to 50) ++
    map (fun i => (d 0, fun p : peaks B64 => equal_double (b64_div (d (1275 - i * (i + 1) / 2)) (d 50)) (peaks_mean p))) (one_to 50))) = true.
Proof. vm_compute. reflexivity. Qed.
(** lines 70-81 *)
Example test_peaks_var : all_ok (pk_pushes (pk 50)
   (flat_map (fun i => [(d i, fun _ : peaks B64 => true); (d (- i), fun p : peaks B64 => equal_double (b64_div (d ((i + 1) * (2 * i + 1))) (d 6)) (peaks_var p))]) (one_to 25))) = true.
Proof. vm_compute. reflexivity. Qed.
(** lines 83-98 *)
Example test_peaks_size : all_ok (pk_pushes (pk 30)
   (map (fun i => (d 1, fun p : peaks B64 => peaks_size p =? i)) (one_to 30) ++ map (fun _ => (d 1, fun p : peaks B64 => peaks_size p =? 30)) (one_to 30))) = true.
Proof. vm_compute. reflexivity. Qed.
(** lines 247-262 *)
Example test_peaks_free : let p := peaks_free (MkPeaks (N := B64) (d 10) (d 5) (d (-5)) (b64_div (d 172) (d 10)) (p_cont (pk 10))) in
  isnan (p_e p) && isnan (p_e2 p) && isnan (p_min p) && isnan (p_max p) = true.
Proof. vm_compute. reflexivity. Qed.

(** test/src/tail_test.c:8-28, 191-201 *)
Example test_tail_init : let t := fst (tail_init (N := B64) (Some (block 10)) 10) in isnan (t_gamma t) && isnan (t_sigma t) = true.
Proof. vm_compute. reflexivity. Qed.
Example test_tail_push : match fold_left (fun r x => t <- r ;; tail_push t (x : num B64)) (repeat (d 0) 20) (Ret (fst (tail_init (N := B64) (Some (block 10)) 10)))
  with Ret _ => true | Undef _ => false end = true.
Proof. vm_compute. reflexivity. Qed.
Example test_tail_free : let t := tail_free (MkTail (N := B64) (d 0) (d 1) (pk 10)) in isnan (t_gamma t) && isnan (t_sigma t) = true.
Proof. vm_compute. reflexivity. Qed.

(** test/src/p2_test.c:67-71 *)
Example test_sort5 : match sort5 (N := B64) (map d [5; 3; 4; 1; 2]) with Ret a => forallb (fun p => equal_double (fst p) (snd p)) (combine (map d [1; 2; 3; 4; 5]) a) && (length a =? 5)%nat | Undef _ => false end = true.
Proof. vm_compute. reflexivity. Qed.

(** test/src/spot_test.c:52-90. Nt = 1000 there; the capacity does not matter. *)
Definition level_995 := b64_div (d 995) (d 1000).
Definition q_m5 := b64_div (d 1) (d 100000).
Example test_spot_init :
  let init q low discard level := spot_init junk (q : num B64) low discard (level : num B64) 1000 (fun _ => Some (block 1000)) in
  let '(s, ko) := init q_m5 0 1 level_995 in let '(s', ko') := init q_m5 1 0 level_995 in
  (ko, s_low s, s_discard s, s_Nt s, s_n s) = (0, 0, 1, 0, 0) /\ (ko', s_low s', s_discard s', s_Nt s', s_n s') = (0, 1, 0, 0, 0) /\
  equal_double q_m5 (s_q s) && equal_double level_995 (s_level s) && isnan (s_at s) && isnan (s_et s) && equal_double q_m5 (s_q s') && equal_double level_995 (s_level s') && isnan (s_at s') && isnan (s_et s') = true /\
  snd (init q_m5 0 1 (b64_div (d (-1)) (d 2))) = - ERR_LEVEL_OUT_OF_BOUNDS /\
  snd (init (b64_plus (b64_minus (d 1) level_995) (b64_div (b64_plus (d 1) level_995) (d 2))) 0 1 level_995) = - ERR_Q_OUT_OF_BOUNDS.
Proof. vm_compute. repeat split. Qed.
