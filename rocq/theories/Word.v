(** * Word: the detector on a platform where unsigned long is not 64 bits wide
    The Windows wheels (LLP64) and the WebAssembly build (wasm32) have a 32-bit [unsigned long]
    (.github/workflows/python.yaml:26, wasm/libspot.test.ts:11-16). The functions whose text contains arithmetic on that type are
    repeated here with [ul], the reduction of an integer to the type, as a parameter; the others are shared.
    [WordLemmas.v] proves that [ul := u64] gives back the definitions of the 64-bit model. *)
From Coq Require Import ZArith List Bool.
From Verif Require Import Num XMath Ubend Session Peaks Brent Estimator Tail P2 Spot.
Import ListNotations.
Open Scope Z_scope.
Open Scope num_scope.

(** a 32-bit unsigned long *)
Definition u32 (z : Z) : Z := (z mod 2 ^ 32)%Z.

Section Word.
Context {N : NumOps} (ul : Z -> Z) (mf : MathFns N).

(** ubend.c:17 *)
Definition w_ubend_bytes (capacity : Z) : Z := ul (capacity * 8)%Z.

(** ubend.c:41-61 *)
Definition w_ubend_push (u : ubend N) (x : num N) : res (ubend N * num N) :=
  last <- (if Z.eqb (u_filled u) 0 then Ret (u_last u)
           else rdcell (u_data u) (u_cursor u)) ;;
  d <- wr (u_data u) (u_cursor u) (Some x) ;;
  let u' :=
    if Z.eqb (u_cursor u) (ul (u_capacity u - 1))
    then MkUbend 0 (u_capacity u) last 1 d
    else MkUbend (ul (u_cursor u + 1)) (u_capacity u) last (u_filled u) d in
  Ret (u', last).

(** peaks.c:60-89 *)
Definition w_peaks_push (p : peaks N) (x : num N) : res (peaks N) :=
  '(c, erased) <- w_ubend_push (p_cont p) x ;;
  let size := ubend_size c in
  let e := p_e p + x in
  let e2 := p_e2 p + x * x in
  let mn := if (Z.eqb size 1 || (x <? p_min p))%bool then x else p_min p in
  let mx := if (Z.eqb size 1 || (x >? p_max p))%bool then x else p_max p in
  if negb (is_nan erased) then
    let e := e - erased in
    let e2 := e2 - erased * erased in
    let p' := MkPeaks e e2 mn mx c in
    if ((erased <=? mn) || (erased >=? mx))%bool
    then peaks_update_stats p'
    else Ret p'
  else Ret (MkPeaks e e2 mn mx c).

(** tail.c:31-34 *)
Definition w_tail_push (t : tail N) (x : num N) : res (tail N) :=
  p <- w_peaks_push (t_peaks t) x ;;
  Ret (MkTail (t_gamma t) (t_sigma t) p).

(** spot.c:24-63; [alloc] is called with the number of bytes as an unsigned long *)
Definition w_spot_init (old : spot N) (q : num N) (low discard : Z) (level : num N) (max_excess : Z)
    (alloc : Z -> option (list (option (num N)))) : spot N * Z :=
  match spot_check q level with
  | Some code => (old, code)
  | None =>
      let low' := if Z.eqb low 0 then 0%Z else 1%Z in
      let ud := if Z.eqb low 0 then #1 else #(-1) in
      let discard' := if Z.eqb discard 0 then 0%Z else 1%Z in
      let '(t, r) := tail_init (alloc (w_ubend_bytes max_excess)) max_excess in
      if Z.ltb r 0 then
        (MkSpot q level discard' low' ud (s_at old) (s_et old) 0 0 t, - ERR_MEMORY_ALLOCATION_FAILED)%Z
      else
        (MkSpot q level discard' low' ud c_nan c_nan 0 0 t, 0%Z)
  end.

(** spot.c:100-108 *)
Fixpoint w_fit_fill (et : num N) (s : spot N) (data : list (num N)) : res (spot N) :=
  match data with
  | [] => Ret s
  | x :: rest =>
      let excess := s_updown s * (x - et) in
      if excess >? #0 then
        t <- w_tail_push (s_tail s) excess ;;
        w_fit_fill et (with_tail (with_counts s (ul (s_Nt s + 1)) (s_n s)) t) rest
      else w_fit_fill et s rest
  end.

(** spot.c:80-120; the length of the list is assumed to fit in an unsigned long *)
Definition w_spot_fit (s : spot N) (data : list (num N)) : res (spot N * Z) :=
  let s := with_counts s 0 (Z.of_nat (length data)) in
  et <- p2_quantile (if Z.eqb (s_low s) 0 then s_level s else #1 - s_level s) data ;;
  if is_nan et then Ret (s, - ERR_EXCESS_THRESHOLD_IS_NAN)%Z
  else
    let s := with_et s et in
    s <- w_fit_fill et s data ;;
    '(t, _) <- tail_fit mf (s_tail s) ;;
    let s := with_tail s t in
    at_ <- spot_quantile mf s (s_q s) ;;
    let s := with_at s at_ in
    if is_nan at_ then Ret (s, - ERR_ANOMALY_THRESHOLD_IS_NAN)%Z
    else Ret (s, 0%Z).

(** spot.c:122-147 *)
Definition w_spot_step (s : spot N) (x : num N) : res (spot N * Z) :=
  if is_nan x then Ret (s, - ERR_DATA_IS_NAN)%Z
  else if (negb (Z.eqb (s_discard s) 0) && (s_updown s * (x - s_at s) >? #0))%bool
  then Ret (s, ANOMALY)
  else
    let s := with_counts s (s_Nt s) (ul (s_n s + 1)) in
    let ex := s_updown s * (x - s_et s) in
    if ex >=? #0 then
      let s := with_counts s (ul (s_Nt s + 1)) (s_n s) in
      t <- w_tail_push (s_tail s) ex ;;
      '(t, _) <- tail_fit mf t ;;
      let s := with_tail s t in
      at_ <- spot_quantile mf s (s_q s) ;;
      Ret (with_at s at_, EXCESS)
    else Ret (s, NORMAL).

Fixpoint w_spot_steps (s : spot N) (xs : list (num N)) : res (spot N * list Z) :=
  match xs with
  | [] => Ret (s, [])
  | x :: rest =>
      '(s1, r) <- w_spot_step s x ;;
      '(s2, rs) <- w_spot_steps s1 rest ;;
      Ret (s2, r :: rs)
  end.

(** the caller's side, as in [Session.v] *)
Definition w_do_call (s : spot N) (c : call N) : res (spot N * answer N) :=
  match c with
  | CFit data => '(s', r) <- w_spot_fit s data ;; Ret (s', ACode r)
  | CStep x => '(s', r) <- w_spot_step s x ;; Ret (s', ACode r)
  | CQuantile q => v <- spot_quantile mf s q ;; Ret (s, ANum v)
  | CProbability z => v <- spot_probability mf s z ;; Ret (s, ANum v)
  end.
Fixpoint w_session (s : spot N) (cs : list (call N)) : res (spot N * list (answer N)) :=
  match cs with
  | [] => Ret (s, [])
  | c :: rest =>
      '(s1, a) <- w_do_call s c ;;
      '(s2, l) <- w_session s1 rest ;;
      Ret (s2, a :: l)
  end.
Fixpoint w_ubend_pushes (u : ubend N) (xs : list (num N)) : res (ubend N * list (num N)) :=
  match xs with
  | [] => Ret (u, [])
  | x :: rest =>
      '(u1, r) <- w_ubend_push u x ;;
      '(u2, rs) <- w_ubend_pushes u1 rest ;;
      Ret (u2, r :: rs)
  end.

End Word.

(** the number of observations handed over by a session *)
Fixpoint handed {N} (cs : list (call N)) : Z :=
  match cs with
  | [] => 0
  | CFit data :: rest => (Z.of_nat (length data) + handed rest)%Z
  | CStep _ :: rest => (1 + handed rest)%Z
  | _ :: rest => handed rest
  end.
