(** * Spot: model of /repo/src/spot.c (detector) *)
From Coq Require Import ZArith List Bool.
From Verif Require Import Num XMath Ubend Peaks Brent Estimator Tail P2.
Import ListNotations.
Open Scope Z_scope.
Open Scope num_scope.

(** structs.h:64-77 *)
Definition ERR_MEMORY_ALLOCATION_FAILED : Z := 1000.
Definition ERR_LEVEL_OUT_OF_BOUNDS : Z := 1001.
Definition ERR_Q_OUT_OF_BOUNDS : Z := 1002.
Definition ERR_EXCESS_THRESHOLD_IS_NAN : Z := 1003.
Definition ERR_ANOMALY_THRESHOLD_IS_NAN : Z := 1004.
Definition ERR_DATA_IS_NAN : Z := 1005.
(** structs.h:83-90 *)
Definition NORMAL : Z := 0.
Definition EXCESS : Z := 1.
Definition ANOMALY : Z := 2.

Section Spot.
Context {N : NumOps} (mf : MathFns N).

(** structs.h:147-168 *)
Record spot : Type := MkSpot {
  s_q : num N;
  s_level : num N;
  s_discard : Z;
  s_low : Z;
  s_updown : num N;
  s_at : num N;            (* anomaly_threshold *)
  s_et : num N;            (* excess_threshold *)
  s_Nt : Z;
  s_n : Z;
  s_tail : tail N
}.

(** spot.c:26-31: parameter validation; [Some code] is the early return. *)
Definition spot_check (q level : num N) : option Z :=
  if ((level <? #0) || (level >=? #1))%bool then Some (- ERR_LEVEL_OUT_OF_BOUNDS)%Z
  else if ((q >=? (#1 - level)) || (q <=? #0))%bool then Some (- ERR_Q_OUT_OF_BOUNDS)%Z
  else None.

(** spot.c:24-63. [old] is the previous (possibly indeterminate) content of the struct, [alloc]
    the allocator: what xmalloc returns for a number of bytes. *)
Definition spot_init (old : spot) (q : num N) (low discard : Z) (level : num N) (max_excess : Z)
    (alloc : Z -> option (list (option (num N)))) : spot * Z :=
  match spot_check q level with
  | Some code => (old, code)
  | None =>
      let low' := if Z.eqb low 0 then 0%Z else 1%Z in
      let ud := if Z.eqb low 0 then #1 else #(-1) in
      let discard' := if Z.eqb discard 0 then 0%Z else 1%Z in
      let '(t, r) := tail_init (alloc (ubend_bytes max_excess)) max_excess in
      if Z.ltb r 0 then
        (MkSpot q level discard' low' ud (s_at old) (s_et old) 0 0 t, - ERR_MEMORY_ALLOCATION_FAILED)%Z
      else
        (MkSpot q level discard' low' ud c_nan c_nan 0 0 t, 0%Z)
  end.

(** spot.c:65-78, field updates; the release of the block is in [Heap.v]. *)
Definition spot_free (s : spot) : spot :=
  MkSpot c_nan c_nan (-1) (-1) c_nan c_nan c_nan 0 0 (tail_free (s_tail s)).

(** spot.c:149-153 *)
Definition spot_quantile (s : spot) (q : num N) : res (num N) :=
  let r := nofZ (s_Nt s) / nofZ (s_n s) in
  tq <- tail_quantile mf (s_tail s) r q ;;
  Ret (s_et s + s_updown s * tq).

(** spot.c:155-159 *)
Definition spot_probability (s : spot) (z : num N) : res (num N) :=
  let r := nofZ (s_Nt s) / nofZ (s_n s) in
  tail_probability mf (s_tail s) r (s_updown s * (z - s_et s)).

Definition with_at (s : spot) (a : num N) : spot :=
  MkSpot (s_q s) (s_level s) (s_discard s) (s_low s) (s_updown s) a (s_et s) (s_Nt s) (s_n s) (s_tail s).
Definition with_et (s : spot) (e : num N) : spot :=
  MkSpot (s_q s) (s_level s) (s_discard s) (s_low s) (s_updown s) (s_at s) e (s_Nt s) (s_n s) (s_tail s).
Definition with_counts (s : spot) (nt n : Z) : spot :=
  MkSpot (s_q s) (s_level s) (s_discard s) (s_low s) (s_updown s) (s_at s) (s_et s) nt n (s_tail s).
Definition with_tail (s : spot) (t : tail N) : spot :=
  MkSpot (s_q s) (s_level s) (s_discard s) (s_low s) (s_updown s) (s_at s) (s_et s) (s_Nt s) (s_n s) t.

(** spot.c:100-108: filling the tail from the batch *)
Fixpoint fit_fill (et : num N) (s : spot) (data : list (num N)) : res spot :=
  match data with
  | [] => Ret s
  | x :: rest =>
      let excess := s_updown s * (x - et) in
      if excess >? #0 then
        t <- tail_push (s_tail s) excess ;;
        fit_fill et (with_tail (with_counts s (u64 (s_Nt s + 1)) (s_n s)) t) rest
      else fit_fill et s rest
  end.

(** spot.c:80-120. The array is a list; [size] is its length (64-bit). *)
Definition spot_fit (s : spot) (data : list (num N)) : res (spot * Z) :=
  let s := with_counts s 0 (Z.of_nat (length data)) in
  et <- p2_quantile (if Z.eqb (s_low s) 0 then s_level s else #1 - s_level s) data ;;
  if is_nan et then Ret (s, - ERR_EXCESS_THRESHOLD_IS_NAN)%Z
  else
    let s := with_et s et in
    s <- fit_fill et s data ;;
    '(t, _) <- tail_fit mf (s_tail s) ;;
    let s := with_tail s t in
    at_ <- spot_quantile s (s_q s) ;;
    let s := with_at s at_ in
    if is_nan at_ then Ret (s, - ERR_ANOMALY_THRESHOLD_IS_NAN)%Z
    else Ret (s, 0%Z).

(** spot.c:122-147 *)
Definition spot_step (s : spot) (x : num N) : res (spot * Z) :=
  if is_nan x then Ret (s, - ERR_DATA_IS_NAN)%Z
  else if (negb (Z.eqb (s_discard s) 0) && (s_updown s * (x - s_at s) >? #0))%bool
  then Ret (s, ANOMALY)
  else
    let s := with_counts s (s_Nt s) (u64 (s_n s + 1)) in
    let ex := s_updown s * (x - s_et s) in
    if ex >=? #0 then
      let s := with_counts s (u64 (s_Nt s + 1)) (s_n s) in
      t <- tail_push (s_tail s) ex ;;
      '(t, _) <- tail_fit mf t ;;
      let s := with_tail s t in
      at_ <- spot_quantile s (s_q s) ;;
      Ret (with_at s at_, EXCESS)
    else Ret (s, NORMAL).

(** A stream of observations (the caller's loop): final state and the list of answers. *)
Fixpoint spot_steps (s : spot) (xs : list (num N)) : res (spot * list Z) :=
  match xs with
  | [] => Ret (s, [])
  | x :: rest =>
      '(s1, r) <- spot_step s x ;;
      '(s2, rs) <- spot_steps s1 rest ;;
      Ret (s2, r :: rs)
  end.

End Spot.
Arguments spot N : clear implicits.
