(** * Peaks: model of /repo/src/peaks.c *)
From Coq Require Import ZArith List Bool.
From Verif Require Import Num XMath Ubend.
Import ListNotations.
Open Scope Z_scope.
Open Scope num_scope.

Section Peaks.
Context {N : NumOps} (mf : MathFns N).

(** structs.h:116-127 *)
Record peaks : Type := MkPeaks {
  p_e : num N;
  p_e2 : num N;
  p_min : num N;
  p_max : num N;
  p_cont : ubend N
}.

(** peaks.c:12-18 *)
Definition peaks_init (blk : option (list (option (num N)))) (size : Z) : peaks * Z :=
  let '(c, r) := ubend_init blk size in
  (MkPeaks #0 #0 c_nan c_nan c, r).

(** peaks.c:20-27 *)
Definition peaks_free (p : peaks) : peaks :=
  MkPeaks c_nan c_nan c_nan c_nan (ubend_free (p_cont p)).

(** peaks.c:56-58 *)
Definition peaks_size (p : peaks) : Z := ubend_size (p_cont p).

(** peaks.c:41-52: body of the recomputation loop. The accumulator is (e, e2, min, max);
    note line 45: [e2] is assigned, not incremented. *)
Definition update_stats_body (d : list (option (num N))) (i : Z)
    (s : num N * num N * num N * num N) : res (num N * num N * num N * num N) :=
  let '(e, e2, mn, mx) := s in
  value <- rdcell d i ;;
  let e := e + value in
  let e2 := value * value in
  let mn := if (is_nan mn || (value <? mn))%bool then value else mn in
  let mx := if (is_nan mx || (value >? mx))%bool then value else mx in
  Ret (e, e2, mn, mx).

(** peaks.c:29-54 *)
Definition peaks_update_stats (p : peaks) : res peaks :=
  let max_iteration := ubend_size (p_cont p) in
  '(e, e2, mn, mx) <-
    for_lt max_iteration (update_stats_body (u_data (p_cont p))) (#0, #0, c_nan, c_nan) ;;
  Ret (MkPeaks e e2 mn mx (p_cont p)).

(** peaks.c:60-89 *)
Definition peaks_push (p : peaks) (x : num N) : res peaks :=
  '(c, erased) <- ubend_push (p_cont p) x ;;
  let size := ubend_size c in
  let e := p_e p + x in
  let e2 := p_e2 p + x * x in
  let mn := if (Z.eqb size 1 || (x <? p_min p))%bool then x else p_min p in
  let mx := if (Z.eqb size 1 || (x >? p_max p))%bool then x else p_max p in
  if negb (is_nan erased) then
    let e := e - erased in
    let e2 := e2 - erased * erased in
    let p' := MkPeaks e e2 mn mx c in
    if ((erased <=? mn) || (erased >=? mx))%bool
    then peaks_update_stats p'
    else Ret p'
  else Ret (MkPeaks e e2 mn mx c).

(** peaks.c:91-93 *)
Definition peaks_mean (p : peaks) : num N := p_e p / nofZ (peaks_size p).

(** peaks.c:95-99 *)
Definition peaks_var (p : peaks) : num N :=
  let size := nofZ (peaks_size p) in
  let mean := p_e p / size in
  (p_e2 p / size) - (mean * mean).

(** peaks.c:101-115 *)
Definition log_likelihood (p : peaks) (gamma sigma : num N) : res (num N) :=
  let Nt_local := ubend_size (p_cont p) in
  let Nt := nofZ Nt_local in
  if gamma ==? #0 then
    Ret ((- Nt) * m_log mf sigma - p_e p / sigma)
  else
    let r := (- Nt) * m_log mf sigma in
    let c := #1 + #1 / gamma in
    let x := gamma / sigma in
    for_lt Nt_local
      (fun i r =>
         v <- rdcell (u_data (p_cont p)) i ;;
         Ret (r + (- c) * m_log mf (#1 + x * v)))
      r.

End Peaks.
Arguments peaks N : clear implicits.
