(** * P2: model of /repo/src/p2.c *)
From Coq Require Import ZArith List Bool.
From Verif Require Import Num XMath.
Import ListNotations.
Open Scope Z_scope.
Open Scope num_scope.

Section P2.
Context {N : NumOps}.

(** p2.c:12-16 on cells of the same array *)
Definition swap (a : list (num N)) (i j : Z) : res (list (num N)) :=
  x <- rd a i ;;
  y <- rd a j ;;
  a <- wr a i y ;;
  wr a j x.

(** a[i] < a[j] *)
Definition cell_lt (a : list (num N)) (i j : Z) : res bool :=
  x <- rd a i ;;
  y <- rd a j ;;
  Ret (x <? y).

(** p2.c:18-67 *)
Definition sort5 (a : list (num N)) : res (list (num N)) :=
  b <- cell_lt a 1 0 ;;
  a <- (if b then swap a 0 1 else Ret a) ;;
  b <- cell_lt a 3 2 ;;
  a <- (if b then swap a 3 2 else Ret a) ;;
  b <- cell_lt a 0 2 ;;
  a <- (if b : bool then
          (a <- swap a 1 2 ;; swap a 2 3)
        else
          (a <- swap a 1 2 ;; swap a 0 1)) ;;
  b <- cell_lt a 4 1 ;;
  a <- (if b : bool then
          (b <- cell_lt a 4 0 ;;
           if b : bool then
             (a <- swap a 4 3 ;; a <- swap a 3 2 ;; a <- swap a 2 1 ;; swap a 1 0)
           else
             (a <- swap a 4 3 ;; a <- swap a 3 2 ;; swap a 2 1))
        else
          (b <- cell_lt a 4 2 ;;
           if b : bool then (a <- swap a 4 3 ;; swap a 3 2)
           else swap a 4 3)) ;;
  b <- cell_lt a 4 2 ;;
  if b : bool then
    (b <- cell_lt a 4 1 ;;
     if b : bool then
       (a <- swap a 4 3 ;; a <- swap a 3 2 ;; swap a 2 1)
     else
       (a <- swap a 4 3 ;; swap a 3 2))
  else
    (b <- cell_lt a 4 3 ;;
     if b : bool then swap a 4 3 else Ret a).

(** p2.c:5-10 *)
Record p2st : Type := MkP2 {
  m_q : list (num N);
  m_n : list (num N);
  m_np : list (num N);
  m_dn : list (num N)
}.

(** p2.c:69-86 *)
Definition init_p2 (p : num N) : p2st :=
  MkP2 [#0; #0; #0; #0; #0]
       [#0; #1; #2; #3; #4]
       [#0; #2 * p; #4 * p; #2 + #2 * p; #4]
       [#0; p / #2; p; (p + #1) / #2; #1].

(** p2.c:88-96 *)
Definition sign (d : num N) : num N :=
  if d >? #0 then #1 else if d <? #0 then #(-1) else #0.

(** (int)d for the result of [sign] (p2.c:156,158) *)
Definition int_of_num (d : num N) : res Z :=
  match ntrunc d with
  | Some z => if (Z.leb (- 2 ^ 31) z && Z.ltb z (2 ^ 31))%bool then Ret z else Undef CastRange
  | None => Undef CastRange
  end.

(** p2.c:98-101. The index i + d is computed in unsigned int. *)
Definition linear (s : p2st) (i d : Z) : res (num N) :=
  let i' := u32 (i + d) in
  qi <- rd (m_q s) i ;;
  qd <- rd (m_q s) i' ;;
  nd <- rd (m_n s) i' ;;
  ni <- rd (m_n s) i ;;
  Ret (qi + nofZ d * (qd - qi) / (nd - ni)).

(** p2.c:103-110 *)
Definition parabolic (s : p2st) (i d : Z) : res (num N) :=
  let ip := u32 (i + 1) in
  let im := u32 (i - 1) in
  qi <- rd (m_q s) i ;;
  qp <- rd (m_q s) ip ;;
  qm <- rd (m_q s) im ;;
  ni <- rd (m_n s) i ;;
  np <- rd (m_n s) ip ;;
  nm <- rd (m_n s) im ;;
  Ret (qi + (nofZ d / (np - nm)) *
            ((ni - nm + nofZ d) * (qp - qi) / (np - ni) +
             (np - ni - nofZ d) * (qi - qm) / (ni - nm))).

(** p2.c:138-140: [while (xj > q[k]) k++]. [fuel] = 6 is never exhausted: reading q[5] is already out of bounds. *)
Fixpoint find_cell (fuel : nat) (q : list (num N)) (xj : num N) (k : Z) : res Z :=
  match fuel with
  | O => Undef OutOfBounds
  | S fuel' =>
      v <- rd q k ;;
      if xj >? v then find_cell fuel' q xj (u32 (k + 1)) else Ret k
  end.

(** p2.c:143-145: [for (i = k0; i < 5; i++) n[i] += 1.0] *)
Definition incr_from (n : list (num N)) (k0 : Z) : res (list (num N)) :=
  for_lt (5 - k0)
    (fun j n => x <- rd n (k0 + j) ;; wr n (k0 + j) (x + #1)) n.

(** p2.c:146-148 *)
Definition incr_np (np dn : list (num N)) : res (list (num N)) :=
  for_lt 5
    (fun i np => x <- rd np i ;; y <- rd dn i ;; wr np i (x + y)) np.

(** p2.c:151-163, body for marker [i] *)
Definition adjust (i : Z) (s : p2st) : res p2st :=
  npi <- rd (m_np s) i ;;
  ni <- rd (m_n s) i ;;
  np1 <- rd (m_n s) (u32 (i + 1)) ;;
  nm1 <- rd (m_n s) (u32 (i - 1)) ;;
  let d := npi - ni in
  if (((d >=? #1) && (np1 - ni >? #1)) ||
      ((d <=? #(-1)) && (nm1 - ni <? #(-1))))%bool
  then
    let d := sign d in
    di <- int_of_num d ;;
    qp <- parabolic s i di ;;
    qm1 <- rd (m_q s) (u32 (i - 1)) ;;
    qp1 <- rd (m_q s) (u32 (i + 1)) ;;
    qp <- (if negb ((qm1 <? qp) && (qp <? qp1)) then linear s i di else Ret qp) ;;
    q' <- wr (m_q s) i qp ;;
    n' <- wr (m_n s) i (ni + d) ;;
    Ret (MkP2 q' n' (m_np s) (m_dn s))
  else Ret s.

(** p2.c:129-164: one observation *)
Definition p2_observe (s : p2st) (xj : num N) : res p2st :=
  q0 <- rd (m_q s) 0 ;;
  q4 <- rd (m_q s) 4 ;;
  if xj <? q0 then
    (q' <- wr (m_q s) 0 xj ;; Ret (MkP2 q' (m_n s) (m_np s) (m_dn s)))
  else if xj >? q4 then
    (q' <- wr (m_q s) 4 xj ;; Ret (MkP2 q' (m_n s) (m_np s) (m_dn s)))
  else
    k <- find_cell 6 (m_q s) xj 0 ;;
    let k := u32 (k - 1) in
    n' <- incr_from (m_n s) (u32 (k + 1)) ;;
    np' <- incr_np (m_np s) (m_dn s) ;;
    let s := MkP2 (m_q s) n' np' (m_dn s) in
    s <- adjust 1 s ;;
    s <- adjust 2 s ;;
    adjust 3 s.

Fixpoint p2_run (s : p2st) (xs : list (num N)) : res p2st :=
  match xs with
  | [] => Ret s
  | x :: xs' => s' <- p2_observe s x ;; p2_run s' xs'
  end.

(** p2.c:112-167. [xs] is the array of [size = length xs] doubles. *)
Definition quantile (s : p2st) (xs : list (num N)) : res (num N) :=
  if (length xs <? 5)%nat then Ret #0
  else
    q <- sort5 (firstn 5 xs) ;;
    s <- p2_run (MkP2 q (m_n s) (m_np s) (m_dn s)) (skipn 5 xs) ;;
    rd (m_q s) 2.

(** p2.c:169-173 *)
Definition p2_quantile (p : num N) (xs : list (num N)) : res (num N) :=
  quantile (init_p2 p) xs.

End P2.
Arguments p2st N : clear implicits.
