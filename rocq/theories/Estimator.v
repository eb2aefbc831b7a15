(** * Estimator: model of /repo/src/estimator.c *)
From Coq Require Import ZArith List Bool.
From Verif Require Import Num XMath Ubend Peaks Brent.
Import ListNotations.
Open Scope Z_scope.
Open Scope num_scope.

Section Estimator.
Context {N : NumOps} (mf : MathFns N).

(** Result of an estimator: returned log-likelihood and the two output parameters. *)
Definition estimate : Type := (num N * num N * num N)%type.   (* llhood, gamma, sigma *)

(** estimator.c:12-20 *)
Definition mom_estimator (p : peaks N) : res estimate :=
  let E := peaks_mean p in
  let V := peaks_var p in
  let R := E * E / V in
  let gamma := c_half * (#1 - R) in
  let sigma := c_half * E * (#1 + R) in
  ll <- log_likelihood mf p gamma sigma ;;
  Ret (ll, gamma, sigma).

(** estimator.c:22-34 *)
Definition grimshaw_w (p : peaks N) (x : num N) : res (num N) :=
  let Nt_local := peaks_size p in
  '(u, v) <- for_lt Nt_local
    (fun i uv =>
       let '(u, v) := uv in
       y <- rdcell (u_data (p_cont p)) i ;;
       let s := #1 + x * y in
       Ret (u + #1 / s, v + m_log mf s))
    (#0, #0) ;;
  Ret ((u / nofZ Nt_local) * (#1 + v / nofZ Nt_local) - #1).

(** estimator.c:36-43 *)
Definition grimshaw_v (p : peaks N) (x : num N) : res (num N) :=
  let Nt_local := peaks_size p in
  v <- for_lt Nt_local
    (fun i v =>
       y <- rdcell (u_data (p_cont p)) i ;;
       Ret (v + m_log mf (#1 + x * y)))
    #0 ;;
  Ret (#1 + v / nofZ Nt_local).

(** estimator.c:45-57 *)
Definition grimshaw_simplified_log_likelihood (x_star : num N) (p : peaks N) : res estimate :=
  '(gamma, sigma) <-
    (if x_star ==? #0 then Ret (#0, peaks_mean p)
     else
       v <- grimshaw_v p x_star ;;
       let gamma := v - #1 in
       Ret (gamma, gamma / x_star)) ;;
  ll <- log_likelihood mf p gamma sigma ;;
  Ret (ll, gamma, sigma).

(** estimator.c:99-112: one turn of the comparison loop, for the candidate root [(found, root)] *)
Definition grimshaw_better (p : peaks N) (best : estimate) (cand : bool * num N) : res estimate :=
  let '(found, root) := cand in
  if found then
    '(ll, g, s) <- grimshaw_simplified_log_likelihood root p ;;
    let '(bll, bg, bs) := best in
    Ret (if ll >? bll then (ll, g, s) else (bll, bg, bs))
  else Ret best.

(** estimator.c:59-114 *)
Definition grimshaw_estimator (p : peaks N) : res estimate :=
  let mini := p_min p in
  let maxi := p_max p in
  let mean := peaks_mean p in
  let epsilon := xmin BRENT_DEFAULT_EPSILON (c_half / maxi) in
  left <- brent (grimshaw_w p) (#(-1) / maxi + epsilon) (- epsilon) BRENT_DEFAULT_EPSILON ;;
  right <- brent (grimshaw_w p) epsilon (#2 * (mean - mini) / (mini * mini)) BRENT_DEFAULT_EPSILON ;;
  best0 <- grimshaw_simplified_log_likelihood #0 p ;;
  best1 <- grimshaw_better p best0 left ;;
  grimshaw_better p best1 right.

End Estimator.
