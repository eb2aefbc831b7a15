(** * Properties of the maximum likelihood search in exact arithmetic (C52)

    In this file the program runs on real numbers with the mathematical logarithm, exponential and power. *)
From Coq Require Import ZArith List Bool Lia Reals Lra.
From Verif Require Import Num XMath Ubend Session Peaks Brent Estimator Tail P2 Spot Spec RNum ExactWindow TailSpec GrimshawSpec ExactTail GrimshawExact.
Import ListNotations.
Open Scope R_scope.

(** every root lies in one of the two ranges searched *)
Theorem C52_roots_lie_in_the_searched_ranges cap blk (xs : list R) p m M x : (1 <= cap < 2 ^ 61)%Z -> Z.of_nat (length blk) = cap ->
  peaks_pushes (N := RNum) (fst (peaks_init (Some blk) cap)) (map Some xs) = Ret p ->
  let w := last_k cap xs in
  In m w -> In M w -> (forall y, In y w -> m <= y <= M) -> 0 < m ->
  x <> 0 -> (forall y, In y w -> 0 < 1 + x * y) -> grimshaw_w exact_math p (Some x : num RNum) = Ret (Some 0) ->
  - 1 / M < x < 0 \/ 0 < x < 2 * (mean w - m) / (m * m).
Proof. exact (C52_roots_lemma cap blk xs p m M x). Qed.
Print Assumptions C52_roots_lie_in_the_searched_ranges.

(** the estimator returns the best of the exponential fit and of the points its two searches find *)
Theorem C52_estimator_returns_best_point cap blk (xs : list R) p m M : (1 <= cap < 2 ^ 61)%Z -> Z.of_nat (length blk) = cap ->
  peaks_pushes (N := RNum) (fst (peaks_init (Some blk) cap)) (map Some xs) = Ret p ->
  let w := last_k cap xs in
  In m w -> In M w -> (forall y, In y w -> m <= y <= M) -> 0 < m ->
  exists fl xl fr xr x,
    search_result p w (- 1 / M + margin M) (- margin M) fl xl /\
    search_result p w (margin M) (2 * (mean w - m) / (m * m)) fr xr /\
    grimshaw_estimator exact_math p = Ret (Some (cand_ll w x), Some (cand_shape w x), Some (cand_scale w x)) /\
    (x = 0 \/ (fl = true /\ x = xl) \/ (fr = true /\ x = xr)) /\
    (forall y, In y w -> 0 < 1 + x * y) /\
    cand_ll w 0 <= cand_ll w x /\ (fl = true -> cand_ll w xl <= cand_ll w x) /\ (fr = true -> cand_ll w xr <= cand_ll w x).
Proof. exact (C52_estimator_lemma cap blk xs p m M). Qed.
Print Assumptions C52_estimator_returns_best_point.

(** a fit of a window of positive excesses is a proper distribution, at least as likely as the exponential and the moment fit *)
Theorem C52_fit_is_valid_and_no_worse_than_exponential cap blk (xs : list R) t : (1 <= cap < 2 ^ 61)%Z -> Z.of_nat (length blk) = cap ->
  peaks_pushes (N := RNum) (fst (peaks_init (Some blk) cap)) (map Some xs) = Ret (t_peaks t) ->
  let w := last_k cap xs in
  w <> [] -> (forall y, In y w -> 0 < y) ->
  exists g sg, tail_fit exact_math t = Ret (MkTail (N := RNum) (Some g) (Some sg) (t_peaks t), Some (gpd_log_likelihood g sg w)) /\
    0 < sg /\ (forall y, In y w -> gpd_support g sg y) /\
    gpd_log_likelihood 0 (mean w) w <= gpd_log_likelihood g sg w /\
    forall g' sg' ll, mom_estimator exact_math (t_peaks t) = Ret (Some ll, g', sg') -> ll <= gpd_log_likelihood g sg w.
Proof. exact (C52_fit_lemma cap blk xs t). Qed.
Print Assumptions C52_fit_is_valid_and_no_worse_than_exponential.

(** the window 1, 1, 1, 21 (after the eviction of 7) has a positive root, which is below 10 *)
Definition heavy_block : list (option (num RNum)) := [None; None; None; None].
Example C52_example : exists p x, peaks_pushes (N := RNum) (fst (peaks_init (N := RNum) (Some heavy_block) 4)) (map Some [7; 1; 1; 1; 21]) = Ret p /\
  0 < x < 10 /\ grimshaw_w exact_math p (Some x : num RNum) = Ret (Some 0).
Proof.
  destruct (C17_lemma 4 heavy_block [7; 1; 1; 1; 21]) as (p & E & _); [lia|reflexivity|].
  destruct heavy_root as (x & Hx & R). exists p, x. split; [exact E|].
  assert (D : forall y, In y [1; 1; 1; 21] -> 0 < 1 + x * y) by (intros y [<-|[<-|[<-|[<-|[]]]]]; lra).
  assert (W : grimshaw_w exact_math p (Some x : num RNum) = Ret (Some 0)).
  { rewrite (w_exact 4 p [1; 1; 1; 21] x); [| |discriminate|exact D].
    - unfold grim in R. rewrite R. reflexivity.
    - apply (rwindow 4 heavy_block [7; 1; 1; 1; 21] p); [lia|reflexivity|exact E]. }
  split; [|exact W].
  destruct (C52_roots_lie_in_the_searched_ranges 4 heavy_block [7; 1; 1; 1; 21] p 1 21 x) as [H|H].
  { lia. } { reflexivity. } { exact E. } { left; reflexivity. } { right; right; right; left; reflexivity. }
  { change (last_k 4 [7; 1; 1; 1; 21]) with [1; 1; 1; 21]. intros y [<-|[<-|[<-|[<-|[]]]]]; lra. } { lra. } { lra. } { exact D. } { exact W. }
  { lra. }
  change (last_k 4 [7; 1; 1; 1; 21]) with [1; 1; 1; 21] in H.
  assert (M6 : mean [1; 1; 1; 21] = 6) by (unfold mean; cbn [fold_right length INR]; field). rewrite M6 in H. lra.
Qed.
Example C52_example_fit : exists t g sg ll, peaks_pushes (N := RNum) (fst (peaks_init (N := RNum) (Some heavy_block) 4)) (map Some [7; 1; 1; 1; 21]) = Ret (t_peaks t) /\
  tail_fit exact_math t = Ret (MkTail (N := RNum) (Some g) (Some sg) (t_peaks t), Some ll) /\ 0 < sg /\ -4 * ln 6 - 4 <= ll.
Proof.
  destruct (C17_lemma 4 heavy_block [7; 1; 1; 1; 21]) as (p & E & _); [lia|reflexivity|].
  destruct (C52_fit_is_valid_and_no_worse_than_exponential 4 heavy_block [7; 1; 1; 1; 21] (MkTail (N := RNum) None None p))
    as (g & sg & F & Hs & _ & L & _).
  { lia. } { reflexivity. } { exact E. } { discriminate. }
  { change (last_k 4 [7; 1; 1; 1; 21]) with [1; 1; 1; 21]. intros y [<-|[<-|[<-|[<-|[]]]]]; lra. }
  exists (MkTail (N := RNum) None None p), g, sg, (gpd_log_likelihood g sg [1; 1; 1; 21]).
  split; [exact E|]. split; [exact F|]. split; [exact Hs|].
  change (last_k 4 [7; 1; 1; 1; 21]) with [1; 1; 1; 21] in L.
  assert (M6 : mean [1; 1; 1; 21] = 6) by (unfold mean; cbn [fold_right length INR]; field). rewrite M6 in L.
  eapply Rle_trans; [|exact L]. unfold gpd_log_likelihood. cbn [map fold_right]. rewrite !ln_density by lra.
  destruct (Req_EM_T 0 0); [lra|contradiction].
Qed.
