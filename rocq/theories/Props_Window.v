(** * Properties of the window, the fit and the memory safety of the core (C13-C21, C23-C26, C40, C46) *)
From Coq Require Import ZArith List Bool Reals Lra Lia Permutation.
From Flocq Require Import IEEE754.BinarySingleNaN.
From Verif Require Import Num XMath Ubend Session Peaks Brent Estimator Tail P2 Spot B64 RNum Spec
  DetectorLemmas WindowLemmas SortLemmas ExactWindow FitLemmas Demo DemoCheck.
Import ListNotations.
Open Scope Z_scope.

(** C13 *)
Theorem C13_window_is_fifo {N} cap (blk : list (option (num N))) xs :
  1 <= cap < 2 ^ 61 -> Z.of_nat (length blk) = cap ->
  exists u outs,
    ubend_pushes (fst (ubend_init (Some blk) cap)) xs = Ret (u, outs) /\
    oldest_first u = map Some (last_k cap xs) /\
    ubend_size u = Z.min (Z.of_nat (length xs)) cap /\
    length outs = length xs /\
    (forall i, (i < length xs)%nat ->
       nth_error outs i = if Z.of_nat i <? cap then Some c_nan else nth_error xs (i - Z.to_nat cap)).
Proof. exact (C13_lemma cap blk xs). Qed.
Print Assumptions C13_window_is_fifo.
Example C13_example :
  match ubend_pushes (N := B64) (fst (ubend_init (N := B64) (Some (block 3)) 3)) (map d [5; 4; 3; 2; 1]) with
  | Ret (u, outs) => map (option_map sf) (oldest_first u) = map (fun z => Some (sf (d z))) [3; 2; 1] /\
                     map sf outs = map sf [qnan; qnan; qnan; d 5; d 4] /\ ubend_size u = 3
  | Undef _ => False end.
Proof. vm_compute. repeat split. Qed.

(** C14. Whatever the ldexp/frexp plugged in. *)
Theorem C14_only_undefined_behaviour_is_cast (fu : FloatUtils B64) q low discard level cap (s : spot B64) calls w :
  detector (c_math fu) q low discard level cap s -> session (c_math fu) s calls = Undef w -> w = CastRange.
Proof. exact (C14_lemma fu q low discard level cap s calls w). Qed.
Print Assumptions C14_only_undefined_behaviour_is_cast.
Example C14_example : (* a defined session, and one that reaches the conversion *)
  codes demo_up [CStep (N := B64) (d 7); CQuantile (N := B64) (dy 1 9); CProbability (N := B64) (d 9)] = Some [1; 7; 7] /\
  match session cm demo_up [CProbability (N := B64) pinf] with Undef w => w = CastRange | Ret _ => False end.
Proof. split; vm_compute; reflexivity. Qed.

(** C15 *)
Theorem C15_degenerate_window_overflows {N} cap (xs : list (num N)) :
  (cap = 0 \/ 2 ^ 61 <= cap) -> cap < 2 ^ 64 ->
  let blk := repeat None (Z.to_nat (ubend_bytes cap / 8)) in
  Z.of_nat (length blk) < Z.of_nat (length xs) ->
  ubend_pushes (fst (ubend_init (Some blk) cap)) xs = Undef OutOfBounds.
Proof. exact (C15_lemma cap xs). Qed.
Print Assumptions C15_degenerate_window_overflows.
Theorem C15_degenerate_fit_overflows mf (old : spot B64) q low discard level cap s data et :
  (cap = 0 \/ 2 ^ 61 <= cap) -> cap < 2 ^ 64 -> ubend_bytes cap < 8 ->
  spot_init old q low discard level cap (fun bytes => Some (repeat None (Z.to_nat (bytes / 8)))) = (s, 0) ->
  p2_quantile (N := B64) (if low =? 0 then level else b64_minus (d 1) level) data = Ret et -> is_NaN et = false ->
  excesses low et data <> [] ->
  spot_fit mf s data = Undef OutOfBounds.
Proof. exact (C15_fit_lemma mf old q low discard level cap s data et). Qed.
Print Assumptions C15_degenerate_fit_overflows.
Definition tight_init (cap : Z) : spot B64 :=
  fst (spot_init (N := B64) junk (dy 1 7) 0 1 (dy 3 2) cap (fun bytes => Some (repeat None (Z.to_nat (bytes / 8))))).
Example C15_example :
  forallb (fun cap => match spot_fit cm (tight_init cap) demo_batch with Undef OutOfBounds => true | _ => false end)
    [0; 2 ^ 61; 2 ^ 62; 7 * 2 ^ 61] = true /\ map ubend_bytes [0; 2 ^ 61; 2 ^ 62; 7 * 2 ^ 61; 2 ^ 61 + 1] = [0; 0; 0; 0; 8].
Proof. vm_compute. split; reflexivity. Qed.

(** C16 *)
Theorem C16_min_max_exact cap blk (xs : list b64) :
  1 <= cap < 2 ^ 61 -> Z.of_nat (length blk) = cap -> (forall x, In x xs -> is_NaN x = false) ->
  exists p : peaks B64,
    peaks_pushes (N := B64) (fst (peaks_init (Some blk) cap)) xs = Ret p /\
    oldest_first (p_cont p) = map Some (last_k cap xs) /\
    (xs <> [] ->
       In (p_min p) (last_k cap xs) /\ In (p_max p) (last_k cap xs) /\
       forall y, In y (last_k cap xs) -> b64_leb (p_min p) y = true /\ b64_leb y (p_max p) = true).
Proof. exact (C16_lemma cap blk xs). Qed.
Print Assumptions C16_min_max_exact.
Example C16_example :
  match peaks_pushes (N := B64) (fst (peaks_init (N := B64) (Some (block 3)) 3)) [d 5; pinf; d 1; d 2; d 3; d 4; ninf; d 2] with
  | Ret p => map sf [p_min p; p_max p] = map sf [ninf; d 4] | Undef _ => False end.
Proof. vm_compute. reflexivity. Qed.

(** C17 (exact arithmetic) *)
Theorem C17_mean_exact cap blk (xs : list R) : 1 <= cap < 2 ^ 61 -> Z.of_nat (length blk) = cap ->
  exists p : peaks RNum, peaks_pushes (N := RNum) (fst (peaks_init (Some blk) cap)) (map Some xs) = Ret p /\
    p_e p = Some (rsum (last_k cap xs)) /\
    (xs <> [] -> peaks_mean p = Some (rsum (last_k cap xs) / INR (length (last_k cap xs)))%R).
Proof. exact (C17_lemma cap blk xs). Qed.
Print Assumptions C17_mean_exact.
Example C17_example : exists p : peaks RNum,
  peaks_pushes (N := RNum) (fst (peaks_init (N := RNum) (Some [None; None]) 2)) (map Some [5; 4; 3]%R) = Ret p /\ p_e p = Some 7%R.
Proof.
  destruct (C17_mean_exact 2 [None; None] [5; 4; 3]%R) as (p & E & H & _); [lia|reflexivity|].
  exists p. split; [exact E|]. rewrite H. f_equal.
  change (last_k 2 [5; 4; 3]%R) with [4; 3]%R. unfold rsum. cbn [fold_right]. lra.
Qed.

(** C18 (exact arithmetic, then a binary64 witness) *)
Theorem C18_second_moment_without_extreme_eviction cap blk (xs : list R) : 1 <= cap < 2 ^ 61 -> Z.of_nat (length blk) = cap ->
  no_extreme_evicted cap xs -> xs <> [] ->
  exists p : peaks RNum, peaks_pushes (N := RNum) (fst (peaks_init (Some blk) cap)) (map Some xs) = Ret p /\
    p_e2 p = Some (sumsq (last_k cap xs)) /\
    peaks_var p = (let w := last_k cap xs in let n := INR (length w) in
                   Some (sumsq w / n - (rsum w / n) * (rsum w / n))%R).
Proof. exact (C18_moment_lemma cap blk xs). Qed.
Print Assumptions C18_second_moment_without_extreme_eviction.
Example C18_example : no_extreme_evicted 3 [2; 1; 3; 4]%R.
Proof.
  intros pre x post old E NO Hc.
  destruct pre as [|p0 [|p1 [|p2 [|p3 pre]]]]; cbn in Hc; try lia; cbn in E.
  - injection E as <- <- <- <- <-. cbn in NO. injection NO as <-.
    exists 1%R, 3%R. change (last_k 3 ([2; 1; 3] ++ [4])%R) with [1; 3; 4]%R.
    split; [left; reflexivity|]. split; [right; left; reflexivity|]. lra.
  - injection E as <- <- <- <- E. destruct pre; discriminate.
Qed.
Theorem C18_extreme_eviction_loses_second_moment cap blk (xs : list R) x old (p p' : peaks RNum) :
  1 <= cap < 2 ^ 61 -> Z.of_nat (length blk) = cap -> cap <= Z.of_nat (length xs) ->
  peaks_pushes (N := RNum) (fst (peaks_init (Some blk) cap)) (map Some xs) = Ret p ->
  peaks_push p (Some x : num RNum) = Ret p' ->
  nth_error xs (length xs - Z.to_nat cap) = Some old ->
  ~ (exists a b, In a (last_k cap (xs ++ [x])) /\ In b (last_k cap (xs ++ [x])) /\ (a < old < b)%R) ->
  exists v, last (cells (p_cont p')) None = Some (Some v) /\ p_e2 p' = Some (v * v)%R.
Proof. exact (C18_eviction_lemma cap blk xs x old p p'). Qed.
Print Assumptions C18_extreme_eviction_loses_second_moment.
Example C18_extreme_example : ~ (exists a b, In a (last_k 3 [5; 4; 3; 2]%R) /\ In b (last_k 3 [5; 4; 3; 2]%R) /\ (a < 5 < b)%R).
Proof.
  change (last_k 3 [5; 4; 3; 2]%R) with [4; 3; 2]%R. intros (a & b & _ & H & Hab).
  destruct H as [<- | [<- | [<- | []]]]; lra.
Qed.
(** A library whose variance were right could not do this: the variance is negative. *)
Theorem C18_variance_refuted : exists xs : list b64,
  (forall x, In x xs -> is_NaN x = false) /\
  match peaks_pushes (N := B64) (fst (peaks_init (N := B64) (Some (block 3)) 3)) xs with
  | Ret p => b64_ltb (peaks_var p) (d 0) = true /\ b64_ltb (mom_sigma p) (d 0) = true
  | Undef _ => False end.
Proof.
  exists (map d [30; 29; 28; 27]). split.
  - intros x Hx. cbn [map In] in Hx. repeat (destruct Hx as [<-|Hx]; [reflexivity|]). destruct Hx.
  - vm_compute. split; reflexivity.
Qed.
Print Assumptions C18_variance_refuted.

(** C19 *)
Theorem C19_window_values_nonnegative mf q low discard level cap (s : spot B64) :
  detector mf q low discard level cap s ->
  exists l, oldest_first (window s) = map Some l /\ (forall v, In v l -> is_NaN v = false /\ b64_leb (d 0) v = true).
Proof. exact (C19_lemma mf q low discard level cap s). Qed.
Print Assumptions C19_window_values_nonnegative.
Theorem C19_fit_keeps_positive low et data v : In v (excesses low et data) -> b64_ltb (d 0) v = true.
Proof. exact (excesses_pos low et data v). Qed.
Print Assumptions C19_fit_keeps_positive.
Example C19_example : length (oldest_first (window demo_up)) = 4%nat /\ length (oldest_first (window demo_low)) = 4%nat.
Proof. vm_compute. split; reflexivity. Qed.

(** C20 *)
Theorem C20_tail_fit_best_candidate mf (t t' : tail B64) ll : tail_fit mf t = Ret (t', ll) ->
  let p := t_peaks t in
  t_peaks t' = p /\
  log_likelihood mf p (t_gamma t') (t_sigma t') = Ret ll /\
  exists ll_mom ll_exp,
    log_likelihood mf p (mom_gamma p) (mom_sigma p) = Ret ll_mom /\
    log_likelihood mf p (d 0) (peaks_mean p) = Ret ll_exp /\
    (is_NaN ll_mom = false -> b64_leb ll_mom ll = true) /\
    (is_NaN ll_exp = false -> b64_leb ll_exp ll = true) /\
    (is_NaN ll = true -> is_NaN ll_mom = true /\ is_NaN ll_exp = true).
Proof. exact (C20_lemma mf t t' ll). Qed.
Print Assumptions C20_tail_fit_best_candidate.
Example C20_example : match tail_fit cm (s_tail demo_up) with
  | Ret (t', ll) => is_NaN ll = false /\ b64_ltb (d 1) (t_sigma t') = true | Undef _ => False end.
Proof. vm_compute. split; reflexivity. Qed.

(** C21 *)
Theorem C21_fit_return_codes mf (s : spot B64) data s' r : spot_fit mf s data = Ret (s', r) ->
  (r = 0 \/ r = -1003 \/ r = -1004) /\
  (r = 0 -> is_NaN (s_et s') = false /\ is_NaN (s_at s') = false) /\
  (r = -1003 -> s' = with_counts s 0 (Z.of_nat (length data))) /\
  (r = -1004 -> is_NaN (s_et s') = false /\ is_NaN (s_at s') = true).
Proof. exact (C21_lemma mf s data s' r). Qed.
Print Assumptions C21_fit_return_codes.
Example C21_example :
  codes (demo_init 0 1 4) [CFit (N := B64) demo_batch; CFit (N := B64) (map d [1; 1; 1; 1; 1]);
                           CFit (N := B64) [qnan; qnan; qnan; qnan; qnan]] = Some [0; -1004; -1003] /\
  codes (demo_init 0 1 4) [CFit (N := B64) []] = Some [-1004].
Proof. vm_compute. split; reflexivity. Qed.

(** C23 *)
Theorem C23_p2_total (p : b64) (xs : list b64) : exists r, p2_quantile (N := B64) p xs = Ret r.
Proof. exact (C23_lemma p xs). Qed.
Print Assumptions C23_p2_total.
Example C23_example : (* the cell index wraps below zero on the sixth value; NaN and infinities later *)
  match p2_quantile (N := B64) (dy 1 1) ([d 5; d 4; d 3; d 2; d 1; d 1; qnan; pinf; ninf; d 3; qnan]) with
  | Ret r => is_NaN r = false | Undef _ => False end.
Proof. vm_compute. reflexivity. Qed.

(** C24 *)
Theorem C24_sort5 (a : list b64) : length a = 5%nat ->
  exists a', sort5 (N := B64) a = Ret a' /\ Permutation a a' /\
    ((forall x, In x a -> is_NaN x = false) ->
     forall i j, (i < j < 5)%nat -> b64_leb (nth i a' (d 0)) (nth j a' (d 0)) = true).
Proof. exact (C24_lemma a). Qed.
Print Assumptions C24_sort5.
Example C24_example : match sort5 (N := B64) [d 3; pinf; d 1; ninf; d 2] with
  | Ret a => map sf a = map sf [ninf; d 1; d 2; d 3; pinf] | Undef _ => False end.
Proof. vm_compute. reflexivity. Qed.

(** C25 *)
Theorem C25_short_batch mf q low discard level cap (s : spot B64) data s' r :
  detector mf q low discard level cap s -> (length data < 5)%nat -> spot_fit mf s data = Ret (s', r) ->
  s_et s' = d 0 /\ r <> -1003 /\ s_Nt s' = count (beyond low (d 0)) data /\ s_n s' = Z.of_nat (length data) /\
  oldest_first (window s') = last_k cap (oldest_first (window s) ++ map Some (excesses low (d 0) data)).
Proof. exact (C25_lemma mf q low discard level cap s data s' r). Qed.
Print Assumptions C25_short_batch.
Example C25_example :
  let s := run (demo_init 0 1 4) [CFit (N := B64) (map d [100; -5; 300; 0])] in
  codes (demo_init 0 1 4) [CFit (N := B64) (map d [100; -5; 300; 0])] = Some [0] /\
  sf (s_et s) = sf (d 0) /\ s_Nt s = 2 /\ map (option_map sf) (oldest_first (window s)) = map (fun z => Some (sf (d z))) [100; 300].
Proof. vm_compute. repeat split. Qed.

(** C26 *)
Theorem C26_refit_keeps_window mf q low discard level cap (s : spot B64) data s' r :
  detector mf q low discard level cap s -> spot_fit mf s data = Ret (s', r) ->
  (r = -1003 -> window s' = window s) /\
  (r <> -1003 ->
     oldest_first (window s') = last_k cap (oldest_first (window s) ++ map Some (excesses low (s_et s') data)) /\
     (cap <= Z.of_nat (length (excesses low (s_et s') data)) ->
      oldest_first (window s') = map Some (last_k cap (excesses low (s_et s') data)))).
Proof. exact (C26_lemma mf q low discard level cap s data s' r). Qed.
Print Assumptions C26_refit_keeps_window.
(** the result of a fit depends on the history: the same batch, two different thresholds *)
Theorem C26_fit_depends_on_history_refuted :
  let b1 := map d [1; 2; 3; 4; 50] in let b2 := map d [1; 2; 3; 4; 5] in
  codes (demo_init 0 1 4) [CFit (N := B64) b1; CFit (N := B64) b2] = Some [0; 0] /\
  b64_eqb (s_at (run (demo_init 0 1 4) [CFit (N := B64) b2]))
          (s_at (run (demo_init 0 1 4) [CFit (N := B64) b1; CFit (N := B64) b2])) = false.
Proof.
  intros b1 b2. destruct (check_ok (demo_init 0 1 4) [CFit (N := B64) b1; CFit (N := B64) b2] [0; 0]
    (fun s => negb (b64_eqb (s_at (run (demo_init 0 1 4) [CFit (N := B64) b2])) (s_at s)))) as (_ & C & P); [vm_compute; reflexivity|].
  split; [exact C|]. exact (proj1 (negb_true_iff _) P).
Qed.
Print Assumptions C26_fit_depends_on_history_refuted.

(** C40 *)
Theorem C40_blind_until_next_excess mf q low discard level cap (s s' : spot B64) xs rs :
  detector mf q low discard level cap s -> is_NaN (s_at s) = true -> spot_steps mf s xs = Ret (s', rs) ->
  forall rs1 rs2, rs = rs1 ++ ANOMALY :: rs2 -> In EXCESS rs1.
Proof. exact (C40_lemma mf q low discard level cap s s' xs rs). Qed.
Print Assumptions C40_blind_until_next_excess.
(** a step that answers EXCESS and silently leaves a NaN anomaly threshold; +infinity is then not an anomaly *)
Definition blind_init : spot B64 :=
  fst (spot_init (N := B64) junk (dy 1 2) 0 1 (dy 1 1) 4 (fun _ => Some (block 4))).
Definition huge : b64 := b64_ofZ (2 ^ 1023).
Definition blind_calls : list (call B64) :=
  CFit (N := B64) [d 0; d 0; d 0; huge; huge] :: map (fun _ => CStep (N := B64) (d (-1))) (seq 0 6) ++ [CStep (N := B64) huge].
Theorem C40_silent_nan_threshold_refuted :
  codes blind_init blind_calls = Some [0; 0; 0; 0; 0; 0; 0; 1] /\
  is_NaN (s_at (run blind_init blind_calls)) = true /\
  codes blind_init (blind_calls ++ [CStep (N := B64) pinf]) = Some [0; 0; 0; 0; 0; 0; 0; 1; 1].
Proof.
  destruct (check_ok blind_init blind_calls [0; 0; 0; 0; 0; 0; 0; 1] (fun s => is_NaN (s_at s) && check s [CStep (N := B64) pinf] [1] (fun _ => true))) as (_ & C & P);
    [vm_compute; reflexivity|].
  apply andb_prop in P as (P1 & P2). apply check_ok in P2 as (_ & C2 & _).
  split; [exact C|]. split; [exact P1|]. exact (codes_app _ _ _ _ _ C C2).
Qed.
Print Assumptions C40_silent_nan_threshold_refuted.

(** C46 *)
Theorem C46_xmin (a b : b64) :
  (is_NaN (xmin (N := B64) a b) = true <-> is_NaN a = true \/ is_NaN b = true) /\
  (is_NaN a = false -> is_NaN b = false ->
   (xmin (N := B64) a b = a \/ xmin (N := B64) a b = b) /\
   b64_leb (xmin (N := B64) a b) a = true /\ b64_leb (xmin (N := B64) a b) b = true).
Proof. exact (C46_lemma a b). Qed.
Print Assumptions C46_xmin.
Example C46_example : sf (xmin (N := B64) (d 2) (d 3)) = sf (d 2) /\ sf (xmin (N := B64) pinf ninf) = sf ninf /\ xmin (N := B64) (d 1) qnan = qnan.
Proof. repeat split. Qed.
