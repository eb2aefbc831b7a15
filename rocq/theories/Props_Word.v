(** * A 32-bit unsigned long; usable parameters in exact arithmetic (C80, C81, C82) *)
From Coq Require Import ZArith List Bool Reals.
From Flocq Require Import IEEE754.BinarySingleNaN.
From Verif Require Import Num XMath Ubend Session Peaks Brent Estimator Tail P2 Spot B64 RNum Spec TailSpec Word WordLemmas WordApi WordJump ExactUsable Demo WordDemo.
Import ListNotations.
Open Scope Z_scope.

(** C80. The model with the width as a parameter is, at 64 bits, the model of the other properties. *)
Theorem C80_sixty_four_bits {N} (mf : MathFns N) :
  (forall s cs, w_session u64 mf s cs = session mf s cs) /\
  (forall old q low discard level cap alloc, w_spot_init u64 (N := N) old q low discard level cap alloc = spot_init old q low discard level cap alloc).
Proof. exact (word_64 mf). Qed.
Print Assumptions C80_sixty_four_bits.

(** C80. With max_excess below 2^29 and fewer than 2^32 observations in all, a detector compiled with a 32-bit unsigned long
    answers every call as the 64-bit one and goes through the same states, undefined behaviour included. *)
Theorem C80_same_on_32_bits {N} (mf : MathFns N) old q low discard level cap alloc s0 cs : 1 <= cap < 2 ^ 29 -> handed cs < 2 ^ 32 ->
  spot_init (N := N) old q low discard level cap alloc = (s0, 0) ->
  w_spot_init u32 old q low discard level cap alloc = (s0, 0) /\ w_session u32 mf s0 cs = session mf s0 cs.
Proof. exact (word_agree mf old q low discard level cap alloc s0 cs). Qed.
Print Assumptions C80_same_on_32_bits.
Example C80_example : spot_init (N := B64) junk (dy 1 7) 0 1 (dy 3 2) 4 (fun _ => Some (block 4)) = (demo_init 0 1 4, 0) /\
  handed [CFit (N := B64) [d 1]; CStep (d 2 : num B64); CStep (d (-1) : num B64)] = 3 /\
  codes (demo_init 0 1 4) [CFit (N := B64) [d 1]; CStep (d 2 : num B64); CStep (d (-1) : num B64)] = Some [0; EXCESS; NORMAL].
Proof. split; [reflexivity|]. split; [reflexivity|]. vm_compute. reflexivity. Qed.

(** C81. Beyond, the counter of observations starts again at zero: after a stream of normal observations it is their number
    modulo 2^32, and nothing else has changed. *)
Theorem C81_counter_wraps {N} (mf : MathFns N) xs (s s' : spot N) rs : 0 <= s_n s < 2 ^ 32 ->
  w_spot_steps u32 mf s xs = Ret (s', rs) -> (forall r, In r rs -> r = NORMAL) ->
  s' = with_counts s (s_Nt s) ((s_n s + Z.of_nat (length xs)) mod 2 ^ 32).
Proof. exact (word_normal mf xs s s' rs). Qed.
Print Assumptions C81_counter_wraps.

(** C81. Exact arithmetic. The same stream of normal observations followed by an excess, on 64 and on 32 bits, the total exceeding
    2^32: the answers and the window are the same, but the anomaly threshold on 32 bits is strictly farther out. *)
Theorem C81_threshold_jumps q low discard level cap (s a0 a : spot RNum) xs x (w : list R) :
  detector exact_math (Some q : num RNum) low discard level cap s -> cap < 2 ^ 32 -> 0 <= s_Nt s -> s_Nt s + 1 < 2 ^ 32 -> 0 <= s_n s < 2 ^ 32 ->
  2 ^ 32 <= s_n s + Z.of_nat (length xs) + 1 < 2 ^ 64 -> (s_n s + Z.of_nat (length xs) + 1) mod 2 ^ 32 <> 0 ->
  spot_steps exact_math s xs = Ret (a0, repeat NORMAL (length xs)) -> spot_step exact_math a0 x = Ret (a, EXCESS) ->
  oldest_first (window a) = map Some (map Some w : list (num RNum)) -> w <> [] -> (forall y, In y w -> (0 < y)%R) ->
  let dir := if low =? 0 then 1%R else (-1)%R in
  exists (b0 b : spot RNum) za zb, w_spot_steps u32 exact_math s xs = Ret (b0, repeat NORMAL (length xs)) /\ w_spot_step u32 exact_math b0 x = Ret (b, EXCESS) /\
    window a = window b /\ s_n a = s_n s + Z.of_nat (length xs) + 1 /\ s_n b = (s_n s + Z.of_nat (length xs) + 1) mod 2 ^ 32 /\
    s_at a = Some za /\ s_at b = Some zb /\ (dir * za < dir * zb)%R.
Proof. exact (word_stream q low discard level cap s a0 a xs x w). Qed.
Print Assumptions C81_threshold_jumps.
(** calibrated on 5, 1, 4, 2, 3, 3/2; then 2^32 zeros, and 7 *)
Example C81_jump_example : exists (s a0 a : spot RNum) (k : nat), detector exact_math (Some (1 / 100)%R : num RNum) 0 0 (Some (1 / 4)%R : num RNum) 8 s /\ s_n s = 6 /\ s_Nt s = 3 /\
  Z.of_nat k = 2 ^ 32 /\ spot_steps exact_math s (repeat (Some 0%R : num RNum) k) = Ret (a0, repeat NORMAL k) /\ spot_step exact_math a0 (Some 7%R : num RNum) = Ret (a, EXCESS) /\
  oldest_first (window a) = map Some (map Some [26 / 9; 17 / 9; 8 / 9; 44 / 9]%R : list (num RNum)).
Proof. exact jump_run. Qed.

(** C81. In binary64: after 2^32-1 normal observations the 32-bit counter is 0, the tail probability of 2 is infinite, and the
    next excess, 2, moves the anomaly threshold beyond 8 where the 64-bit build puts it below -20. *)
Theorem C81_counter_is_harmless_refuted : exists (s a0 a b0 b : spot B64) (p : b64) (k : nat), detector (c_math musl_utils) (dy 1 7) 0 1 (dy 3 2) 4 s /\ s_n s = 1 /\ Z.of_nat k = 2 ^ 32 - 1 /\
  spot_steps (c_math musl_utils) s (repeat (d (-1)) k) = Ret (a0, repeat NORMAL k) /\ s_n a0 = 2 ^ 32 /\
  w_spot_steps u32 (c_math musl_utils) s (repeat (d (-1)) k) = Ret (b0, repeat NORMAL k) /\ s_n b0 = 0 /\
  spot_probability (c_math musl_utils) b0 (d 2 : num B64) = Ret (p : num B64) /\ b64_eqb p pinf = true /\
  spot_step (c_math musl_utils) a0 (d 2 : num B64) = Ret (a, EXCESS) /\ b64_ltb (s_at a) (d (-20)) = true /\
  w_spot_step u32 (c_math musl_utils) b0 (d 2 : num B64) = Ret (b, EXCESS) /\ b64_ltb (d 8) (s_at b) = true.
Proof. exact word_witness. Qed.
Print Assumptions C81_counter_is_harmless_refuted.

(** C81. The size of the window is computed modulo 2^32 too: from max_excess = 2^29 on the block is shorter than the window it
    is used for, and enough excesses write past its end. *)
Theorem C81_window_overflows {N} cap (xs : list (num N)) : 2 ^ 29 <= cap < 2 ^ 32 ->
  let blk := repeat None (Z.to_nat (w_ubend_bytes u32 cap / 8)) in
  Z.of_nat (length blk) < Z.of_nat (length xs) ->
  w_ubend_pushes u32 (fst (ubend_init (N := N) (Some blk) cap)) xs = Undef OutOfBounds.
Proof. exact (word_overflow cap xs). Qed.
Print Assumptions C81_window_overflows.
(** max_excess = 2^29+1: one element is allocated, the second excess overflows *)
Example C81_window_example : w_ubend_bytes u32 (2 ^ 29 + 1) = 8 /\
  (let blk := repeat None (Z.to_nat (w_ubend_bytes u32 (2 ^ 29 + 1) / 8)) in length blk = 1%nat /\
   w_ubend_pushes u32 (fst (ubend_init (N := B64) (Some blk) (2 ^ 29 + 1))) [d 1; d 2] = Undef OutOfBounds).
Proof. split; [reflexivity|]. split; [reflexivity|]. apply C81_window_overflows; [split; [discriminate|reflexivity]|reflexivity]. Qed.

(** C81. For multiples of 2^29 nothing is allocated although spot_init answers 0: a calibration with an excess is undefined behaviour. *)
Theorem C81_fit_overflows mf (old : spot B64) q low discard level k s data et :
  1 <= k < 8 ->
  w_spot_init u32 old q low discard level (k * 2 ^ 29) (fun bytes => Some (repeat None (Z.to_nat (bytes / 8)))) = (s, 0) ->
  p2_quantile (N := B64) (if low =? 0 then level else b64_minus (d 1) level) data = Ret et -> is_NaN et = false ->
  excesses low et data <> [] ->
  w_spot_fit u32 mf s data = Undef OutOfBounds.
Proof. exact (word_overflow_fit mf old q low discard level k s data et). Qed.
Print Assumptions C81_fit_overflows.
Example C81_fit_example : exists s et, w_spot_init u32 junk (dy 1 7) 0 1 (dy 3 2) (1 * 2 ^ 29) (fun bytes => Some (repeat None (Z.to_nat (bytes / 8)))) = (s, 0) /\
  p2_quantile (N := B64) (dy 3 2) [d 1] = Ret et /\ is_NaN et = false /\ length (excesses 0 et [d 1]) = 1%nat.
Proof. eexists _, (d 0). split; [reflexivity|]. split; [reflexivity|]. split; [reflexivity|]. vm_compute. reflexivity. Qed.

(** C82. Exact arithmetic. After every excess and every calibration (the excess threshold found), the counters being positive and
    the excesses of the window positive: the parameters are a usable generalized Pareto distribution — scale positive, every
    excess of the window in the support, likelihood at least that of the exponential fit — and the anomaly threshold is the
    quantile of q under it, a real number. *)
Theorem C82_refit_is_usable (q : R) low discard level cap (s s' : spot RNum) (w : list R) :
  detector exact_math (Some q : num RNum) low discard level cap s ->
  (exists x, spot_step exact_math s x = Ret (s', EXCESS)) \/
  (exists data r, spot_fit exact_math s data = Ret (s', r) /\ r <> - ERR_EXCESS_THRESHOLD_IS_NAN) ->
  0 < s_Nt s' -> 0 < s_n s' ->
  oldest_first (window s') = map Some (map Some w : list (num RNum)) -> w <> [] -> (forall y, In y w -> (0 < y)%R) ->
  exists et sg g z, real_detector s' et (if low =? 0 then 1%R else (-1)%R) sg g /\ (forall y, In y w -> gpd_support g sg y) /\
    (gpd_log_likelihood 0 (mean w) w <= gpd_log_likelihood g sg w)%R /\
    s_at s' = Some z /\ spot_quantile exact_math s' (Some q : num RNum) = Ret (Some z).
Proof. exact (exact_usable q low discard level cap s s' w). Qed.
Print Assumptions C82_refit_is_usable.

(** C82. In particular such a calibration answers 0: the anomaly threshold is never NaN in exact arithmetic. *)
Theorem C82_calibration_answers_0 (q : R) low discard level cap (s s' : spot RNum) data r (w : list R) :
  detector exact_math (Some q : num RNum) low discard level cap s -> spot_fit exact_math s data = Ret (s', r) -> r <> - ERR_EXCESS_THRESHOLD_IS_NAN ->
  0 < s_Nt s' -> 0 < s_n s' ->
  oldest_first (window s') = map Some (map Some w : list (num RNum)) -> w <> [] -> (forall y, In y w -> (0 < y)%R) -> r = 0.
Proof. exact (exact_fit_code q low discard level cap s s' data r w). Qed.
Print Assumptions C82_calibration_answers_0.
Example C82_example : exists (s0 s : spot RNum) r, detector exact_math (Some (1 / 100)%R : num RNum) 0 0 (Some (1 / 4)%R : num RNum) 8 s0 /\
  spot_fit exact_math s0 (map Some [5; 1; 4; 2; 3; 3 / 2]%R) = Ret (s, r) /\ r <> - ERR_EXCESS_THRESHOLD_IS_NAN /\ s_Nt s = 3 /\ s_n s = 6 /\
  oldest_first (window s) = map Some (map Some [26 / 9; 17 / 9; 8 / 9]%R : list (num RNum)).
Proof. exact usable_run. Qed.
