(** * The complete effect of a calibration (C51) *)
From Coq Require Import ZArith List Bool.
From Flocq Require Import IEEE754.BinarySingleNaN.
From Verif Require Import Num XMath Ubend Session Peaks Brent Estimator Tail P2 Spot B64 Spec Demo FitEffect.
Import ListNotations.
Open Scope Z_scope.

(** C51 *)
Theorem C51_effect_of_fit mf q low discard level cap (s : spot B64) (data : list b64) s' r :
  detector mf q low discard level cap s -> Z.of_nat (length data) < 2 ^ 64 -> spot_fit mf s data = Ret (s', r) ->
  exists et : b64, p2_quantile (N := B64) (if low =? 0 then level else b64_minus (b64_ofZ 1) level) data = Ret (et : num B64) /\
  (is_NaN et = true -> r = -1003 /\ s' = with_counts s 0 (Z.of_nat (length data))) /\
  (is_NaN et = false ->
     s_et s' = et /\ s_n s' = Z.of_nat (length data) /\ s_Nt s' = count (beyond low et) data /\
     s_q s' = s_q s /\ s_level s' = s_level s /\ s_low s' = s_low s /\ s_discard s' = s_discard s /\ s_updown s' = s_updown s /\
     (exists filled ll, peaks_pushes (t_peaks (s_tail s)) (excesses low et data) = Ret filled /\
        tail_fit mf (MkTail (t_gamma (s_tail s)) (t_sigma (s_tail s)) filled) = Ret (s_tail s', ll)) /\
     spot_quantile mf s' (s_q s') = Ret (s_at s') /\
     r = if is_NaN (s_at s') then -1004 else 0).
Proof. exact (C51_lemma mf q low discard level cap s data s' r). Qed.
Print Assumptions C51_effect_of_fit.

(** a lower-tail detector of level 3/4 takes the quantile of order 1/4 of the batch, which differs from
    the quantile of order 3/4, and counts the four values below it *)
Example C51_example :
  detector cm (dy 1 7) 1 1 (dy 3 2) 4 (demo_init 1 1 4) /\
  (match spot_fit cm (demo_init 1 1 4) demo_batch, p2_quantile (N := B64) (dy 1 2) demo_batch,
        p2_quantile (N := B64) (dy 3 2) demo_batch with
  | Ret (s', r), Ret quarter, Ret three_quarters =>
      ((r =? 0) && b64_eqb quarter (s_et s') && b64_ltb quarter three_quarters && (s_Nt s' =? 4) && (s_n s' =? 20) = true)%bool
  | _, _, _ => False
  end : Prop).
Proof.
  split; [|vm_compute; reflexivity].
  apply (demo_detector 1 1 4 []); vm_compute; reflexivity.
Qed.
