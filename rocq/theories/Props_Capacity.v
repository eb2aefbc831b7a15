(** * The parameter max_excess (C101) *)
From Coq Require Import ZArith List Bool.
From Flocq Require Import IEEE754.BinarySingleNaN.
From Verif Require Import Num XMath Ubend Session Peaks Brent Estimator Tail P2 Spot B64 Spec Demo.
From Verif Require Import CapacityLemmas.
Import ListNotations.
Open Scope Z_scope.

(** As long as the window is not full, a detector initialised with another max_excess, larger than the number of excesses stored,
    gives the same answers and has the same content. *)
Theorem C101_until_full {N} (mf : MathFns N) old q low discard level cap alloc s cs s' l cap' alloc' d' :
  1 <= cap < 2 ^ 64 -> cap' < 2 ^ 64 ->
  spot_init old q low discard level cap alloc = (s, 0) -> session mf s cs = Ret (s', l) ->
  peaks_size (t_peaks (s_tail s')) < cap -> peaks_size (t_peaks (s_tail s')) < cap' ->
  alloc' (ubend_bytes cap') = Some d' -> cap' <= Z.of_nat (length d') ->
  exists s0 s1, spot_init old q low discard level cap' alloc' = (s0, 0) /\ session mf s0 cs = Ret (s1, l) /\
    s_q s1 = s_q s' /\ s_level s1 = s_level s' /\ s_discard s1 = s_discard s' /\ s_low s1 = s_low s' /\ s_updown s1 = s_updown s' /\
    s_at s1 = s_at s' /\ s_et s1 = s_et s' /\ s_Nt s1 = s_Nt s' /\ s_n s1 = s_n s' /\
    t_gamma (s_tail s1) = t_gamma (s_tail s') /\ t_sigma (s_tail s1) = t_sigma (s_tail s') /\
    p_e (t_peaks (s_tail s1)) = p_e (t_peaks (s_tail s')) /\ p_e2 (t_peaks (s_tail s1)) = p_e2 (t_peaks (s_tail s')) /\
    p_min (t_peaks (s_tail s1)) = p_min (t_peaks (s_tail s')) /\ p_max (t_peaks (s_tail s1)) = p_max (t_peaks (s_tail s')) /\
    peaks_size (t_peaks (s_tail s1)) = peaks_size (t_peaks (s_tail s')) /\
    forall i, 0 <= i < peaks_size (t_peaks (s_tail s')) ->
      rdcell (u_data (p_cont (t_peaks (s_tail s1)))) i = rdcell (u_data (p_cont (t_peaks (s_tail s')))) i.
Proof. exact (until_full mf old q low discard level cap alloc s cs s' l cap' alloc' d'). Qed.
Print Assumptions C101_until_full.

(** Windows of six and nine after a calibration and three observations (five excesses are stored, and the last observation is an
    anomaly); a window of two has forgotten some of them, and there the last observation is an excess. *)
Definition stream : list (call B64) := [CFit (N := B64) (map d [1; 2; 3; 4; 2; 3; 1; 4]); CStep (N := B64) (d 1); CStep (N := B64) (d 4); CStep (N := B64) (d 5)].
Example C101_example : peaks_size (t_peaks (s_tail (run (demo_init 0 1 9) stream))) = 5 /\ codes (demo_init 0 1 9) stream = Some [0; 0; 1; 2] /\ codes (demo_init 0 1 6) stream = Some [0; 0; 1; 2] /\ codes (demo_init 0 1 2) stream = Some [0; 0; 1; 1].
Proof. split; [|split; [|split]]; vm_compute; reflexivity. Qed.
