(** * Properties of the detector: initialisation, decision rules, counters (C01-C12) *)
From Coq Require Import ZArith List Bool Reals.
From Flocq Require Import IEEE754.BinarySingleNaN.
From Verif Require Import Num XMath Ubend Session Peaks Brent Estimator Tail P2 Spot B64 B64Facts Spec DetectorLemmas Demo DemoCheck.
Import ListNotations.
Open Scope Z_scope.

(** C01. [xval] is the real value of a double, the infinities being ±2^1024. *)
Theorem C01_init_validation (old : spot B64) q low discard level cap alloc :
  is_NaN q = false -> is_NaN level = false ->
  let '(s, r) := spot_init old q low discard level cap alloc in
  (r = -1001 <-> (xval level < 0 \/ 1 <= xval level)%R) /\
  (r = -1002 <-> (0 <= xval level < 1)%R /\ (xval q <= 0 \/ xval (b64_minus (d 1) level) <= xval q)%R) /\
  (r = 0 \/ r = -1000 <-> (0 <= xval level < 1)%R /\ (0 < xval q < xval (b64_minus (d 1) level))%R) /\
  (r = -1001 \/ r = -1002 -> s = old).
Proof. exact (C01_lemma old q low discard level cap alloc). Qed.
Print Assumptions C01_init_validation.
Example C01_example_level : spot_init (N := B64) junk (dy 1 7) 0 1 (d 1) 4 (fun _ => None) = (junk, -1001).
Proof. reflexivity. Qed.
Example C01_example_q : spot_init (N := B64) junk (dy 1 2) 0 1 (dy 3 2) 4 (fun _ => None) = (junk, -1002).
Proof. reflexivity. Qed.
Example C01_example_ok : snd (spot_init (N := B64) junk (dy 1 3) 0 1 (dy 3 2) 4 (fun _ => Some (block 4))) = 0.
Proof. reflexivity. Qed.

(** C02 *)
Theorem C02_nan_parameters (old : spot B64) q low discard level cap alloc blk :
  alloc (ubend_bytes cap) = Some blk ->
  (snd (spot_init old q low discard level cap alloc) = 0 <->
   (is_NaN level = true /\ b64_leb q (d 0) = false) \/
   (b64_leb (d 0) level = true /\ b64_ltb level (d 1) = true /\
    (is_NaN q = true \/ (b64_ltb (d 0) q = true /\ b64_ltb q (b64_minus (d 1) level) = true)))).
Proof. exact (C02_lemma old q low discard level cap alloc blk). Qed.
Print Assumptions C02_nan_parameters.
Example C02_example_level : snd (spot_init (N := B64) junk (d 3) 0 1 qnan 4 (fun _ => Some (block 4))) = 0.
Proof. reflexivity. Qed.
Example C02_example_q : snd (spot_init (N := B64) junk qnan 0 1 (dy 3 2) 4 (fun _ => Some (block 4))) = 0.
Proof. reflexivity. Qed.

(** C03 *)
Theorem C03_state_after_init {N} (old : spot N) q low discard level cap blk s :
  spot_init old q low discard level cap (fun _ => Some blk) = (s, 0) ->
  s_q s = q /\ s_level s = level /\
  s_low s = (if low =? 0 then 0 else 1) /\ s_discard s = (if discard =? 0 then 0 else 1) /\
  s_n s = 0 /\ s_Nt s = 0 /\ s_at s = c_nan /\ s_et s = c_nan /\
  t_gamma (s_tail s) = c_nan /\ t_sigma (s_tail s) = c_nan /\
  ubend_size (window s) = 0 /\ u_capacity (window s) = cap /\ u_data (window s) = blk /\ oldest_first (window s) = [].
Proof. exact (C03_lemma old q low discard level cap blk s). Qed.
Print Assumptions C03_state_after_init.
Example C03_example : snd (spot_init (N := B64) junk (dy 1 7) 5 (-2) (dy 3 2) 4 (fun _ => Some (block 4))) = 0 /\
  s_low (demo_init 5 (-2) 4) = 1 /\ s_discard (demo_init 5 (-2) 4) = 1 /\ is_NaN (s_et (demo_init 5 (-2) 4)) = true.
Proof. repeat split. Qed.

(** C04 (the struct; the heap is in Props_Heap) *)
Theorem C04_init_alloc_failure {N} (old : spot N) q low discard level cap alloc s r :
  alloc (ubend_bytes cap) = None -> spot_init old q low discard level cap alloc = (s, r) ->
  r = -1000 /\ s_at s = s_at old /\ s_et s = s_et old /\ u_data (window s) = [] \/
  (r = -1001 \/ r = -1002) /\ s = old.
Proof. exact (C04_lemma old q low discard level cap alloc s r). Qed.
Print Assumptions C04_init_alloc_failure.
Example C04_example :
  let '(s, r) := spot_init (N := B64) junk (dy 1 7) 0 1 (dy 3 2) 4 (fun _ => None) in
  r = -1000 /\ s_at s = d 12 /\ s_et s = d 13.
Proof.
  assert (C : spot_check (N := B64) (dy 1 7) (dy 3 2) = None) by (vm_compute; reflexivity). unfold spot_init. rewrite C. repeat split.
Qed.

(** C05 *)
Theorem C05_unfitted_never_flags mf (old : spot B64) q low discard level cap blk s xs :
  spot_init old q low discard level cap (fun _ => Some blk) = (s, 0) ->
  (forall x, In x xs -> is_NaN x = false) -> Z.of_nat (length xs) < 2 ^ 64 ->
  spot_steps (N := B64) mf s xs =
    Ret (with_counts s 0 (Z.of_nat (length xs)), map (fun _ => NORMAL) xs).
Proof. exact (C05_lemma mf old q low discard level cap blk s xs). Qed.
Print Assumptions C05_unfitted_never_flags.
Example C05_example : match spot_steps (N := B64) cm (demo_init 0 1 4) [d 3; pinf; ninf; d (-7)] with
  | Ret (s, rs) => rs = [0; 0; 0; 0] /\ s_n s = 4 | Undef _ => False end.
Proof. vm_compute. split; reflexivity. Qed.

(** C06 *)
Theorem C06_nan_observation mf (s : spot B64) x :
  (is_NaN x = true -> spot_step mf s x = Ret (s, -1005)) /\
  (forall s' r, spot_step mf s x = Ret (s', r) -> r < 0 -> is_NaN x = true /\ r = -1005 /\ s' = s).
Proof. exact (C06_lemma mf s x). Qed.
Print Assumptions C06_nan_observation.
Example C06_example : spot_step cm demo_up qnan = Ret (demo_up, -1005).
Proof. exact (proj1 (C06_nan_observation cm demo_up qnan) eq_refl). Qed.

(** C07 *)
Theorem C07_anomaly_rule mf q low discard level cap (s : spot B64) x :
  detector mf q low discard level cap s -> is_NaN x = false ->
  (discard <> 0 /\ beyond low (s_at s) x = true -> spot_step mf s x = Ret (s, ANOMALY)) /\
  (forall s', spot_step mf s x = Ret (s', ANOMALY) -> discard <> 0 /\ beyond low (s_at s) x = true /\ s' = s).
Proof. exact (C07_lemma mf q low discard level cap s x). Qed.
Print Assumptions C07_anomaly_rule.
Example C07_example_up : spot_step cm demo_up (d 12) = Ret (demo_up, ANOMALY).
Proof. apply (C07_anomaly_rule cm _ _ _ _ _ demo_up (d 12) detector_up); [reflexivity|]. split; [discriminate|vm_compute; reflexivity]. Qed.
Example C07_example_low : spot_step cm demo_low (d (-2)) = Ret (demo_low, ANOMALY).
Proof. apply (C07_anomaly_rule cm _ _ _ _ _ demo_low (d (-2)) detector_low); [reflexivity|]. split; [discriminate|vm_compute; reflexivity]. Qed.

(** C08 *)
Theorem C08_excess_rule mf q low discard level cap (s : spot B64) x s' r :
  detector mf q low discard level cap s -> is_NaN x = false ->
  spot_step mf s x = Ret (s', r) ->
  (r = NORMAL \/ r = EXCESS \/ r = ANOMALY) /\
  (r <> ANOMALY -> same_infinity x (s_et s) = false ->
     (r = EXCESS <-> at_or_beyond low (s_et s) x = true)).
Proof. exact (C08_lemma mf q low discard level cap s x s' r). Qed.
Print Assumptions C08_excess_rule.
Example C08_example :
  codes demo_up [CStep (N := B64) (s_et demo_up); CStep (N := B64) (d 6)] = Some [EXCESS; NORMAL] /\
  codes demo_low [CStep (N := B64) (s_et demo_low); CStep (N := B64) (d 3)] = Some [EXCESS; NORMAL].
Proof. split; vm_compute; reflexivity. Qed.

(** C09 *)
Theorem C09_outcome_effects {N} (mf : MathFns N) s x s' r : spot_step mf s x = Ret (s', r) ->
  (r = ANOMALY -> s' = s) /\
  (r = NORMAL -> s' = with_counts s (s_Nt s) (u64 (s_n s + 1))) /\
  (r = EXCESS ->
     s_n s' = u64 (s_n s + 1) /\ s_Nt s' = u64 (s_Nt s + 1) /\
     s_et s' = s_et s /\ s_q s' = s_q s /\ s_level s' = s_level s /\ s_low s' = s_low s /\
     s_discard s' = s_discard s /\ s_updown s' = s_updown s /\
     exists pushed ll,
       tail_push (s_tail s) (nmul (s_updown s) (nsub x (s_et s))) = Ret pushed /\
       tail_fit mf pushed = Ret (s_tail s', ll) /\
       spot_quantile mf s' (s_q s') = Ret (s_at s')).
Proof. exact (C09_lemma mf s x s' r). Qed.
Print Assumptions C09_outcome_effects.
Theorem C09_excess_window mf q low discard level cap (s : spot B64) x s' :
  detector mf q low discard level cap s -> spot_step mf s x = Ret (s', EXCESS) ->
  oldest_first (window s') = last_k cap (oldest_first (window s) ++
     [Some (if low =? 0 then b64_minus x (s_et s) else b64_opp (b64_minus x (s_et s)))]).
Proof. exact (C09_window_lemma mf q low discard level cap s x s'). Qed.
Print Assumptions C09_excess_window.
Example C09_example :
  let s' := run demo_up [CStep (N := B64) (d 7)] in
  codes demo_up [CStep (N := B64) (d 7)] = Some [EXCESS] /\
  s_n s' = 21 /\ s_Nt s' = 7 /\
  map (option_map sf) (oldest_first (window s')) =
  map (option_map sf) (tl (oldest_first (window demo_up)) ++ [Some (b64_minus (d 7) (s_et demo_up))]).
Proof. vm_compute. repeat split. Qed.

(** C10 *)
Theorem C10_classification_monotone mf q low discard level cap (s : spot B64) x y sx rx sy ry :
  detector mf q low discard level cap s -> is_NaN x = false -> is_NaN y = false ->
  at_or_beyond low x y = true ->
  spot_step mf s x = Ret (sx, rx) -> spot_step mf s y = Ret (sy, ry) -> rx <= ry.
Proof. exact (C10_lemma mf q low discard level cap s x y sx rx sy ry). Qed.
Print Assumptions C10_classification_monotone.
Example C10_example :
  map (fun x => codes demo_up [CStep (N := B64) x]) [ninf; d 6; d 7; d 12; pinf] =
  map (fun r => Some [r]) [0; 0; 1; 2; 2].
Proof. vm_compute. reflexivity. Qed.

(** C11 *)
Theorem C11_counters mf q low discard level cap (s s1 s2 : spot B64) data r xs rs :
  detector mf q low discard level cap s ->
  spot_fit mf s data = Ret (s1, r) -> r = 0 ->
  spot_steps mf s1 xs = Ret (s2, rs) ->
  Z.of_nat (length data) + Z.of_nat (length xs) < 2 ^ 64 ->
  s_n s2 = Z.of_nat (length data) + count (fun c => (c =? NORMAL) || (c =? EXCESS)) rs /\
  s_Nt s2 = count (beyond low (s_et s1)) data + count (fun c => c =? EXCESS) rs /\
  s_Nt s2 <= s_n s2.
Proof. exact (C11_lemma mf q low discard level cap s s1 s2 data r xs rs). Qed.
Print Assumptions C11_counters.
Example C11_example :
  let cs := [CFit (N := B64) demo_batch; CStep (N := B64) (d 1); CStep (N := B64) (d 7); CStep (N := B64) qnan;
             CStep (N := B64) (d 30); CStep (N := B64) (d 8)] in
  let s := run (demo_init 0 1 4) cs in
  codes (demo_init 0 1 4) cs = Some [0; 0; 1; -1005; 2; 1] /\ s_n s = 23 /\ s_Nt s = 8.
Proof.
  intros cs s. destruct (check_ok (demo_init 0 1 4) cs [0; 0; 1; -1005; 2; 1] (fun s => (s_n s =? 23) && (s_Nt s =? 8))%bool) as (_ & C & P); [vm_compute; reflexivity|].
  apply andb_prop in P as (P1 & P2). split; [exact C|]. exact (conj (proj1 (Z.eqb_eq _ _) P1) (proj1 (Z.eqb_eq _ _) P2)).
Qed.

(** C12 *)
Theorem C12_steps_keep_configuration {N} (mf : MathFns N) s xs s' rs : spot_steps mf s xs = Ret (s', rs) ->
  s_et s' = s_et s /\ s_q s' = s_q s /\ s_level s' = s_level s /\ s_low s' = s_low s /\
  s_discard s' = s_discard s /\ s_updown s' = s_updown s /\ u_capacity (window s') = u_capacity (window s) /\
  length (u_data (window s')) = length (u_data (window s)).
Proof. exact (C12_lemma mf s xs s' rs). Qed.
Print Assumptions C12_steps_keep_configuration.
Example C12_example : match spot_steps cm demo_up [d 7; d 30; d 2; d 8] with
  | Ret (s', rs) => rs = [1; 2; 0; 1] /\ sf (s_et s') = sf (s_et demo_up) /\ u_capacity (window s') = 4 | Undef _ => False end.
Proof. vm_compute. repeat split. Qed.
