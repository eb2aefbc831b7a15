(** * Lower tail and upper tail (C39) *)
From Coq Require Import ZArith List Bool.
From Flocq Require Import IEEE754.BinarySingleNaN.
From Verif Require Import Num XMath Ubend Session Peaks Brent Estimator Tail P2 Spot B64 Spec Demo MirrorSpec Mirror MirrorDemo.
Import ListNotations.
Open Scope Z_scope.

(** C39 *)
Theorem C39_stream_mirror mf (s t : spot B64) (xs : list b64) :
  mirror s t -> (forall x, In x xs -> b64_eqb x (s_et s) = false) ->
  match spot_steps mf s xs, spot_steps mf t (map b64_opp xs) with
  | Ret (s', answers), Ret (t', answers') => answers = answers' /\ mirror s' t'
  | Undef v, Undef w => v = w
  | _, _ => False
  end.
Proof. exact (steps_mirror mf xs (map b64_opp xs) s t eq_refl). Qed.
Print Assumptions C39_stream_mirror.
Theorem C39_quantile_mirror mf (s t : spot B64) (q : b64) : mirror s t ->
  match spot_quantile mf s q, spot_quantile mf t q with
  | Ret a, Ret b => opposite b a
  | Undef v, Undef w => v = w
  | _, _ => False
  end.
Proof. exact (quantile_mirror mf s t q). Qed.
Print Assumptions C39_quantile_mirror.
Theorem C39_probability_mirror mf (s t : spot B64) (z : b64) : mirror s t -> b64_eqb z (s_et s) = false ->
  spot_probability mf t (b64_opp z) = spot_probability mf s z.
Proof. exact (probability_mirror mf s t z). Qed.
Print Assumptions C39_probability_mirror.

(** at the threshold itself the two detectors part: the stored excess is +0 on one side and -0 on the other *)
Theorem C39_mirror_at_threshold_refuted : exists (s t : spot B64) (x : b64),
  detector cm (dy 1 7) 0 1 (dy 3 2) 4 s /\ detector cm (dy 1 7) 1 1 (dy 3 2) 4 t /\ mirror s t /\
  exists s' t' r r', spot_step cm s x = Ret (s', r) /\ spot_step cm t (b64_opp x) = Ret (t', r') /\ ~ mirror s' t'.
Proof. exact mirror_at_threshold. Qed.
Print Assumptions C39_mirror_at_threshold_refuted.
(** calibration is not symmetric: opposite batches and complementary orders (3/4 and 1/4, both exact) do
    not give opposite thresholds *)
Theorem C39_calibration_mirror_refuted : exists (data : list b64) (s t : spot B64),
  spot_fit cm (demo_init 0 1 4) data = Ret (s, 0) /\ spot_fit cm (demo_init 1 1 4) (map b64_opp data) = Ret (t, 0) /\
  ~ opposite (s_et t) (s_et s).
Proof. exact calibration_asymmetric. Qed.
Print Assumptions C39_calibration_mirror_refuted.

(** two reachable detectors that are mirror images: calibrated on 1,2,3 and on -1,-2,-3; they answer alike *)
Example C39_example : let up := fst pair3 in let low := snd pair3 in
  detector cm (dy 1 7) 0 1 (dy 3 2) 4 up /\ detector cm (dy 1 7) 1 1 (dy 3 2) 4 low /\ mirror up low /\
  codes up (map (@CStep B64) (map d [2; -5; 1; 100; 4])) = Some [1; 0; 1; 2; 1] /\
  codes low (map (@CStep B64) (map d [-2; 5; -1; -100; -4])) = Some [1; 0; 1; 2; 1].
Proof. exact pair3_facts. Qed.
