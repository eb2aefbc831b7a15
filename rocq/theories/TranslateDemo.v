(** * TranslateDemo: witnesses of C64 *)
From Coq Require Import ZArith List Bool Reals Lra Lia.
From Flocq Require Import IEEE754.BinarySingleNaN.
From Verif Require Import Num XMath Ubend Session Peaks Brent Estimator Tail P2 Spot B64 RNum Spec Demo ScaleDemo.
Import ListNotations.
Open Scope R_scope.

Definition low_old : spot RNum :=
  MkSpot (N := RNum) None None 0 0 None None None 0 0 (MkTail (N := RNum) None None (fst (peaks_init (N := RNum) None 0))).
Lemma low_old_init : exists s0, spot_init (N := RNum) low_old (Some (1 / 100) : num RNum) 0 1 (Some (1 / 4) : num RNum) 2 (fun _ => Some [None; None]) = (s0, 0%Z).
Proof.
  unfold spot_init, spot_check. cbn. rewrite (Raux.Rlt_bool_false (1 / 4) 0), (Raux.Rle_bool_false 1 (1 / 4)) by lra. cbn.
  rewrite (Raux.Rle_bool_false (1 - 1 / 4) (1 / 100)), (Raux.Rle_bool_false (1 / 100) 0) by lra. cbn. eexists. reflexivity.
Qed.

Definition sb (l : list Z) : spot B64 := run (demo_init 0 0 4) [CFit (N := B64) (map d l)].
Lemma step_normal s x : code_of (spot_step (c_math musl_utils) s x) = 0%Z -> exists s', spot_step (c_math musl_utils) s x = Ret (s', NORMAL).
Proof. destruct (spot_step (c_math musl_utils) s x) as [[s1 r]|]; [|discriminate]. cbn [code_of]. intros ->. exists s1. reflexivity. Qed.
Lemma short_batch_witness : exists (s s1 s2 s1' s2' : spot B64),
  detector (c_math musl_utils) (dy 1 7) 0 0 (dy 3 2) 4 s /\
  spot_fit (c_math musl_utils) s (map d [1; 2; 3]%Z) = Ret (s1, 0%Z) /\ spot_step (c_math musl_utils) s1 (d (-1)) = Ret (s1', NORMAL) /\
  spot_fit (c_math musl_utils) s (map d [101; 102; 103]%Z) = Ret (s2, 0%Z) /\ spot_step (c_math musl_utils) s2 (d 99) = Ret (s2', EXCESS).
Proof.
  destruct (step_normal (sb [1; 2; 3]%Z) (d (-1))) as (s1' & E1); [vm_compute; reflexivity|].
  destruct (step_code (sb [101; 102; 103]%Z) (d 99)) as (s2' & E2); [vm_compute; reflexivity|].
  exists (demo_init 0 0 4), (sb [1; 2; 3]%Z), (sb [101; 102; 103]%Z), s1', s2'.
  split. { apply (demo_detector 0 0 4 []); vm_compute; reflexivity. }
  split. { apply run_fit. vm_compute. reflexivity. }
  split; [exact E1|].
  split. { apply run_fit. vm_compute. reflexivity. }
  exact E2.
Qed.
