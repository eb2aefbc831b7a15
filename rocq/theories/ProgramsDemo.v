(** * ProgramsDemo: concrete runs of the example programs *)
From stdpp Require Import gmap.
From Coq Require Import ZArith List Bool Reals Lra.
From Flocq Require Import IEEE754.BinarySingleNaN.
From Verif Require Import Num XMath Ubend Peaks Brent Estimator Tail P2 Spot B64 B64Facts SpotB64 LogAcc Heap HeapSpec Spec Demo PyBinding Programs.
Open Scope Z_scope.

(** rand() replaced by a small generator modulo 1000 (RAND_MAX = 999), log by the library's own *)
Definition demo_rand (i : nat) : Z := (Z.of_nat i * 7919 + 421) mod 1000.
Definition demo_log (x : b64) : b64 := xlog (N := B64) musl_utils x.
Lemma demo_rand_range i : 0 <= demo_rand i <= 999.
Proof. unfold demo_rand. pose proof (Z.mod_pos_bound (Z.of_nat i * 7919 + 421) 1000 eq_refl). Lia.lia. Qed.
Lemma demo_log_ok (x : b64) : b64_leb (d 0) x = true -> b64_leb x (d 1) = true -> is_NaN (demo_log x) = false.
Proof.
  intros H0 H1. apply leb_true_iff in H0 as (_ & Nx & V0). apply leb_true_iff in H1 as (_ & _ & V1).
  destruct (ofZ_exact 0) as [Fz Vz]; [Lia.lia|]. destruct (ofZ_exact 1) as [Fo Vo]; [Lia.lia|]. unfold d in *. rewrite xval_finite, Vz in V0 by assumption.
  rewrite (xval_finite (b64_ofZ 1)), Vo in V1 by assumption. unfold demo_log. rewrite is_NaN_eq.
  assert (Fx : finite64 x = true).
  { destruct x as [s|s| |s m e B]; try reflexivity; try discriminate. exfalso. pose proof (B2R_bounds (b64_ofZ 1)) as T. rewrite Vo in T. unfold xval in V0, V1; destruct s; lra. }
  rewrite xval_finite in V0 by assumption. destruct (Rle_lt_or_eq_dec _ _ V0) as [P|Z].
  - destruct (xlog_accuracy x Fx P) as [F _]. apply finite_not_nan. exact F.
  - destruct x as [s|s| |s m e B]; try discriminate.
    + rewrite (proj1 (proj2 (proj2 (xlog_special musl_utils (B754_zero s)))) s eq_refl). reflexivity.
    + exfalso. symmetry in Z. apply Float_prop.eq_0_F2R in Z. destruct s; discriminate.
Qed.

(** calibration on 30 draws, then 30 steps: the code returned by main, the counters, n, Nt, the blocks left in the heap *)
Definition summary (r : res (world B64 * Z * option report)) : option (Z * Z * Z * Z * Z * Z * Z) :=
  match r with
  | Ret (w, c, Some (t, _, _)) => let s := detector_state w 0 in
      Some (c, n_anomaly t, n_excess t, n_normal t, s_n s, s_Nt s, Z.of_nat (map_size (w_heap w)))
  | _ => None
  end.
(** what basic.py draws: the indices of the points, the number of values of the line *)
Definition drawn (r : res (world B64 * (list (nat * b64) * list b64 + exc))) : option (list nat * nat) :=
  match r with Ret (_, inl (points, line)) => Some (map fst points, List.length line) | _ => None end.
Definition demo_train : list b64 := map (rexp demo_log 999 demo_rand) (seq 0 30).
Definition demo_stream : list b64 := map d [1; 3; 300; 2; -4; 5000; 4; 7].
