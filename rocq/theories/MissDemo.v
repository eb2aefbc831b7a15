(** * MissDemo: examples and witness of C69 *)
From Coq Require Import ZArith List Bool Lia Reals Lra Permutation.
From Flocq Require Import IEEE754.BinarySingleNaN.
From Verif Require Import Num NumFacts XMath Ubend UbendFacts Session Peaks PeaksFacts Brent Estimator Tail P2 Spot RNum Spec B64 ExactWindow TailSpec Demo.
Import ListNotations.
Open Scope Z_scope.

(** risk 1/128, level 3/4, room for eight excesses; twelve 1s, then 65/64, 257, 65/64, 257 *)
Definition miss_batch : list b64 := repeat (d 1) 12 ++ [dy 65 6; d 257; dy 65 6; d 257].
Definition miss_demo : spot B64 := run (demo_init 0 1 8) [CFit (N := B64) miss_batch].
Lemma miss_detector : detector (c_math musl_utils) (dy 1 7) 0 1 (dy 3 2) 8 miss_demo.
Proof. apply demo_detector; [lia|vm_compute; reflexivity..]. Qed.
Definition miss_check : bool :=
  let p := t_peaks (s_tail miss_demo) in
  match log_likelihood cm p (t_gamma (s_tail miss_demo)) (t_sigma (s_tail miss_demo)), log_likelihood cm p (d 6 : num B64) (dy 5 7 : num B64) with
  | Ret ll, Ret ll' => b64_ltb (b64_plus ll (d 8)) ll'
  | _, _ => false
  end.
Lemma map_sf_inj (l l' : list (option b64)) : map (option_map sf) l = map (option_map sf) l' -> l = l'.
Proof.
  revert l'. induction l as [|x l IH]; intros [|y l'] H; try discriminate; [reflexivity|]. cbn [map] in H. injection H as H1 H2. f_equal; [|apply IH; assumption].
  destruct x as [x|], y as [y|]; try discriminate; [|reflexivity]. cbn [option_map] in H1. injection H1 as H1. f_equal. apply sf_inj. exact H1.
Qed.
Lemma miss_witness : exists (s : spot B64) ll ll', detector (c_math musl_utils) (dy 1 7) 0 1 (dy 3 2) 8 s /\
  oldest_first (window s) = map Some ([dy 1 6; d 256; dy 1 6; d 256] : list (num B64)) /\
  let t := s_tail s in log_likelihood (c_math musl_utils) (t_peaks t) (t_gamma t) (t_sigma t) = Ret ll /\
  log_likelihood (c_math musl_utils) (t_peaks t) (d 6 : num B64) (dy 5 7 : num B64) = Ret ll' /\
  b64_ltb (b64_plus ll (d 8)) ll' = true.
Proof.
  assert (H : miss_check = true) by (vm_compute; reflexivity). unfold miss_check in H. change cm with (c_math musl_utils) in H.
  destruct (log_likelihood _ _ (t_gamma _) _) as [ll|] eqn:E1; [|discriminate].
  destruct (log_likelihood (c_math musl_utils) (t_peaks (s_tail miss_demo)) _ _) as [ll'|] eqn:E2 in H; [|discriminate].
  exists miss_demo, ll, ll'. split; [exact miss_detector|]. split; [apply map_sf_inj; vm_compute; reflexivity|]. cbv zeta. auto.
Qed.

Lemma miss_example : exists t : tail RNum,
  peaks_pushes (N := RNum) (fst (peaks_init (N := RNum) (Some (repeat None 8)) 8)) (map Some [1 / 64; 256; 1 / 64; 256]%R) = Ret (t_peaks t) /\
  Permutation [1 / 64; 256; 1 / 64; 256]%R (repeat (1 / 64)%R 2 ++ repeat 256%R 2) /\
  (1024 * (1 / 64) <= 256 <= 1000000 /\ 256 * 256 <= 100000000 * (1 / 64))%R.
Proof.
  destruct (C18_moment_lemma 8 (repeat None 8) [1 / 64; 256; 1 / 64; 256]%R) as (p & E & _); [lia|reflexivity| |discriminate|].
  { intros pre x post old Ex No Hc. exfalso. apply (f_equal (@length R)) in Ex. rewrite app_length in Ex. cbn in Ex. lia. }
  exists (MkTail (N := RNum) None None p). split; [exact E|]. split; [|lra]. cbn. apply perm_skip, perm_swap.
Qed.
