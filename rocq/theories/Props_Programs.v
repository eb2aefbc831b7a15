(** * The example programs (C70, C71) *)
From stdpp Require Import gmap.
From Coq Require Import ZArith List Bool String.
From Verif Require Import Num XMath Ubend Session Peaks Brent Estimator Tail P2 Spot B64 Str Heap Spec HeapSpec Demo StrLemmas PyBinding BindSpec
  Programs ProgramsLemmas Props_Heap Props_Bindings ProgramsDemo.
Open Scope Z_scope.

(** C70. examples/basic.c with n initial data and k steps (20000 and 50000000 in the file), whatever rand() returns, for any log that
    is not NaN on [0,1]. Either malloc(1600) fails, main returns 1000 and the heap is as before; or that block is the only allocation
    and it is still in the heap at the end (the program has no spot_free). Then the calibration fails, and main returns 1003 or 1004;
    or main returns 0 and prints counters whose sum is k, so that the ints do not overflow, and which are those of the detector. *)
Theorem C70_basic_c lg rand_max rand m (w : world B64) n k w' code out : fresh_malloc (Some m) ->
  0 < rand_max < 2 ^ 31 -> (forall i, 0 <= rand i <= rand_max) ->
  (forall x : b64, b64_leb (d 0) x = true -> b64_leb x (d 1) = true -> is_NaN (lg x) = false) ->
  Z.of_nat n + Z.of_nat k < 2 ^ 64 ->
  basic_main lg rand_max rand m w n k = Ret (w', code, out) ->
  (code = 1000 /\ out = None /\ m 1600 (w_heap w) = None /\ w_heap w' = w_heap w) \/
  exists a, m 1600 (w_heap w) = Some a /\ w_log w' = w_log w ++ [EvMalloc 1600 (Some a)] /\
    (forall b, is_Some (w_heap w' !! b) <-> is_Some (w_heap w !! b) \/ b = a) /\
    (((code = 1003 \/ code = 1004) /\ out = None) \/
     let s := detector_state w' 0 in
     code = 0 /\ exists t, out = Some (t, s_at s, s_et s) /\
       0 <= n_anomaly t /\ 0 <= n_excess t /\ 0 <= n_normal t /\ n_anomaly t + n_excess t + n_normal t = Z.of_nat k /\
       s_n s = Z.of_nat n + n_excess t + n_normal t /\
       s_Nt s = count (beyond 0 (s_et s)) (map (rexp lg rand_max rand) (seq 0 n)) + n_excess t).
Proof. exact (C70_lemma lg rand_max rand m w n k w' code out). Qed.
Print Assumptions C70_basic_c.
Theorem C70_only_undefined_behaviour_is_cast lg rand_max rand m (w : world B64) n k x : fresh_malloc (Some m) ->
  basic_main lg rand_max rand m w n k = Undef x -> x = CastRange.
Proof. exact (C70_undef_lemma lg rand_max rand m w n k x). Qed.
Print Assumptions C70_only_undefined_behaviour_is_cast.
(** the library's own logarithm satisfies the hypothesis; 30 draws, 30 steps: 2 excesses, 28 normal; n = 60, Nt = 4, one block left *)
Example C70_example : fresh_malloc (Some three_blocks) /\ (forall i, 0 <= demo_rand i <= 999) /\
  (forall x : b64, b64_leb (d 0) x = true -> b64_leb x (d 1) = true -> is_NaN (demo_log x) = false) /\
  summary (basic_main demo_log 999 demo_rand three_blocks world0 30 30) = Some (0, 0, 2, 28, 60, 4, 1).
Proof.
  split; [exact world0_fresh|]. split; [exact demo_rand_range|]. split; [exact demo_log_ok|]. vm_compute. reflexivity.
Qed.

(** C71. examples/basic.py on any training set and any stream without NaN. The line has one value per observation. The points are the
    observations beyond the previous value of the line (the threshold after the calibration for the first), in order, once each; and every point is above the line as
    drawn, that is above the threshold after that observation. *)
Theorem C71_basic_py mallocs junk (w : world B64) train stream : fresh_malloc (w_malloc w) -> 256 <= Z.of_nat (List.length junk) ->
  8 * Z.of_nat (List.length train) < 2 ^ 64 -> (train = [] \/ mallocs (8 * Z.of_nat (List.length train)) = true) ->
  (forall x, In x stream -> is_NaN x = false) ->
  match plot_main mallocs junk w train stream with
  | Undef y => y = CastRange
  | Ret (w', inr e) => e = SystemError \/ e = RuntimeError (bytes_of "Memory allocation failed")
  | Ret (w', inl (points, line)) => List.length line = List.length stream /\
      (exists w0, plot_main mallocs junk w train [] = Ret (w0, inl ([], [])) /\
         points = map fst (filter (fun p => b64_ltb (snd p) (snd (fst p)))
                    (combine (combine (seq 0 (List.length stream)) stream) (s_at (detector_state w0 0) :: line)))) /\
      forall k x, In (k, x) points -> exists t, nth_error line k = Some t /\ b64_ltb t x = true
  end.
Proof. exact (C71_lemma mallocs junk w train stream). Qed.
Print Assumptions C71_basic_py.
Example C71_example : fresh_malloc (w_malloc world0) /\ always (8 * Z.of_nat (List.length demo_train)) = true /\
  forallb (fun x => negb (is_NaN x)) demo_stream = true /\
  drawn (plot_main always noise world0 demo_train demo_stream) = Some ([2; 5; 7]%nat, 8%nat).
Proof. split; [exact world0_fresh|]. repeat split; vm_compute; reflexivity. Qed.
