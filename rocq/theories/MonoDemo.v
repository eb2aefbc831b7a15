(** * MonoDemo: witnesses for C83 and C84 *)
From Coq Require Import ZArith List Bool Reals Lra Lia.
From Flocq Require Import Core.Core IEEE754.BinarySingleNaN.
From Verif Require Import Num XMath Ubend Session Peaks Brent Estimator Tail P2 Spot B64 RNum Spec B64Facts FloatUtilsLemmas LogAcc PowAcc4 LogMono Demo AccDemo.
Import ListNotations.
Open Scope R_scope.

(** the double before 32 *)
Definition before32 : b64 := @B754_finite 53 1024 false 9007199254740991 (-48) eq_refl.
Lemma log_drops : ~ (forall x y : b64, is_finite x = true -> is_finite y = true -> b64_ltb (d 0) x = true -> b64_leb x y = true ->
  b64_leb (xlog (N := B64) musl_utils x) (xlog (N := B64) musl_utils y) = true).
Proof.
  intros H. assert (X : b64_leb (xlog (N := B64) musl_utils before32) (xlog (N := B64) musl_utils (d 32)) = false) by (vm_compute; reflexivity).
  assert (Y : b64_leb (xlog (N := B64) musl_utils before32) (xlog (N := B64) musl_utils (d 32)) = true) by (apply H; vm_compute; reflexivity). congruence.
Qed.
Lemma log_sign (x : b64) : finite64 x = true -> 0 < B2R64 x -> let l := xlog (N := B64) musl_utils x : b64 in
  finite64 l = true /\ (1 <= B2R64 x -> 0 <= B2R64 l) /\ (B2R64 x <= 1 -> B2R64 l <= 0).
Proof.
  intros F P. cbv zeta. destruct (xlog_accuracy x F P) as (L & _). split; [exact L|]. split; intros H; [apply (xlog_sign x F H)|apply (xlog_nonpos x F (conj P H))].
Qed.
Lemma mhalf_value : finite64 (dy (-1) 1) = true /\ B2R64 (dy (-1) 1) = - (1 / 2).
Proof.
  assert (E : B2SF (dy (-1) 1) = SpecFloat.S754_finite true 0x10000000000000 (-53)) by (vm_compute; reflexivity).
  destruct (dy (-1) 1) as [s|s| |s m e X]; try discriminate. injection E as -> -> ->. split; [reflexivity|]. unfold B2R64, B2R, F2R. cbn [Fnum Fexp cond_Zopp]. simpl. lra.
Qed.
(** calibrated on the single value 1, then given 1/10 *)
Definition tenth : b64 := b64_div (b64_ofZ 1) (b64_ofZ 10).
Definition likely (r : res (spot B64 * Z)) : bool :=
  match r with
  | Ret (s, 0%Z) => match spot_step cm s tenth with
      | Ret (s', r') => (r' =? EXCESS)%Z && match spot_probability cm s' tenth with Ret p => negb (b64_leb p (b64_minus (b64_ofZ 1) (s_level s'))) | Undef _ => false end
      | Undef _ => false end
  | _ => false end.
Lemma likely_inv r : likely r = true -> exists s s' p, r = Ret (s, 0%Z) /\ spot_step cm s tenth = Ret (s', EXCESS) /\ spot_probability cm s' tenth = Ret p /\
  b64_leb p (b64_minus (b64_ofZ 1) (s_level s')) = false.
Proof.
  unfold likely. intros L. destruct r as [[s r]|]; [|discriminate L]. destruct (Z.eqb_spec r 0) as [->|R0]; [|destruct r; [congruence|discriminate L|discriminate L]].
  destruct (spot_step cm s tenth) as [[s' r']|] eqn:E2; [|discriminate L]. apply andb_prop in L as (L1 & L2). apply Z.eqb_eq in L1. subst r'.
  destruct (spot_probability cm s' tenth) as [p|] eqn:E3; [|discriminate L2]. exists s, s', p. split; [reflexivity|]. split; [exact E2|]. split; [exact E3|]. destruct (b64_leb _ _); [discriminate L2|reflexivity].
Qed.
Lemma likely_demo : likely (spot_fit cm (demo_init 0 1 4) [d 1]) = true.
Proof. vm_cast_no_check (eq_refl true). Qed.
Lemma excess_is_likely :
  ~ (forall (s0 s s' : spot B64) batch x p, s0 = demo_init 0 1 4 -> spot_fit cm s0 batch = Ret (s, 0%Z) -> spot_step cm s x = Ret (s', EXCESS) ->
      spot_probability cm s' x = Ret p -> b64_leb p (b64_minus (b64_ofZ 1) (s_level s')) = true).
Proof.
  intros H. destruct (likely_inv _ likely_demo) as (s & s' & p & E & E2 & E3 & L). rewrite (H _ _ _ _ _ _ eq_refl E E2 E3) in L. discriminate L.
Qed.
