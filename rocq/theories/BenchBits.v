(** * BenchBits: the bit fields of the benchmark programs *)
From Coq Require Import ZArith List Bool Lia Reals Lra.
From Flocq Require Import Core.Core IEEE754.BinarySingleNaN IEEE754.Bits.
From Flocq Require IEEE754.Binary.
From Verif Require Import Num XMath B64 B64Facts FloatUtilsLemmas Bench.
Import ListNotations.
Open Scope Z_scope.

Lemma hi_land (s : bool) ee : 0 <= ee < 2048 -> Z.land ((if s then 2 ^ 11 else 0) + ee) 0x800 = if s then 2 ^ 11 else 0.
Proof.
  intros H.
  assert (A : forallb (fun k => forallb (fun s : bool => Z.land ((if s then 2 ^ 11 else 0) + Z.of_nat k) 0x800 =? (if s then 2 ^ 11 else 0)) [true; false])
     (seq 0 2048) = true) by (vm_compute; reflexivity).
  rewrite forallb_forall in A. specialize (A (Z.to_nat ee)). rewrite Z2Nat.id in A by lia.
  assert (B : In (Z.to_nat ee) (seq 0 2048)) by (apply in_seq; lia). specialize (A B).
  cbn [forallb] in A. apply andb_prop in A as (A1 & A2). apply andb_prop in A2 as (A2 & _).
  destruct s; apply Z.eqb_eq; assumption.
Qed.
Lemma hi_lor (s : bool) ee : 0 <= ee < 2048 -> Z.lor (if s then 2 ^ 11 else 0) ee = (if s then 2 ^ 11 else 0) + ee.
Proof.
  intros H.
  assert (A : forallb (fun k => forallb (fun s : bool => Z.lor (if s then 2 ^ 11 else 0) (Z.of_nat k) =? (if s then 2 ^ 11 else 0) + Z.of_nat k) [true; false])
     (seq 0 2048) = true) by (vm_compute; reflexivity).
  rewrite forallb_forall in A. specialize (A (Z.to_nat ee)). rewrite Z2Nat.id in A by lia.
  assert (B : In (Z.to_nat ee) (seq 0 2048)) by (apply in_seq; lia). specialize (A B).
  cbn [forallb] in A. apply andb_prop in A as (A1 & A2). apply andb_prop in A2 as (A2 & _).
  destruct s; apply Z.eqb_eq; assumption.
Qed.

Lemma put_exponent (s : bool) lo ee e : 0 <= lo < 2 ^ 52 -> 0 <= ee < 2048 -> 0 <= e < 2048 ->
  Z.lor (Z.land (lo + ((if s then 2 ^ 11 else 0) + ee) * 2 ^ 52) 0x800fffffffffffff) (Z.shiftl e 52) =
    lo + ((if s then 2 ^ 11 else 0) + e) * 2 ^ 52.
Proof.
  intros Hlo Hee He. rewrite Z.shiftl_mul_pow2 by lia.
  apply Z.bits_inj'. intros n Hn. rewrite Z.lor_spec, Z.land_spec.
  change 0x800fffffffffffff with (Z.ones 52 + 0x800 * 2 ^ 52). replace (e * 2 ^ 52) with (0 + e * 2 ^ 52) by lia.
  rewrite !bit_split by (try assumption; try (cbn; lia)).
  destruct (Z.ltb_spec n 52) as [C|C].
  - rewrite Z.ones_spec_low by lia. rewrite Z.testbit_0_l, andb_true_r, orb_false_r. reflexivity.
  - rewrite <- Z.land_spec, <- Z.lor_spec. rewrite hi_land, hi_lor by assumption. reflexivity.
Qed.
Lemma sig_bits (s : bool) lo ee : 0 <= lo < 2 ^ 52 -> Z.land (lo + ((if s then 2 ^ 11 else 0) + ee) * 2 ^ 52) 0xfffffffffffff = lo.
Proof.
  intros H. change 0xfffffffffffff with (Z.ones 52). rewrite Z.land_ones by lia. rewrite Z.mod_add by lia. apply Z.mod_small. exact H.
Qed.

Lemma bounded_normal m e : 2 ^ 52 <= Zpos m < 2 ^ 53 -> -1074 <= e <= 971 -> SpecFloat.bounded 53 1024 m e = true.
Proof.
  intros H He. unfold SpecFloat.bounded. apply andb_true_intro. split; [|apply Z.leb_le; lia].
  unfold SpecFloat.canonical_mantissa. apply Zeq_bool_true.
  pose proof (Zpos_digits2_pos m) as D. change (digits2_pos m) with (SpecFloat.digits2_pos m) in D. rewrite D.
  rewrite (Zdigits_unique radix2 (Zpos m) 53) by (rewrite Z.abs_eq by lia; exact H).
  rewrite fexp64_eq. lia.
Qed.
Lemma of_bits_normal (s : bool) m e (H : SpecFloat.bounded 53 1024 m e = true) : 2 ^ 52 <= Zpos m ->
  of_bits ((Zpos m - 2 ^ 52) + ((if s then 2 ^ 11 else 0) + (e + 1075)) * 2 ^ 52) = B754_finite s m e H.
Proof.
  intros Hm. set (y := Binary.B754_finite 53 1024 s m e H).
  assert (E : bits_of_b64 y = (Zpos m - 2 ^ 52) + ((if s then 2 ^ 11 else 0) + (e + 1075)) * 2 ^ 52).
  { pose proof (to_bits_finite s m e H) as K. unfold to_bits in K. cbn [Binary.BSN2B] in K.
    rewrite (proj2 (Z.leb_le _ _) Hm) in K. exact K. }
  rewrite <- E. unfold of_bits, b64_of_bits, bits_of_b64. rewrite binary_float_of_bits_of_binary_float. reflexivity.
Qed.

Lemma expo_normal s m e H : 2 ^ 52 <= Zpos m -> expo_field (B754_finite s m e H) = e + 1075.
Proof.
  intros Hm. pose proof (bounded_inv m e H) as (H1 & H2 & _). unfold expo_field. rewrite to_bits_finite, (proj2 (Z.leb_le _ _) Hm).
  apply exp_field; lia.
Qed.
Lemma sig_normal s m e H : 2 ^ 52 <= Zpos m -> sig_field (B754_finite s m e H) = Zpos m - 2 ^ 52.
Proof.
  intros Hm. pose proof (bounded_inv m e H) as (H1 & H2 & _). unfold sig_field. rewrite to_bits_finite, (proj2 (Z.leb_le _ _) Hm).
  apply sig_bits; lia.
Qed.
Lemma set_exp_normal s m e H E : 2 ^ 52 <= Zpos m -> 1 <= E <= 2046 ->
  exists H', set_exp (B754_finite s m e H) E = B754_finite s m (E - 1075) H'.
Proof.
  intros Hm HE. pose proof (bounded_inv m e H) as (H1 & H2 & _).
  assert (H' : SpecFloat.bounded 53 1024 m (E - 1075) = true) by (apply bounded_normal; lia).
  exists H'. unfold set_exp. rewrite to_bits_finite, (proj2 (Z.leb_le _ _) Hm). rewrite Z.mod_small by lia.
  rewrite put_exponent by lia. rewrite <- (of_bits_normal s m _ H' Hm). f_equal. lia.
Qed.

(** the normal doubles *)
Lemma normal_shape (x : b64) : finite64 x = true -> (bpow radix2 (-1022) <= Rabs (B2R64 x))%R ->
  exists s m e H, x = B754_finite s m e H /\ 2 ^ 52 <= Zpos m.
Proof.
  intros F L. destruct x as [s|s| |s m e H]; try discriminate.
  - exfalso. cbn [B2R] in L. rewrite Rabs_R0 in L. pose proof (bpow_gt_0 radix2 (-1022)). lra.
  - exists s, m, e, H. split; [reflexivity|]. destruct (Z.le_gt_cases (2 ^ 52) (Zpos m)) as [C|C]; [exact C|]. exfalso.
    pose proof (bounded_inv m e H) as (_ & _ & E). specialize (E C). subst e.
    cbn [B2R] in L. rewrite <- F2R_Zabs, abs_cond_Zopp in L. unfold F2R in L. cbn [Z.abs Fnum Fexp] in L.
    assert (U : (IZR (Z.pos m) < IZR (2 ^ 52))%R) by (apply IZR_lt; lia). change (IZR (2 ^ 52)) with (bpow radix2 52) in U.
    pose proof (bpow_gt_0 radix2 (-1074)) as P.
    assert (IZR (Z.pos m) * bpow radix2 (-1074) < bpow radix2 52 * bpow radix2 (-1074))%R by (apply Rmult_lt_compat_r; assumption).
    rewrite <- bpow_plus in H0. change (52 + -1074) with (-1022) in H0. lra.
Qed.
Lemma normal_value s m e H : B2R64 (B754_finite s m e H) = ((if s then -1 else 1) * (IZR (Zpos m) * bpow radix2 e))%R.
Proof. cbn [B2R]. unfold F2R. cbn [Fnum Fexp]. destruct s; cbn [cond_Zopp]; [rewrite opp_IZR|]; lra. Qed.
Lemma mant_range m : 2 ^ 52 <= Zpos m < 2 ^ 53 -> (bpow radix2 52 <= IZR (Zpos m) < bpow radix2 53)%R.
Proof. intros H. change (bpow radix2 52) with (IZR (2 ^ 52)). change (bpow radix2 53) with (IZR (2 ^ 53)). split; [apply IZR_le|apply IZR_lt]; lia. Qed.

(** adding to the exponent field multiplies by a power of two, as long as the field does not overflow *)
Lemma add_exponent (w : b64) k : finite64 w = true -> (bpow radix2 (-1022) <= Rabs (B2R64 w))%R -> 0 <= k -> expo_field w + k <= 2046 ->
  set_exp w (expo_field w + k) = musl_ldexp w k.
Proof.
  intros F L Hk HE. destruct (normal_shape w F L) as (s & m & e & H & -> & Hm).
  pose proof (bounded_inv m e H) as (H1 & H2 & _).
  rewrite (expo_normal s m e H Hm) in HE |- *.
  destruct (set_exp_normal s m e H (e + 1075 + k) Hm ltac:(lia)) as (H' & E). rewrite E.
  apply (CR_unique (B2R64 (B754_finite s m e H) * bpow radix2 k) s); [|exact (ldexp_finite (B754_finite s m e H) k eq_refl)].
  unfold CR.
  assert (V : (B2R64 (B754_finite s m e H) * bpow radix2 k = B2R64 (B754_finite s m (e + 1075 + k - 1075) H'))%R).
  { rewrite !normal_value. replace (e + 1075 + k - 1075) with (e + k) by lia. rewrite bpow_plus. ring. }
  rewrite V. rewrite (round_generic radix2 fexp64 _ _ (generic_format_B2R 53 1024 _)).
  rewrite Rlt_bool_true.
  - split; [reflexivity|]. split; reflexivity.
  - apply (abs_B2R_lt_emax 53 1024).
Qed.
