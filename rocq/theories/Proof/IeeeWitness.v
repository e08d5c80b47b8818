(** Concrete doubles and floats for the theorems on binary numbers of any
    format, and inputs on which normalize fails. *)
From Coq Require Import Reals ZArith Lra Lia Bool Psatz List.
From Flocq Require Import Core.Core IEEE754.BinarySingleNaN.
From Verif.Base Require Import Outcome Scalar RFacts ScalarF ScalarF32.
From Verif.Model Require Import Types Functions Vec Quat.
From Verif.Spec Require Import VecSpec CompSpec QuatSpec LinAlg IeeeSpec.
From Verif.Proof Require Import Ieee IeeeVec IeeeQuat.
Local Open Scope R_scope.

(** The double or float nearest to m * 2^x. *)
Definition f64 (m x : Z) : F64 := F64_of m x false.
Definition f32 (m x : Z) : F32 := F32_of m x false.

Section Witness.
Context {p e : Z} {Hp : Prec_gt_0 p} {He : Prec_lt_emax p e} (O : RealOps (binary_float p e)) (I : ieee O).
(** Small integers in any format. *)
Lemma int_ok z : (Z.abs z <= 1024)%Z -> finite (@fofZ _ O z) /\ num (@fofZ _ O z) = IZR z.
Proof. apply (i_int _ I). Qed.
Lemma range_ok : 0 < tiny e <= 1 / 1024 /\ 512 <= huge e.
Proof. split; [split; [apply bpow_gt_0|apply (tiny_small O I)]|apply (huge_big O I)]. Qed.
End Witness.

Lemma num_f64 x : (-1021 <= x <= 1022)%Z -> finite (f64 1 x) /\ num (f64 1 x) = bpow radix2 x.
Proof.
  intros H. unfold f64, F64_of. generalize (binary_normalize_correct 53 1024 prec53 emax1024 mode_NE 1 x false). cbv zeta.
  assert (E : F2R {| Fnum := 1; Fexp := x |} = bpow radix2 x) by (unfold F2R; cbn [Fnum Fexp]; apply Rmult_1_l). rewrite E.
  assert (G : round radix2 (SpecFloat.fexp 53 1024) (round_mode mode_NE) (bpow radix2 x) = bpow radix2 x).
  { apply round_generic; [apply valid_rnd_round_mode|]. apply generic_format_bpow. unfold SpecFloat.fexp, SpecFloat.emin. lia. }
  rewrite G, Rlt_bool_true.
  - intros (V & F & _). split; [exact F|]. revert V F. destruct (binary_normalize _ _ _ _ _ _ _ _); cbn; intros; try discriminate; assumption.
  - rewrite Rabs_right by (apply Rle_ge, bpow_ge_0). apply bpow_lt. lia.
Qed.
Lemma num_f32 x : (-125 <= x <= 126)%Z -> finite (f32 1 x) /\ num (f32 1 x) = bpow radix2 x.
Proof.
  intros H. unfold f32, F32_of. generalize (binary_normalize_correct 24 128 prec24 emax128 mode_NE 1 x false). cbv zeta.
  assert (E : F2R {| Fnum := 1; Fexp := x |} = bpow radix2 x) by (unfold F2R; cbn [Fnum Fexp]; apply Rmult_1_l). rewrite E.
  assert (G : round radix2 (SpecFloat.fexp 24 128) (round_mode mode_NE) (bpow radix2 x) = bpow radix2 x).
  { apply round_generic; [apply valid_rnd_round_mode|]. apply generic_format_bpow. unfold SpecFloat.fexp, SpecFloat.emin. lia. }
  rewrite G, Rlt_bool_true.
  - intros (V & F & _). split; [exact F|]. revert V F. destruct (binary_normalize _ _ _ _ _ _ _ _); cbn; intros; try discriminate; assumption.
  - rewrite Rabs_right by (apply Rle_ge, bpow_ge_0). apply bpow_lt. lia.
Qed.

(** normalize of a tiny and of a large vector: the squares vanish or overflow. *)
Theorem normalize_double_fails (L : Libm) :
  (exists u : Vec3 F64, finite3 u /\ num3 u = mkV3 (bpow radix2 (-600)) 0 0 /\
     let (v, l) := @v3_normalize F64 (F_ops L) u (@fofZ F64 (F_ops L) 1) in num3 v = mkV3 0 0 0 /\ num l = 0) /\
  (exists u : Vec3 F64, finite3 u /\ num3 u = mkV3 (bpow radix2 600) 0 0 /\
     let (v, l) := @v3_normalize F64 (F_ops L) u (@fofZ F64 (F_ops L) 1) in num3 v = mkV3 0 0 0 /\ ~ finite l).
Proof.
  split.
  - destruct (num_f64 (-600) ltac:(lia)) as [F V]. exists (mkV3 (f64 1 (-600)) (B754_zero false) (B754_zero false)). split; [split; [exact F|split; reflexivity]|].
    split; [unfold num3; cbn [x3 y3 z3]; rewrite V; reflexivity|].
    assert (C : @v3_normalize F64 (F_ops L) (mkV3 (f64 1 (-600)) (B754_zero false) (B754_zero false)) (@fofZ F64 (F_ops L) 1) = (mkV3 (B754_zero false) (B754_zero false) (B754_zero false), B754_zero false)) by (vm_compute; reflexivity).
    rewrite C. split; reflexivity.
  - destruct (num_f64 600 ltac:(lia)) as [F V]. exists (mkV3 (f64 1 600) (B754_zero false) (B754_zero false)). split; [split; [exact F|split; reflexivity]|].
    split; [unfold num3; cbn [x3 y3 z3]; rewrite V; reflexivity|].
    assert (C : @v3_normalize F64 (F_ops L) (mkV3 (f64 1 600) (B754_zero false) (B754_zero false)) (@fofZ F64 (F_ops L) 1) = (mkV3 (B754_zero false) (B754_zero false) (B754_zero false), B754_infinity false)) by (vm_compute; reflexivity).
    rewrite C. split; [reflexivity|discriminate].
Qed.
Theorem normalize_float_fails (L : Libm32) :
  (exists u : Vec3 F32, finite3 u /\ num3 u = mkV3 (bpow radix2 (-80)) 0 0 /\
     let (v, l) := @v3_normalize F32 (F32_ops L) u (@fofZ F32 (F32_ops L) 1) in num3 v = mkV3 0 0 0 /\ num l = 0) /\
  (exists u : Vec3 F32, finite3 u /\ num3 u = mkV3 (bpow radix2 80) 0 0 /\
     let (v, l) := @v3_normalize F32 (F32_ops L) u (@fofZ F32 (F32_ops L) 1) in num3 v = mkV3 0 0 0 /\ ~ finite l).
Proof.
  split.
  - destruct (num_f32 (-80) ltac:(lia)) as [F V]. exists (mkV3 (f32 1 (-80)) (B754_zero false) (B754_zero false)). split; [split; [exact F|split; reflexivity]|].
    split; [unfold num3; cbn [x3 y3 z3]; rewrite V; reflexivity|].
    assert (C : @v3_normalize F32 (F32_ops L) (mkV3 (f32 1 (-80)) (B754_zero false) (B754_zero false)) (@fofZ F32 (F32_ops L) 1) = (mkV3 (B754_zero false) (B754_zero false) (B754_zero false), B754_zero false)) by (vm_compute; reflexivity).
    rewrite C. split; reflexivity.
  - destruct (num_f32 80 ltac:(lia)) as [F V]. exists (mkV3 (f32 1 80) (B754_zero false) (B754_zero false)). split; [split; [exact F|split; reflexivity]|].
    split; [unfold num3; cbn [x3 y3 z3]; rewrite V; reflexivity|].
    assert (C : @v3_normalize F32 (F32_ops L) (mkV3 (f32 1 80) (B754_zero false) (B754_zero false)) (@fofZ F32 (F32_ops L) 1) = (mkV3 (B754_zero false) (B754_zero false) (B754_zero false), B754_infinity false)) by (vm_compute; reflexivity).
    rewrite C. split; [reflexivity|discriminate].
Qed.
(** Small integers and the range of doubles. *)
Lemma int64 (L : Libm) z : (Z.abs z <= 1024)%Z -> finite (@fofZ F64 (F_ops L) z) /\ num (@fofZ F64 (F_ops L) z) = IZR z.
Proof. exact (int_ok (F_ops L) (ieee_double L) z). Qed.
