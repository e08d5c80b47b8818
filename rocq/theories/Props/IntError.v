(** C114: interpolated ints in binary numbers of any format. *)
From Coq Require Import Reals ZArith List Lra Lia Bool.
From Flocq Require Import Core.Core IEEE754.BinarySingleNaN.
From Verif.Base Require Import Outcome Array Scalar ScalarR ScalarF ScalarF32.
From Verif.Model Require Import Types Functions Interpolation.
From Verif.Spec Require Import NumSpec FloatSpec IeeeSpec LerpErrorSpec.
From Verif.Proof Require Import Ieee IeeeWitness IeeeInts IntErrorWitness.
Import ListNotations.
From Verif.Spec Require Import IntErrorSpec.
Local Open Scope R_scope.

(** C114. lerp of ints: in the range, at the ends where the ratio is 0 or 1, off by at
    most 1 from the exact value, and in the order of the ratios. *)
Theorem C114_lerp {p e : Z} {Hp : Prec_gt_0 p} {He : Prec_lt_emax p e} (O : RealOps (binary_float p e)) (I : ieee O)
  (N : Z) (E : exact_ints O N) (a b : Z) : (int_min <= a <= int_max)%Z -> (int_min <= b <= int_max)%Z -> (int_min <= b - a <= int_max)%Z -> (Z.abs (b - a) <= N)%Z ->
  exists f : (binary_float p e) -> Z, (forall r, ratio r -> lerp_int a b r = Ok (f r) /\ betweenZ a b (f r) /\ Rabs (IZR (f r) - (IZR a + num r * (IZR b - IZR a))) <= 1) /\
    (forall r, ratio r -> num r = 0 -> f r = a) /\ (forall r, ratio r -> num r = 1 -> f r = b) /\
    (forall r s, ratio r -> ratio s -> num r <= num s -> orderedZ a b (f r) (f s)).
Proof. exact (ints_near O I N E a b). Qed.
Print Assumptions C114_lerp.
(** C114. With an easing mode: the ends in every mode, and the powers never leave the range. *)
Theorem C114_eased {p e : Z} {Hp : Prec_gt_0 p} {He : Prec_lt_emax p e} (O : RealOps (binary_float p e)) (I : ieee O)
  (N : Z) (E : exact_ints O N) (a b : Z) (r : (binary_float p e)) m : (int_min <= a <= int_max)%Z -> (int_min <= b <= int_max)%Z -> (int_min <= b - a <= int_max)%Z -> (Z.abs (b - a) <= N)%Z -> finite r ->
  (num r <= 0 -> lerp_int_mode a b r m = Ok a) /\ (1 <= num r -> lerp_int_mode a b r m = Ok b) /\
  (power_mode m -> exists k, lerp_int_mode a b r m = Ok k /\ betweenZ a b k).
Proof. exact (ints_eased O I N E a b r m). Qed.
Print Assumptions C114_eased.
(** C114. Doubles hold every int. *)
Theorem C114_double (L : Libm) : exact_ints (F_ops L) int_max.
Proof. exact (ints_double L). Qed.
Print Assumptions C114_double.
(** C114. Floats hold ints up to 2^24. *)
Theorem C114_float (K : Libm32) : exact_ints (F32_ops K) (2 ^ 24).
Proof. exact (ints_float K). Qed.
Print Assumptions C114_float.
(** C114. In floats, wider ranges are overshot at ratio 1, and the widest is undefined. *)
Theorem C114_beyond_refuted (K : Libm32) : let one := @fofZ F32 (F32_ops K) 1 in ratio one /\ num one = 1 /\ lerp_int (O := F32_ops K) 0 16777219 one = Ok 16777220%Z /\ lerp_int (O := F32_ops K) 0 int_max one = Undef.
Proof. exact (ints_beyond K). Qed.
Print Assumptions C114_beyond_refuted.
(** Non-vacuity. *)
Example C114_case (L : Libm) : (int_min <= 100 <= int_max)%Z /\ (int_min <= - 7 <= int_max)%Z /\ (int_min <= - 7 - 100 <= int_max)%Z /\ (Z.abs (- 7 - 100) <= 2 ^ 24)%Z /\ ratio (@flit F64 (F_ops L) 1 2) /\ lerp_int (O := F_ops L) 100 (- 7) (@flit F64 (F_ops L) 1 2) = Ok 47%Z /\ power_mode ImCubic.
Proof. exact (ints_case L). Qed.
