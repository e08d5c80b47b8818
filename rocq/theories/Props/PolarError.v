(** C113: plane vectors by length and angle, and turns between them, in binary
    numbers of any format. *)
From Coq Require Import Reals ZArith List Lra Lia Bool.
From Flocq Require Import Core.Core IEEE754.BinarySingleNaN.
From Verif.Base Require Import Outcome Array Scalar ScalarR ScalarF ScalarF32.
From Verif.Model Require Import Types Functions Vec Mat2 Interpolation.
From Verif.Spec Require Import VecSpec NumSpec FloatSpec IeeeSpec AngleSpec QuatErrorSpec TurnErrorSpec.
From Verif.Proof Require Import Ieee IeeeWitness IeeePolar TurnErrorWitness PolarErrorWitness.
Import ListNotations.
From Verif.Spec Require Import PolarErrorSpec.
Local Open Scope R_scope.

(** C113. Angle and length of a vector give the vector back. *)
Theorem C113_back {p e : Z} {Hp : Prec_gt_0 p} {He : Prec_lt_emax p e} (O : RealOps (binary_float p e)) (I : ieee O)
  (d : R) (C : polar_functions O d) (w : Vec2 (binary_float p e)) (n := norm2 (num2 w)) : finite2 w -> n * n + 2 * tiny e <= huge e ->
  by_at_most2 (10 * d * n + 4 * sqrt (tiny e)) (v2_setAngle (v2_angle w) (v2_length w)) (num2 w).
Proof. exact (polar_back O I d C w). Qed.
Print Assumptions C113_back.
(** C113. The angle of a rotation Mat2 is up to full turns the one it was made of. *)
Theorem C113_matrix_angle {p e : Z} {Hp : Prec_gt_0 p} {He : Prec_lt_emax p e} (O : RealOps (binary_float p e))
  (d : R) (C : polar_functions O d) (a : (binary_float p e)) : finite a -> finite (m2_angle (m2_rotation a)) /\ Rabs (num (m2_angle (m2_rotation a))) <= PI + d /\
  exists A, congruent (2 * PI) A (num a) /\ Rabs (num (m2_angle (m2_rotation a)) - A) <= 4 * d.
Proof. exact (rotation_angle O d C a). Qed.
Print Assumptions C113_matrix_angle.
(** C113. Vec2::clerp turns v towards w along some D that leads from the one to the
    other, at most half a turn unless the angles are more than PI apart the
    wrong way, and the length goes evenly from the one to the other. *)
Theorem C113_clerp {p e : Z} {Hp : Prec_gt_0 p} {He : Prec_lt_emax p e} (O : RealOps (binary_float p e)) (I : ieee O)
  (d : R) (C : polar_functions O d) (FM : exact_fmod O) (P : good_pi O) (v w : Vec2 (binary_float p e)) (m := norm2 (num2 v)) (n := norm2 (num2 w)) : finite2 v -> finite2 w -> m * m + 2 * tiny e <= huge e -> n * n + 2 * tiny e <= huge e ->
  exists A B0 D, - PI <= A <= PI /\ - PI <= B0 <= PI /\ angle_of (num2 v) A /\ angle_of (num2 w) B0 /\ angle_of (num2 w) (A + D) /\ Rabs D <= 11 /\ (4 * d - PI <= B0 - A -> Rabs D <= PI + 56 * d) /\
  forall r, finite r -> 0 <= num r <= 1 -> exists c, v2_clerp v w r = Ok c /\
    by_at_most2 (96 * d * (m + n) + 3 * sqrt (tiny e)) c (polar (m + (n - m) * num r) (A + D * num r)) /\
    (num r = 0 -> c = v) /\ (num r = 1 -> c = w).
Proof. exact (clerp2_near O I d C FM P v w). Qed.
Print Assumptions C113_clerp.
(** C113. Mat2::slerp and slerpMaxAngle turn alike. *)
Theorem C113_slerp {p e : Z} {Hp : Prec_gt_0 p} {He : Prec_lt_emax p e} (O : RealOps (binary_float p e)) (I : ieee O)
  (d : R) (C : polar_functions O d) (FM : exact_fmod O) (P : good_pi O) (a b : Mat2 (binary_float p e)) : finite2 (mx2 a) -> finite2 (mx2 b) ->
  exists A B0 D, - PI <= A <= PI /\ - PI <= B0 <= PI /\ angle_of (num2 (mx2 a)) A /\ angle_of (num2 (mx2 b)) B0 /\ angle_of (num2 (mx2 b)) (A + D) /\ Rabs D <= 11 /\ (4 * d - PI <= B0 - A -> Rabs D <= PI + 56 * d) /\
  (forall r, finite r -> 0 <= num r <= 1 -> exists m, m2_slerp a b r = Ok m /\ turns2_by (84 * d) m (A + D * num r)) /\
  (forall mx, finite mx -> 0 <= num mx -> exists m, m2_slerpMaxAngle a b mx = Ok m /\ turns2_by (84 * d) m (A + limited (num mx) D)).
Proof. exact (slerp2_near O I d C FM P a b). Qed.
Print Assumptions C113_slerp.
(** C113. Vec2::clerpMaxAngle of a vector to itself gives NaN: the ratio is divided
    by a turn of zero. *)
Theorem C113_limit_refuted {p e : Z} {Hp : Prec_gt_0 p} {He : Prec_lt_emax p e} (O : RealOps (binary_float p e)) (I : ieee O)
  (FM : exact_fmod O) (P : good_pi O) (v : Vec2 (binary_float p e)) (mx : (binary_float p e)) : finite (v2_angle v) -> finite mx -> 0 < num mx -> exists c, v2_clerpMaxAngle v v mx = Ok c /\ is_nan (x2 c) = true /\ is_nan (y2 c) = true.
Proof. exact (limit_nan O I FM P v mx). Qed.
Print Assumptions C113_limit_refuted.
(** C113. Doubles and floats qualify; fmod and pi are those of C. *)
Theorem C113_formats (L : Libm) (K : Libm32) : (ieee (F_ops L) /\ exact_fmod (F_ops L) /\ good_pi (F_ops L)) /\ (ieee (F32_ops K) /\ exact_fmod (F32_ops K) /\ good_pi (F32_ops K)).
Proof. exact (conj (turn_double L) (turn_float K)). Qed.
Print Assumptions C113_formats.
(** C113. Accurate libraries exist in both formats. *)
Theorem C113_libraries : (exists L : Libm, polar_functions (F_ops L) (8 * unit 53)) /\ (exists K : Libm32, polar_functions (F32_ops K) (8 * unit 24)).
Proof. exact (polar_libraries). Qed.
Print Assumptions C113_libraries.
(** Non-vacuity. *)
Example C113_case : exists (L : Libm) (v w : Vec2 F64) (r : F64), polar_functions (F_ops L) (8 * unit 53) /\ finite2 v /\ finite2 w /\ finite (@v2_angle F64 (F_ops L) v) /\ finite r /\ 0 < num r < 1 /\
  norm2 (num2 v) = 5 /\ norm2 (num2 w) = 2 /\ norm2 (num2 v) * norm2 (num2 v) + 2 * tiny 1024 <= huge 1024 /\ norm2 (num2 w) * norm2 (num2 w) + 2 * tiny 1024 <= huge 1024.
Proof. exact (polar_case). Qed.
