(** Angle constants, degrees and radians, and the arguments of asin and acos, in
    IEEE-754 binary numbers (C94). [nearest_num x r]: no number of the format is
    nearer to r than x. *)
From Coq Require Import Reals ZArith List Lra Lia Bool.
From Flocq Require Import Core.Core IEEE754.BinarySingleNaN.
From Verif.Base Require Import Outcome Array Scalar ScalarR ScalarF ScalarF32.
From Verif.Model Require Import Types Functions Interpolation Access.
From Verif.Spec Require Import IeeeSpec AngleSpec.
From Verif.Proof Require Import Ieee IeeeWitness Angles.
Import ListNotations.
Local Open Scope R_scope.

(** C94. In doubles the constants for pi, 2 pi, pi/2, pi/4, pi/8 and pi/16 are the
    nearest doubles. *)
Theorem C94_constants_double (L : Libm) (O := F_ops L) :
  nearest_num (@fpi F64 O) PI /\ nearest_num (@PI_TIMES_2 F64 O) (2 * PI) /\ nearest_num (@PI_OVER_2 F64 O) (PI / 2) /\ nearest_num (@PI_OVER_4 F64 O) (PI / 4) /\
  nearest_num (@PI_OVER_8 F64 O) (PI / 8) /\ nearest_num (@PI_OVER_16 F64 O) (PI / 16).
Proof. exact (constants_double L). Qed.
Print Assumptions C94_constants_double.
(** C94. The constants for pi/3 and pi/6 are not the nearest doubles. They are
    within one unit in the last place. *)
Theorem C94_thirds_double_refuted (L : Libm) (O := F_ops L) :
  (finite (@PI_OVER_3 F64 O) /\ Rabs (num (@PI_OVER_3 F64 O) - PI / 3) <= bpow radix2 (-52) /\ ~ nearest_num (@PI_OVER_3 F64 O) (PI / 3)) /\
  (finite (@PI_OVER_6 F64 O) /\ Rabs (num (@PI_OVER_6 F64 O) - PI / 6) <= bpow radix2 (-53) /\ ~ nearest_num (@PI_OVER_6 F64 O) (PI / 6)).
Proof. exact (thirds_double L). Qed.
Print Assumptions C94_thirds_double_refuted.
(** C94. In floats all eight constants are the nearest floats. *)
Theorem C94_constants_float (K : Libm32) (O := F32_ops K) :
  nearest_num (@fpi F32 O) PI /\ nearest_num (@PI_TIMES_2 F32 O) (2 * PI) /\ nearest_num (@PI_OVER_2 F32 O) (PI / 2) /\ nearest_num (@PI_OVER_4 F32 O) (PI / 4) /\
  nearest_num (@PI_OVER_8 F32 O) (PI / 8) /\ nearest_num (@PI_OVER_16 F32 O) (PI / 16) /\ nearest_num (@PI_OVER_3 F32 O) (PI / 3) /\ nearest_num (@PI_OVER_6 F32 O) (PI / 6).
Proof. exact (constants_float K). Qed.
Print Assumptions C94_constants_float.
(** C94. A float divided by 3.0 or 6.0 is divided in double and rounded to float
    again. The model divides in float. Both give the same number. *)
Theorem C94_thirds_float (K : Libm32) (O := F32_ops K) :
  B2SF (@PI_OVER_3 F32 O) = B2SF (F64_to_F32 (Bdiv mode_NE (F32_to_F64 (@fpi F32 O)) (F64_ofZ 3))) /\
  B2SF (@PI_OVER_6 F32 O) = B2SF (F64_to_F32 (Bdiv mode_NE (F32_to_F64 (@fpi F32 O)) (F64_ofZ 6))).
Proof. exact (thirds_float K). Qed.
Print Assumptions C94_thirds_float.
(** C94. The theorems below ask that the constant for pi is right up to half a
    rounding. It is, in doubles and in floats. *)
Theorem C94_pi : (forall L : Libm, good_pi (F_ops L)) /\ (forall K : Libm32, good_pi (F32_ops K)).
Proof. exact (conj pi_double pi_float). Qed.
Print Assumptions C94_pi.
(** C94. degreeToRadian: three roundings. *)
Theorem C94_to_radians {p e : Z} {Hp : Prec_gt_0 p} {He : Prec_lt_emax p e} (O : RealOps (binary_float p e)) (I : ieee O) (P : good_pi O)
  (x : (binary_float p e)) : finite x -> 4 * Rabs (num x) <= huge e -> approx 3 (Rabs (radians (num x)) + 2 * tiny e) (degreeToRadian x) (radians (num x)).
Proof. exact (to_radians O I P x). Qed.
Print Assumptions C94_to_radians.
(** C94. radianToDegree: four roundings. *)
Theorem C94_to_degrees {p e : Z} {Hp : Prec_gt_0 p} {He : Prec_lt_emax p e} (O : RealOps (binary_float p e)) (I : ieee O) (P : good_pi O)
  (x : (binary_float p e)) : finite x -> 180 * Rabs (num x) <= huge e -> approx 4 (Rabs (degrees (num x)) + 2 * tiny e) (radianToDegree x) (degrees (num x)).
Proof. exact (to_degrees O I P x). Qed.
Print Assumptions C94_to_degrees.
(** C94. To radians and back: the error of the constant cancels. *)
Theorem C94_degrees_and_back {p e : Z} {Hp : Prec_gt_0 p} {He : Prec_lt_emax p e} (O : RealOps (binary_float p e)) (I : ieee O) (P : good_pi O)
  (x : (binary_float p e)) : finite x -> 4 * Rabs (num x) + 1 <= huge e -> approx 4 (Rabs (num x) + 64 * tiny e) (radianToDegree (degreeToRadian x)) (num x).
Proof. exact (degrees_and_back O I P x). Qed.
Print Assumptions C94_degrees_and_back.
(** C94. To degrees and back. *)
Theorem C94_radians_and_back {p e : Z} {Hp : Prec_gt_0 p} {He : Prec_lt_emax p e} (O : RealOps (binary_float p e)) (I : ieee O) (P : good_pi O)
  (x : (binary_float p e)) : finite x -> 180 * Rabs (num x) + 1 <= huge e -> approx 4 (Rabs (num x) + 2 * tiny e) (degreeToRadian (radianToDegree x)) (num x).
Proof. exact (radians_and_back O I P x). Qed.
Print Assumptions C94_radians_and_back.
(** 120 degrees, in any format. *)
Example C94_case {p e : Z} {Hp : Prec_gt_0 p} {He : Prec_lt_emax p e} (O : RealOps (binary_float p e)) (I : ieee O) : finite (fofZ 120) /\ num (fofZ 120) = 120 /\ 4 * Rabs (num (fofZ 120)) + 1 <= huge e.
Proof. exact (angle_case O I). Qed.
(** C94. degreeToRadian keeps the order. *)
Theorem C94_radians_monotone {p e : Z} {Hp : Prec_gt_0 p} {He : Prec_lt_emax p e} (O : RealOps (binary_float p e)) (I : ieee O) (P : good_pi O)
  (x y : (binary_float p e)) : finite x -> finite y -> 4 * Rabs (num x) <= huge e -> 4 * Rabs (num y) <= huge e -> num x <= num y -> num (degreeToRadian x) <= num (degreeToRadian y).
Proof. exact (radians_monotone O I P x y). Qed.
Print Assumptions C94_radians_monotone.
(** C94. radianToDegree keeps the order. *)
Theorem C94_degrees_monotone {p e : Z} {Hp : Prec_gt_0 p} {He : Prec_lt_emax p e} (O : RealOps (binary_float p e)) (I : ieee O) (P : good_pi O)
  (x y : (binary_float p e)) : finite x -> finite y -> 180 * Rabs (num x) <= huge e -> 180 * Rabs (num y) <= huge e -> num x <= num y -> num (radianToDegree x) <= num (radianToDegree y).
Proof. exact (degrees_monotone O I P x y). Qed.
Print Assumptions C94_degrees_monotone.
(** C94. degreeToRadian of the opposite angle. *)
Theorem C94_radians_odd {p e : Z} {Hp : Prec_gt_0 p} {He : Prec_lt_emax p e} (O : RealOps (binary_float p e)) (I : ieee O) (P : good_pi O)
  (x : (binary_float p e)) : finite x -> 4 * Rabs (num x) <= huge e -> num (degreeToRadian (fopp x)) = - num (degreeToRadian x).
Proof. exact (radians_odd O I P x). Qed.
Print Assumptions C94_radians_odd.
(** C94. radianToDegree of the opposite angle. *)
Theorem C94_degrees_odd {p e : Z} {Hp : Prec_gt_0 p} {He : Prec_lt_emax p e} (O : RealOps (binary_float p e)) (I : ieee O) (P : good_pi O)
  (x : (binary_float p e)) : finite x -> 180 * Rabs (num x) <= huge e -> num (radianToDegree (fopp x)) = - num (radianToDegree x).
Proof. exact (degrees_odd O I P x). Qed.
Print Assumptions C94_degrees_odd.
(** C94. Right angles and the like are exact, in doubles. *)
Theorem C94_angles_double (L : Libm) (O := F_ops L) :
  @degreeToRadian F64 O (F64_ofZ 180) = @fpi F64 O /\ @degreeToRadian F64 O (F64_ofZ 360) = @PI_TIMES_2 F64 O /\ @degreeToRadian F64 O (F64_ofZ 90) = @PI_OVER_2 F64 O /\
  @degreeToRadian F64 O (F64_ofZ 60) = @PI_OVER_3 F64 O /\ @degreeToRadian F64 O (F64_ofZ 45) = @PI_OVER_4 F64 O /\ @degreeToRadian F64 O (F64_ofZ 30) = @PI_OVER_6 F64 O /\
  @radianToDegree F64 O (@fpi F64 O) = F64_ofZ 180 /\ @radianToDegree F64 O (@PI_TIMES_2 F64 O) = F64_ofZ 360 /\ @radianToDegree F64 O (@PI_OVER_2 F64 O) = F64_ofZ 90.
Proof. exact (angles_double L). Qed.
Print Assumptions C94_angles_double.
(** C94. Right angles and the like are exact, in floats. *)
Theorem C94_angles_float (K : Libm32) (O := F32_ops K) :
  @degreeToRadian F32 O (F32_ofZ 180) = @fpi F32 O /\ @degreeToRadian F32 O (F32_ofZ 360) = @PI_TIMES_2 F32 O /\ @degreeToRadian F32 O (F32_ofZ 90) = @PI_OVER_2 F32 O /\
  @degreeToRadian F32 O (F32_ofZ 45) = @PI_OVER_4 F32 O /\
  @radianToDegree F32 O (@fpi F32 O) = F32_ofZ 180 /\ @radianToDegree F32 O (@PI_TIMES_2 F32 O) = F32_ofZ 360 /\ @radianToDegree F32 O (@PI_OVER_2 F32 O) = F32_ofZ 90.
Proof. exact (angles_float K). Qed.
Print Assumptions C94_angles_float.
(** C94. A whole number of degrees need not come back from radians. *)
Theorem C94_degrees_back_refuted (L : Libm) (O := F_ops L) : exists x : F64, x = F64_ofZ 719 /\ @radianToDegree F64 O (@degreeToRadian F64 O x) <> x.
Proof. exact (degrees_back_refuted L). Qed.
Print Assumptions C94_degrees_back_refuted.
(** C94. asin and acos: libm is asked about a number in [-1, 1], whatever number is
    given, infinities too; a number in [-1, 1] is passed on as it is. *)
Theorem C94_clamped_calls {p e : Z} {Hp : Prec_gt_0 p} {He : Prec_lt_emax p e} (O : RealOps (binary_float p e)) (I : ieee O)
  (x : (binary_float p e)) : number x -> exists y : (binary_float p e), number y /\ num y = Rmax (-1) (Rmin 1 (num x)) /\ (Rabs (num x) <= 1 -> y = x) /\
  asin_ x = fasin_c y /\ acos_ x = facos_c y.
Proof. exact (clamped_calls O I x). Qed.
Print Assumptions C94_clamped_calls.
Example C94_clamp_case {p e : Z} {Hp : Prec_gt_0 p} {He : Prec_lt_emax p e} (O : RealOps (binary_float p e)) (I : ieee O) : number (fofZ 7) /\ Rmax (-1) (Rmin 1 (num (fofZ 7))) = 1.
Proof. exact (clamp_case O I). Qed.
