(** C112: the easing curves in binary numbers of any format are near the exact
    ones. *)
From Coq Require Import Reals ZArith List Lra Lia Bool.
From Flocq Require Import Core.Core IEEE754.BinarySingleNaN.
From Verif.Base Require Import Outcome Array Scalar ScalarR ScalarF ScalarF32.
From Verif.Model Require Import Types Functions Interpolation.
From Verif.Spec Require Import NumSpec Easing FloatSpec IeeeSpec AngleSpec.
From Verif.Proof Require Import Ieee IeeeWitness IeeeEasing EasingErrorWitness.
Import ListNotations.
From Verif.Spec Require Import EasingErrorSpec.
Local Open Scope R_scope.

(** C112. interpolationRatio in every mode: finite, and off by at most 128 d from the
    exact curve, or 4 sqrt(d) for the circular modes. d bounds the errors of what
    the mode uses. *)
Theorem C112_easing {p e : Z} {Hp : Prec_gt_0 p} {He : Prec_lt_emax p e} (O : RealOps (binary_float p e)) (I : ieee O)
  (d : R) (m : InterpolationMode) (t : (binary_float p e)) : unit p <= d <= 1 / 65536 ->
  (narrow_mode m -> narrow O d) -> (sine_mode m -> sines O d) -> (pow_mode m -> powers O d) -> finite t ->
  finite (interpolationRatio t m) /\
  Rabs (num (interpolationRatio t m) - eased m (num t)) <= easing_error m d.
Proof. exact (easing_near O I d m t). Qed.
Print Assumptions C112_easing.
(** C112. Modes of + - * and sqrt alone: d is one rounding, whatever the libm. *)
Theorem C112_plain {p e : Z} {Hp : Prec_gt_0 p} {He : Prec_lt_emax p e} (O : RealOps (binary_float p e)) (I : ieee O)
  (m : InterpolationMode) (t : (binary_float p e)) : (24 <= p)%Z -> plain_mode m -> finite t ->
  finite (interpolationRatio t m) /\
  Rabs (num (interpolationRatio t m) - eased m (num t)) <= easing_error m (unit p).
Proof. exact (plain_near O I m t). Qed.
Print Assumptions C112_plain.
(** C112. So ratios stay near [0,1] and hardly go back. *)
Theorem C112_range {p e : Z} {Hp : Prec_gt_0 p} {He : Prec_lt_emax p e} (O : RealOps (binary_float p e)) (I : ieee O)
  (d : R) (m : InterpolationMode) (s t : (binary_float p e)) : unit p <= d <= 1 / 65536 -> ~ rounded_mode m ->
  (narrow_mode m -> narrow O d) -> (sine_mode m -> sines O d) -> (pow_mode m -> powers O d) -> finite s -> finite t -> num s <= num t ->
  - easing_error m d <= num (interpolationRatio t m) <= 1 + easing_error m d /\
  num (interpolationRatio s m) <= num (interpolationRatio t m) + 2 * easing_error m d.
Proof. exact (easing_range O I d m s t). Qed.
Print Assumptions C112_range.
(** C112. lerp with an easing mode is near the exact point, in every mode. *)
Theorem C112_lerp {p e : Z} {Hp : Prec_gt_0 p} {He : Prec_lt_emax p e} (O : RealOps (binary_float p e)) (I : ieee O)
  (d : R) (m : InterpolationMode) (a b t : (binary_float p e)) (W := Rabs (num a) + Rabs (num b)) : unit p <= d <= 1 / 65536 ->
  (narrow_mode m -> narrow O d) -> (sine_mode m -> sines O d) -> (pow_mode m -> powers O d) ->
  finite a -> finite b -> finite t -> 4 * W <= huge e ->
  finite (lerp_mode a b t m) /\
  Rabs (num (lerp_mode a b t m) - (num a + (num b - num a) * eased m (num t))) <=
    W * easing_error m d + unit p * (8 * W + 2 * tiny e).
Proof. exact (eased_near O I d m a b t). Qed.
Print Assumptions C112_lerp.
(** C112. Over the reals interpolationRatio is the exact curve, in every mode. *)
Theorem C112_exact m s : @interpolationRatio R R_ops s m = eased m s.
Proof. exact (ratio_eased m s). Qed.
Print Assumptions C112_exact.
(** C112. Doubles: d is 2^-24 where a float is used, for every libm. *)
Theorem C112_double (L : Libm) : narrow (F_ops L) (bpow radix2 (-24)).
Proof. exact (narrow_double L). Qed.
Print Assumptions C112_double.
(** C112. Floats. *)
Theorem C112_float (K : Libm32) : narrow (F32_ops K) (bpow radix2 (-24)).
Proof. exact (narrow_float K). Qed.
Print Assumptions C112_float.
(** C112. Accurate libraries exist in both formats. *)
Theorem C112_libraries : (exists L : Libm, sines (F_ops L) (2 * unit 53) /\ powers (F_ops L) (2 * unit 53)) /\ (exists K : Libm32, sines (F32_ops K) (2 * unit 24) /\ powers (F32_ops K) (2 * unit 24)).
Proof. exact (easing_libraries). Qed.
Print Assumptions C112_libraries.
(** Non-vacuity. *)
Example C112_case (L : Libm) : let d := bpow radix2 (-24) in
  unit 53 <= d <= 1 / 65536 /\ unit 24 <= d <= 1 / 65536 /\ narrow_mode ImQuinticOut /\ sine_mode ImCosine /\ pow_mode ImExponential2In /\
  plain_mode ImCircularInOut /\ plain_mode ImCubicInOut /\ ~ rounded_mode ImQuarticOut /\
  finite (@flit F64 (F_ops L) 1 2) /\ num (@flit F64 (F_ops L) 1 2) = 1 / 2 /\ eased ImCubicOut (1 / 2) = 7 / 8.
Proof. exact (easing_case L). Qed.
