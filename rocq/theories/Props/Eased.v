(** C112, C114: eased vectors and ints in binary numbers of any format. *)
From Coq Require Import Reals ZArith.
From Flocq Require Import Core.Core IEEE754.BinarySingleNaN.
From Verif.Base Require Import Outcome Array Scalar ScalarR ScalarF.
From Verif.Model Require Import Types Functions Interpolation.
From Verif.Spec Require Import NumSpec Easing FloatSpec IeeeSpec EasingErrorSpec IntErrorSpec EasedSpec.
From Verif.Proof Require Import IeeeEased.
Local Open Scope R_scope.

(** C112. Plane vectors with an easing mode: each component is finite and near the exact one. *)
Theorem C112_lerp2 {p e : Z} {Hp : Prec_gt_0 p} {He : Prec_lt_emax p e} (O : RealOps (binary_float p e)) (I : ieee O)
  m d (a b : Vec2 (binary_float p e)) (t : binary_float p e) : serves O m d -> ends (x2 a) (x2 b) -> ends (y2 a) (y2 b) -> finite t ->
  let c := lerp2_mode a b t m in eased_to m d (x2 a) (x2 b) t (x2 c) /\ eased_to m d (y2 a) (y2 b) t (y2 c).
Proof. exact (eased_v2 O I m d a b t). Qed.
Print Assumptions C112_lerp2.
(** C112. Space vectors with an easing mode. *)
Theorem C112_lerp3 {p e : Z} {Hp : Prec_gt_0 p} {He : Prec_lt_emax p e} (O : RealOps (binary_float p e)) (I : ieee O)
  m d (a b : Vec3 (binary_float p e)) (t : binary_float p e) : serves O m d -> ends (x3 a) (x3 b) -> ends (y3 a) (y3 b) -> ends (z3 a) (z3 b) -> finite t ->
  let c := lerp3_mode a b t m in eased_to m d (x3 a) (x3 b) t (x3 c) /\ eased_to m d (y3 a) (y3 b) t (y3 c) /\ eased_to m d (z3 a) (z3 b) t (z3 c).
Proof. exact (eased_v3 O I m d a b t). Qed.
Print Assumptions C112_lerp3.
(** C114. Ints in every mode: never undefined when there is room for the difference
    twice, and off by at most 1 more than the error of the curve times the difference. *)
Theorem C114_modes {p e : Z} {Hp : Prec_gt_0 p} {He : Prec_lt_emax p e} (O : RealOps (binary_float p e)) (I : ieee O)
  (N : Z) (E : exact_ints O N) m d (a b : Z) (t : binary_float p e) : (int_min <= a - 2 * Z.abs (b - a))%Z -> (a + 2 * Z.abs (b - a) <= int_max)%Z -> (2 * Z.abs (b - a) <= N)%Z ->
  serves O m d -> finite t ->
  exists k, lerp_int_mode a b t m = Ok k /\ Rabs (IZR k - (IZR a + (IZR b - IZR a) * eased m (num t))) <= 1 + Rabs (IZR b - IZR a) * easing_error m d.
Proof. exact (eased_ints O I N E m d a b t). Qed.
Print Assumptions C114_modes.
(** Non-vacuity: doubles, in a mode that uses a float variable, from 100 to -7. *)
Example C112_C114_eased_case (L : Libm) : let h := @flit F64 (F_ops L) 1 2 in let d := bpow radix2 (-24) in
  serves (F_ops L) ImQuinticOut d /\ finite h /\ num h = 1 / 2 /\ ends h h /\
  (int_min <= 100 - 2 * Z.abs (- 7 - 100))%Z /\ (100 + 2 * Z.abs (- 7 - 100) <= int_max)%Z /\ (2 * Z.abs (- 7 - 100) <= int_max)%Z.
Proof. exact (eased_case L). Qed.
