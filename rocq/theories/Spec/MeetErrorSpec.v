(** Points where lines and planes meet, and distances, in rounded numbers. *)
From Coq Require Import Reals ZArith.
From Flocq Require Import Core.Core IEEE754.BinarySingleNaN.
From Verif.Base Require Import Scalar.
From Verif.Model Require Import Types Shapes Plane.
From Verif.Spec Require Import VecSpec GeomSpec IeeeSpec MarginSpec QuatErrorSpec.
Local Open Scope R_scope.

(** Size of the terms of the quotient [x / y], of which numerator and
    denominator are sums of terms of size [m] and [k], and its error. *)
Definition ratio_size (m x k y : R) : R := (m + Rabs (x / y) * k) / Rabs y.
Definition ratio_slack (p e : Z) (m x k y : R) : R := 10 * unit p * ratio_size m x k y + unit p * tiny e.
(** Size of the terms of a determinant of two plane vectors. *)
Definition det_size (e : Z) (u v : Vec2 R) : R := Rabs (x2 u * y2 v) + Rabs (y2 u * x2 v) + 2 * tiny e.
(** Coordinates of size at most [k]. *)
Definition up_to2 (k : R) (v : Vec2 R) : Prop := Rabs (x2 v) <= k /\ Rabs (y2 v) <= k.
Definition up_to3 (k : R) (v : Vec3 R) : Prop := Rabs (x3 v) <= k /\ Rabs (y3 v) <= k /\ Rabs (z3 v) <= k.
(** The point at [v] from a point of the line along [d] is well off the line:
    the area the two span is at least one [k]-th of the product of their
    lengths, and no step of the computation comes near the ends of the range. *)
Definition clear_of (e : Z) (k : R) (d v : Vec3 R) : Prop :=
  let s := norm3 d * norm3 v in let w := norm3 d * norm3 (cross3 v d) in
  norm3 d <= huge e / 8 /\ norm3 v <= huge e / 8 /\ s <= huge e / 8 /\ norm3 d * s <= huge e / 8 /\ 6 * tiny e <= w * w /\ 2 * (w * w) + 3 * tiny e <= huge e /\ norm3 d * (s + tiny e) + tiny e <= k * w.
Section Ieee.
Context {p e : Z} {Hp : Prec_gt_0 p} {He : Prec_lt_emax p e}.
Notation B := (binary_float p e).
Definition num_ray3 (r : Ray3 B) : Ray3 R := mkRay3 (num3 (rstart3 r)) (num3 (rdir3 r)).
(** The literal 1e-4 is off by at most one rounding of 1. *)
Definition small_lit (O : RealOps B) : Prop := by_at_most (unit p) (flit 1 10000) (1 / 10000).
End Ieee.
(** Vectors of whole numbers. *)
Definition int2 {T} {O : RealOps T} (a b : Z) : Vec2 T := mkV2 (fofZ a) (fofZ b).
Definition int3 {T} {O : RealOps T} (a b c : Z) : Vec3 T := mkV3 (fofZ a) (fofZ b) (fofZ c).
