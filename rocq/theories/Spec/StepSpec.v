(** Sizes of the control points of a curve in binary numbers of any format. *)
From Coq Require Import Reals ZArith.
From Flocq Require Import Core.Core IEEE754.BinarySingleNaN.
From Verif.Base Require Import Scalar.
From Verif.Model Require Import Types Spline.
From Verif.Spec Require Import IeeeSpec Curve.
Local Open Scope R_scope.

Section Step.
Context {p e : Z} {Hp : Prec_gt_0 p} {He : Prec_lt_emax p e}.
Notation B := (binary_float p e).
Definition finite_bezier (b : Bezier B) : Prop := finite3 (bP1 b) /\ finite3 (bP2 b) /\ finite3 (bP3 b) /\ finite3 (bP4 b).
(** The curve in the real numbers. *)
Definition curve_of (b : Bezier B) : R -> Vec3 R := bez (num3 (bP1 b)) (num3 (bP2 b)) (num3 (bP3 b)) (num3 (bP4 b)).
(** Sum of the magnitudes of coordinate i of the control points. *)
Definition extent (b : Bezier B) (i : nat) : R :=
  Rabs (num (row3 (bP1 b) i)) + Rabs (num (row3 (bP2 b) i)) + Rabs (num (row3 (bP3 b) i)) + Rabs (num (row3 (bP4 b) i)).
(** Over all coordinates. *)
Definition total (b : Bezier B) : R := extent b 0 + extent b 1 + extent b 2.
(** No coordinate i of a control point exceeds K. *)
Definition inside (K : R) (b : Bezier B) (i : nat) : Prop :=
  Rabs (num (row3 (bP1 b) i)) <= K /\ Rabs (num (row3 (bP2 b) i)) <= K /\ Rabs (num (row3 (bP3 b) i)) <= K /\ Rabs (num (row3 (bP4 b) i)) <= K.
(** The control points of a and b are numerically equal. *)
Definition same_bezier (a b : Bezier B) : Prop :=
  finite_bezier a /\ num3 (bP1 a) = num3 (bP1 b) /\ num3 (bP2 a) = num3 (bP2 b) /\ num3 (bP3 a) = num3 (bP3 b) /\ num3 (bP4 a) = num3 (bP4 b).
(** All four control points of a are numerically v. *)
Definition point_bezier (a : Bezier B) (v : Vec3 B) : Prop :=
  finite_bezier a /\ num3 (bP1 a) = num3 v /\ num3 (bP2 a) = num3 v /\ num3 (bP3 a) = num3 v /\ num3 (bP4 a) = num3 v.
End Step.

(** A curve with control points (0, 0, 0), (1, 3, 0), (4, 3, 1), (5, 0, 7). *)
Definition arch {T} (O : RealOps T) : Bezier T :=
  let z := @fofZ T O in
  mkBezier (mkV3 (z 0%Z) (z 0%Z) (z 0%Z)) (mkV3 (z 1%Z) (z 3%Z) (z 0%Z)) (mkV3 (z 4%Z) (z 3%Z) (z 1%Z)) (mkV3 (z 5%Z) (z 0%Z) (z 7%Z)).
