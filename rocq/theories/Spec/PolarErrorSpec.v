(** Plane vectors by length and angle, in binary numbers of any format. *)
From Coq Require Import Reals ZArith.
From Flocq Require Import Core.Core IEEE754.BinarySingleNaN.
From Verif.Base Require Import Scalar.
From Verif.Model Require Import Types.
From Verif.Spec Require Import VecSpec IeeeSpec QuatErrorSpec.
Local Open Scope R_scope.

(** The vector of length l at angle a, counter-clockwise from the x axis. *)
Definition polar (l a : R) : Vec2 R := mkV2 (l * cos a) (l * sin a).
(** [a] is an angle of [u]. Every number is one of the zero vector. *)
Definition angle_of (u : Vec2 R) (a : R) : Prop := u = polar (norm2 u) a.

Section Polar.
Context {p e : Z} {Hp : Prec_gt_0 p} {He : Prec_lt_emax p e}.
Notation B := (binary_float p e).
Definition by_at_most2 (d : R) (u : Vec2 B) (v : Vec2 R) : Prop := by_at_most d (x2 u) (x2 v) /\ by_at_most d (y2 u) (y2 v).
(** sin, cos and atan2 of finite numbers are finite and off by at most d, which
    is no less than one rounding. Of the two angles PI and -PI of a vector on the
    negative x axis atan2 may give either, as that of C does by the sign of 0. *)
Record polar_functions (O : RealOps B) (d : R) : Prop := {
  pf_d : unit p <= d <= 1 / 1024;
  pf_sin : forall x : B, finite x -> by_at_most d (fsin x) (sin (num x));
  pf_cos : forall x : B, finite x -> by_at_most d (fcos x) (cos (num x));
  pf_atan2 : forall y x : B, finite y -> finite x ->
    exists a, - PI <= a <= PI /\ angle_of (mkV2 (num x) (num y)) a /\ by_at_most d (fatan2 y x) a }.
(** The columns of [m] are within [d] of the axes turned by [a]. *)
Definition turns2_by (d : R) (m : Mat2 B) (a : R) : Prop :=
  by_at_most2 d (mx2 m) (mkV2 (cos a) (sin a)) /\ by_at_most2 d (my2 m) (mkV2 (- sin a) (cos a)).
End Polar.
