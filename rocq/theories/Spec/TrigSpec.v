(** Accuracy of the sine and cosine of libm, and what rotations are compared with. *)
From Coq Require Import Reals ZArith.
From Flocq Require Import Core.Core IEEE754.BinarySingleNaN.
From Verif.Base Require Import Scalar.
From Verif.Model Require Import Types.
From Verif.Spec Require Import VecSpec IeeeSpec.
Local Open Scope R_scope.

Section Trig.
Context {p e : Z} {Hp : Prec_gt_0 p} {He : Prec_lt_emax p e}.
Notation B := (binary_float p e).
(** sin and cos of a finite number are finite and off by at most k roundings of
    1, and the literal Real(0.5) is a half. Functions that are off by less than
    one unit in the last place, such as those of glibc, have k = 1. *)
Record trig (O : RealOps B) (k : nat) : Prop := {
  t_k : (k <= 100)%nat;
  t_sin : forall x : B, finite x -> approx k 1 (fsin x) (sin (num x));
  t_cos : forall x : B, finite x -> approx k 1 (fcos x) (cos (num x));
  t_half : finite (flit 5 10) /\ num (flit 5 10) = 1 / 2 }.
(** At least 24 bits, and the tolerance Real(0.001) of optimize() is at least
    1/2000. *)
Record precise (O : RealOps B) : Prop := {
  pr_bits : (24 <= p)%Z;
  pr_tol : finite (flit 1 1000) /\ 1 / 2000 <= num (flit 1 1000) }.
(** Every component is finite and off by at most gamma(k) m. *)
Definition approx2 (k : nat) (m : R) (u : Vec2 B) (v : Vec2 R) : Prop :=
  approx k m (x2 u) (x2 v) /\ approx k m (y2 u) (y2 v).
Definition approx3 (k : nat) (m : R) (u : Vec3 B) (v : Vec3 R) : Prop :=
  approx k m (x3 u) (x3 v) /\ approx k m (y3 u) (y3 v) /\ approx k m (z3 u) (z3 v).
(** The first three components. *)
Definition upper (u : Vec4 B) : Vec3 B := mkV3 (x4 u) (y4 u) (z4 u).
End Trig.
(** Counter-clockwise rotation of the plane by [a]. *)
Definition turn2 (a : R) (u : Vec2 R) : Vec2 R := mkV2 (cos a * x2 u - sin a * y2 u) (sin a * x2 u + cos a * y2 u).
(** The unit vectors of the axes, and u scaled to length 1. *)
Definition ex3 : Vec3 R := mkV3 1 0 0.
Definition ey3 : Vec3 R := mkV3 0 1 0.
Definition ez3 : Vec3 R := mkV3 0 0 1.
Definition direction3 (u : Vec3 R) : Vec3 R := smul3 (/ norm3 u) u.
