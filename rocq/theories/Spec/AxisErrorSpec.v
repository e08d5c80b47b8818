(** Axis and angle, exponential and logarithm of rotations, and what is asked
    of the literals of quat.h. *)
From Coq Require Import Reals ZArith.
From Flocq Require Import Core.Core IEEE754.BinarySingleNaN.
From Verif.Base Require Import Scalar.
From Verif.Model Require Import Types.
From Verif.Spec Require Import VecSpec QuatSpec IeeeSpec TrigSpec QuatErrorSpec.
Local Open Scope R_scope.

Section Ieee.
Context {p e : Z} {Hp : Prec_gt_0 p} {He : Prec_lt_emax p e}.
Notation B := (binary_float p e).
(** At least 24 bits, exponents that reach 5 beyond the precision, and literals
    near what they say: 1e-6, 0.99999, -0.99999 and 0.95. 0.5 is exact. *)
Record quat_lits (O : RealOps B) : Prop := {
  ql_bits : (24 <= p)%Z;
  ql_range : (p + 5 <= e)%Z;
  ql_delta : by_at_most (1 / 10 ^ 9) (flit 8796093 8796093022208) (1 / 10 ^ 6);
  ql_same : by_at_most (unit p) (flit 99999 100000) (99999 / 100000);
  ql_opposite : by_at_most (unit p) (flit (-99999) 100000) (- (99999 / 100000));
  ql_arc : by_at_most (1 / 10 ^ 7) (flit 15938355 16777216) (95 / 100);
  ql_half : by_at_most 0 (flit 5 10) (1 / 2) }.
End Ieee.
(** The unit quaternion of the rotation around [n] by [a]. *)
Definition around (n : Vec3 R) (a : R) : Quat R := quat (smul3 (sin (a / 2)) n) (cos (a / 2)).
(** The exponential of the quaternion with vector part [v] and no scalar part. *)
Definition qexp (v : Vec3 R) : Quat R := quat (smul3 (sin (norm3 v) / norm3 v) v) (cos (norm3 v)).
(** The vector part of the logarithm of a unit quaternion other than 1 and -1. *)
Definition qlog (r : Quat R) : Vec3 R := smul3 (acos (qw r) / sqrt (1 - qw r * qw r)) (qvec r).
