(** Quaternions and rotation matrices of rounded numbers, compared with exact
    ones. *)
From Coq Require Import Reals ZArith.
From Flocq Require Import Core.Core IEEE754.BinarySingleNaN.
From Verif.Base Require Import Scalar.
From Verif.Model Require Import Types.
From Verif.Spec Require Import VecSpec QuatSpec IeeeSpec TrigSpec.
Local Open Scope R_scope.

Section Ieee.
Context {p e : Z} {Hp : Prec_gt_0 p} {He : Prec_lt_emax p e}.
Notation B := (binary_float p e).
(** [x] is finite and within [d] of [X]. *)
Definition by_at_most (d : R) (x : B) (X : R) : Prop := finite x /\ Rabs (num x - X) <= d.
Definition by_at_most3 (d : R) (u : Vec3 B) (v : Vec3 R) : Prop :=
  by_at_most d (x3 u) (x3 v) /\ by_at_most d (y3 u) (y3 v) /\ by_at_most d (z3 u) (z3 v).
Definition by_at_mostq (d : R) (q : Quat B) (r : Quat R) : Prop :=
  by_at_most d (qx q) (qx r) /\ by_at_most d (qy q) (qy r) /\ by_at_most d (qz q) (qz r) /\ by_at_most d (qw q) (qw r).
(** The columns of [m] are within [d] of the turned axes. *)
Definition turns_like (d : R) (m : Mat3 B) (r : Quat R) : Prop :=
  by_at_most3 d (mx3 m) (qturn r ex3) /\ by_at_most3 d (my3 m) (qturn r ey3) /\ by_at_most3 d (mz3 m) (qturn r ez3).
(** acos of a number in [-1, 1] is finite and off by at most k roundings of 1,
    and the literal 0.95 is off by at most one. *)
Record arccos (O : RealOps B) (k : nat) : Prop := {
  ac_acos : forall x : B, finite x -> Rabs (num x) <= 1 -> approx k 1 (facos_c x) (acos (num x));
  ac_lit : by_at_most (unit p) (flit 95 100) (95 / 100) }.
End Ieee.
(** A quaternion of length 1, and a quaternion scaled to length 1. *)
Definition unitq (r : Quat R) : Prop := qnorm2 r = 1.
Definition directionq (r : Quat R) : Quat R :=
  let k := / sqrt (qnorm2 r) in mkQ (k * qx r) (k * qy r) (k * qz r) (k * qw r).
(** The point at share [w] of the arc of the unit sphere from [f] to [t]. *)
Definition arcq (f t : Quat R) (w : R) : Quat R :=
  let a := acos (qdot f t) in qcomb (sin ((1 - w) * a) / sin a) f (sin (w * a) / sin a) t.
