(** Textbook quaternions over R, independent of the library's functions. *)
From Coq Require Import Reals.
From Verif.Model Require Import Types.
From Verif.Spec Require Import VecSpec.
Local Open Scope R_scope.

Definition qvec (q : Quat R) : Vec3 R := mkV3 (qx q) (qy q) (qz q).
Definition quat (v : Vec3 R) (w : R) : Quat R := mkQ (x3 v) (y3 v) (z3 v) w.
(** Hamilton product in scalar and vector parts. *)
Definition hamilton (p q : Quat R) : Quat R :=
  quat (plus3 (plus3 (smul3 (qw p) (qvec q)) (smul3 (qw q) (qvec p))) (cross3 (qvec p) (qvec q)))
       (qw p * qw q - dot3 (qvec p) (qvec q)).
Definition qconj (q : Quat R) : Quat R := quat (smul3 (-1) (qvec q)) (qw q).
Definition qdot (p q : Quat R) : R := dot3 (qvec p) (qvec q) + qw p * qw q.
Definition qnorm2 (q : Quat R) : R := qdot q q.
Definition qneg (q : Quat R) : Quat R := quat (smul3 (-1) (qvec q)) (- qw q).
Definition qone : Quat R := quat zero3 1.
(** Rotation of v by the unit quaternion q: the vector part of q v q'. *)
Definition qturn (q : Quat R) (v : Vec3 R) : Vec3 R := qvec (hamilton (hamilton q (quat v 0)) (qconj q)).
(** Squared distance. *)
Definition qdist2 (p q : Quat R) : R :=
  (qx p - qx q) * (qx p - qx q) + (qy p - qy q) * (qy p - qy q) +
  (qz p - qz q) * (qz p - qz q) + (qw p - qw q) * (qw p - qw q).
(** Linear combination x p + y q. *)
Definition qcomb (x : R) (p : Quat R) (y : R) (q : Quat R) : Quat R :=
  mkQ (x * qx p + y * qx q) (x * qy p + y * qy q) (x * qz p + y * qz q) (x * qw p + y * qw q).
