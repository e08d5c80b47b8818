(** Numbers nearest to a real, and good approximations of pi. *)
From Coq Require Import Reals ZArith.
From Flocq Require Import Core.Core IEEE754.BinarySingleNaN.
From Verif.Base Require Import Scalar.
From Verif.Spec Require Import IeeeSpec.
Local Open Scope R_scope.

Section Angle.
Context {p e : Z} {Hp : Prec_gt_0 p} {He : Prec_lt_emax p e}.
Notation B := (binary_float p e).
(** No number of the format is closer to [r] than [x]. *)
Definition nearest_num (x : B) (r : R) : Prop := finite x /\ forall y : B, finite y -> Rabs (num x - r) <= Rabs (num y - r).
(** The constant of the format for pi is right up to half a rounding. *)
Definition good_pi (O : RealOps B) : Prop := finite (@fpi _ O) /\ Rabs (num (@fpi _ O) - PI) <= unit p / 2 * PI.
End Angle.
(** Degrees to radians and back. *)
Definition radians (x : R) : R := x * PI / 180.
Definition degrees (x : R) : R := x * 180 / PI.
