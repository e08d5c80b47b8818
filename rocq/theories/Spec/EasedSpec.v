(** One eased component in binary numbers of any format (C112). *)
From Coq Require Import Reals ZArith.
From Flocq Require Import Core.Core IEEE754.BinarySingleNaN.
From Verif.Base Require Import Scalar.
From Verif.Model Require Import Interpolation.
From Verif.Spec Require Import IeeeSpec EasingErrorSpec.
Local Open Scope R_scope.

Section Eased.
Context {p e : Z} {Hp : Prec_gt_0 p} {He : Prec_lt_emax p e}.
Notation B := (binary_float p e).
(** Both ends are finite and not too large. *)
Definition ends (a b : B) : Prop := finite a /\ finite b /\ 4 * (Rabs (num a) + Rabs (num b)) <= huge e.
(** [c] is finite and near the exact eased value from [a] to [b] at [t]. *)
Definition eased_to (m : InterpolationMode) (d : R) (a b t c : B) : Prop :=
  let W := Rabs (num a) + Rabs (num b) in
  finite c /\ Rabs (num c - (num a + (num b - num a) * eased m (num t))) <= W * easing_error m d + unit p * (8 * W + 2 * tiny e).
(** What a mode needs of the libraries, with errors [d]. *)
Definition serves (O : RealOps B) (m : InterpolationMode) (d : R) : Prop :=
  unit p <= d <= 1 / 65536 /\ (narrow_mode m -> narrow O d) /\ (sine_mode m -> sines O d) /\ (pow_mode m -> powers O d).
End Eased.
