(** Interpolated numbers and colors in binary numbers of any format. *)
From Coq Require Import Reals ZArith.
From Flocq Require Import Core.Core IEEE754.BinarySingleNaN.
From Verif.Base Require Import Scalar.
From Verif.Model Require Import Types Interpolation Color.
From Verif.Spec Require Import IeeeSpec.
Local Open Scope R_scope.

(** x is one of a and b or between them. *)
Definition inside (a b x : R) : Prop := Rmin a b <= x <= Rmax a b.
(** On the way from a to b, x is not after y. *)
Definition on_the_way (a b x y : R) : Prop := (a <= b -> x <= y) /\ (b <= a -> y <= x).

(** A byte. *)
Definition byte (z : Z) : Prop := (0 <= z <= 255)%Z.
(** The modes that are a power of the ratio. *)
Definition power_mode (m : InterpolationMode) : Prop :=
  match m with ImParabolic | ImCubic | ImLinear | ImQuadraticIn | ImCubicIn | ImQuarticIn | ImQuinticIn => True | _ => False end.

Section Lerp.
Context {p e : Z} {Hp : Prec_gt_0 p} {He : Prec_lt_emax p e}.
Notation B := (binary_float p e).
(** Finite numbers whose sizes sum to a finite number. *)
Definition moderate (a b : B) : Prop := finite a /\ finite b /\ Rabs (num a) + Rabs (num b) <= huge e.
(** A ratio in [0,1], and one below 1. *)
Definition ratio (t : B) : Prop := finite t /\ 0 <= num t <= 1.
Definition inner_ratio (t : B) : Prop := finite t /\ 0 <= num t < 1.
(** One component [c] of an interpolation from [a] to [b] at [t]: in the range, and near the exact one. *)
Definition mixed (a b t c : B) : Prop :=
  finite c /\ inside (num a) (num b) (num c) /\
  Rabs (num c - (num a + (num b - num a) * num t)) <= unit p * (4 * (Rabs (num a) + Rabs (num b)) + 2 * tiny e).
(** A color component in [0,1]. *)
Definition unit_part (x : B) : Prop := finite x /\ 0 <= num x <= 1.
Definition unit_rgb_b (c : RGB B) : Prop := unit_part (cr c) /\ unit_part (cg c) /\ unit_part (cb c).
Definition unit_rgba_b (c : RGBA B) : Prop := unit_part (ar c) /\ unit_part (ag c) /\ unit_part (ab c) /\ unit_part (aa c).
(** Hue in [0,360], saturation and value in [0,1]. *)
Definition unit_hsv_b (c : HSV B) : Prop := finite (ch c) /\ 0 <= num (ch c) <= 360 /\ unit_part (cs c) /\ unit_part (cv c).
End Lerp.
