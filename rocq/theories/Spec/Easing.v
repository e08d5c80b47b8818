(** Names of the easing families of interpolation.h. *)
From Verif.Model Require Import Interpolation.

Inductive family :=
| FaQuadratic | FaCubic | FaQuartic | FaQuintic | FaSinusoidal
| FaExponential | FaExponential2 | FaCircular.

Definition mode_in (f : family) : InterpolationMode :=
  match f with
  | FaQuadratic => ImQuadraticIn | FaCubic => ImCubicIn | FaQuartic => ImQuarticIn
  | FaQuintic => ImQuinticIn | FaSinusoidal => ImSinusoidalIn
  | FaExponential => ImExponentialIn | FaExponential2 => ImExponential2In
  | FaCircular => ImCircularIn
  end.
Definition mode_out (f : family) : InterpolationMode :=
  match f with
  | FaQuadratic => ImQuadraticOut | FaCubic => ImCubicOut | FaQuartic => ImQuarticOut
  | FaQuintic => ImQuinticOut | FaSinusoidal => ImSinusoidalOut
  | FaExponential => ImExponentialOut | FaExponential2 => ImExponential2Out
  | FaCircular => ImCircularOut
  end.
Definition mode_inout (f : family) : InterpolationMode :=
  match f with
  | FaQuadratic => ImQuadraticInOut | FaCubic => ImCubicInOut | FaQuartic => ImQuarticInOut
  | FaQuintic => ImQuinticInOut | FaSinusoidal => ImSinusoidalInOut
  | FaExponential => ImExponentialInOut | FaExponential2 => ImExponential2InOut
  | FaCircular => ImCircularInOut
  end.

(** The three modes built from the rounded constants of interpolation.h:38-42. *)
Definition rounded_mode (m : InterpolationMode) : Prop :=
  m = ImExponentialIn \/ m = ImExponentialOut \/ m = ImExponentialInOut.
