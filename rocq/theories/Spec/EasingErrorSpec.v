(** Easing curves in binary numbers of any format, compared with the exact ones. *)
From Coq Require Import Reals ZArith.
From Flocq Require Import Core.Core IEEE754.BinarySingleNaN.
From Verif.Base Require Import Scalar.
From Verif.Model Require Import Interpolation.
From Verif.Spec Require Import Easing IeeeSpec AngleSpec.
Local Open Scope R_scope.

(** What the modes use besides + - * and comparisons: a float variable or float
    constants, sin or cos, pow, sqrt. *)
Definition narrow_mode (m : InterpolationMode) : Prop :=
  match m with
  | ImQuarticOut | ImQuarticInOut | ImQuinticOut | ImQuinticInOut
  | ImExponentialIn | ImExponentialOut | ImExponentialInOut => True
  | _ => False
  end.
Definition sine_mode (m : InterpolationMode) : Prop :=
  match m with ImCosine | ImSinusoidalIn | ImSinusoidalOut | ImSinusoidalInOut => True | _ => False end.
Definition pow_mode (m : InterpolationMode) : Prop :=
  match m with
  | ImExponential | ImExponentialIn | ImExponentialOut | ImExponentialInOut
  | ImExponential2In | ImExponential2Out | ImExponential2InOut => True
  | _ => False
  end.
Definition circular_mode (m : InterpolationMode) : Prop :=
  match m with ImCircularIn | ImCircularOut | ImCircularInOut => True | _ => False end.
Definition plain_mode (m : InterpolationMode) : Prop :=
  ~ narrow_mode m /\ ~ sine_mode m /\ ~ pow_mode m.

(** The curves inside (0,1). Each family enters along one curve; its Out mode is
    that curve turned by half a turn, its InOut mode is both, at half size. *)
Definition entry (f : family) (s : R) : R :=
  match f with
  | FaQuadratic => s ^ 2
  | FaCubic => s ^ 3
  | FaQuartic => s ^ 4
  | FaQuintic => s ^ 5
  | FaSinusoidal => 1 - cos (s * (PI / 2))
  | FaExponential => (Rpower 2 (10 * (s - 1)) - 976563 / 1000000000) * (100098 / 100000)
  | FaExponential2 => Rpower 2 (20 * (s - 1))
  | FaCircular => 1 - sqrt (1 - s ^ 2)
  end.
Definition leaving (f : family) (s : R) : R := 1 - entry f (1 - s).
Definition both (f : family) (s : R) : R :=
  if Rlt_dec s (1 / 2) then entry f (2 * s) / 2 else 1 - entry f (2 - 2 * s) / 2.
Definition curve (m : InterpolationMode) (s : R) : R :=
  match m with
  | ImLinear => s
  | ImParabolic => s ^ 2
  | ImCubic => s ^ 3
  | ImExponential => Rpower 2 s - 1
  | ImCosine => 1 - cos (s * (PI / 2))
  | ImQuadraticIn => entry FaQuadratic s | ImQuadraticOut => leaving FaQuadratic s | ImQuadraticInOut => both FaQuadratic s
  | ImCubicIn => entry FaCubic s | ImCubicOut => leaving FaCubic s | ImCubicInOut => both FaCubic s
  | ImQuarticIn => entry FaQuartic s | ImQuarticOut => leaving FaQuartic s | ImQuarticInOut => both FaQuartic s
  | ImQuinticIn => entry FaQuintic s | ImQuinticOut => leaving FaQuintic s | ImQuinticInOut => both FaQuintic s
  | ImSinusoidalIn => entry FaSinusoidal s | ImSinusoidalOut => leaving FaSinusoidal s | ImSinusoidalInOut => both FaSinusoidal s
  | ImExponentialIn => entry FaExponential s | ImExponentialOut => leaving FaExponential s | ImExponentialInOut => both FaExponential s
  | ImExponential2In => entry FaExponential2 s | ImExponential2Out => leaving FaExponential2 s | ImExponential2InOut => both FaExponential2 s
  | ImCircularIn => entry FaCircular s | ImCircularOut => leaving FaCircular s | ImCircularInOut => both FaCircular s
  end.
(** 0 up to 0 and 1 from 1 on. *)
Definition eased (m : InterpolationMode) (s : R) : R :=
  if Rle_dec s 0 then 0 else if Rle_dec 1 s then 1 else curve m s.

Section Easing.
Context {p e : Z} {Hp : Prec_gt_0 p} {He : Prec_lt_emax p e}.
Notation B := (binary_float p e).
(** Conversion to float, and the two float constants of the exponential modes. *)
Record narrow (O : RealOps B) (d : R) : Prop := {
  n_float : forall x : B, finite x -> Rabs (num x) <= 16 ->
    finite (ftofloat x) /\ Rabs (num (ftofloat x) - num x) <= d * (Rabs (num x) + 1);
  n_low : finite (flit 976563 1000000000) /\ Rabs (num (flit 976563 1000000000) - 976563 / 1000000000) <= d;
  n_scale : finite (flit 100098 100000) /\ Rabs (num (flit 100098 100000) - 100098 / 100000) <= 2 * d }.
(** sin and cos are off by at most d, and the constant for pi is good. *)
Record sines (O : RealOps B) (d : R) : Prop := {
  s_pi : good_pi O;
  s_sin : forall x : B, finite x -> finite (fsin x) /\ Rabs (num (fsin x) - sin (num x)) <= d;
  s_cos : forall x : B, finite x -> finite (fcos x) /\ Rabs (num (fcos x) - cos (num x)) <= d }.
(** Powers of two with exponents in [-21,1] are off by at most d times their size. *)
Definition powers (O : RealOps B) (d : R) : Prop :=
  forall x : B, finite x -> -21 <= num x <= 1 ->
    finite (fpow (fofZ 2) x) /\ Rabs (num (fpow (fofZ 2) x) - Rpower 2 (num x)) <= d * Rpower 2 (num x).
(** The distance allowed from the exact curve. *)
Definition easing_error (m : InterpolationMode) (d : R) : R :=
  match m with ImCircularIn | ImCircularOut | ImCircularInOut => 4 * sqrt d | _ => 128 * d end.
End Easing.
