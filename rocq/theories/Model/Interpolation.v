(** Model of libs/mathlib/include/interpolation.h and of the interpolations of
    impl/vec2.h. *)
From Coq Require Import ZArith Bool.
From Verif.Base Require Import Outcome Scalar.
From Verif.Model Require Import Types Functions Vec.

(** interpolation.h:5-36. The C++ enumeration can hold no other named value;
    a value forced by a cast would reach the assertion at 120 and is not
    modelled. *)
Inductive InterpolationMode :=
| ImLinear | ImParabolic | ImCubic | ImExponential | ImCosine
| ImQuadraticIn | ImQuadraticOut | ImQuadraticInOut
| ImCubicIn | ImCubicOut | ImCubicInOut
| ImQuarticIn | ImQuarticOut | ImQuarticInOut
| ImQuinticIn | ImQuinticOut | ImQuinticInOut
| ImSinusoidalIn | ImSinusoidalOut | ImSinusoidalInOut
| ImExponentialIn | ImExponentialOut | ImExponentialInOut
| ImExponential2In | ImExponential2Out | ImExponential2InOut
| ImCircularIn | ImCircularOut | ImCircularInOut.

Section Interpolation.
Context {T : Type} {O : RealOps T}.
Local Open Scope fs_scope.

(** impl/constants.h:10-17 *)
Definition PI_TIMES_2 : T := fpi * Re 2.
Definition PI_OVER_2 : T := fpi * flit 1 2.

(** interpolation.h:38-42, float constants *)
Definition POW_2_M10 : T := ftofloat (flit 976563 1000000000).
Definition INV_POW_2_0_MINUS_POW_2_M10 : T := ftofloat (flit 100098 100000).

(** Product of two floats. *)
Definition fmulf (a b : T) : T := ftofloat (a * b).

(** interpolation.h:52-121, the switch, for 0 < t < 1. [float t0] is
    [ftofloat]; a product of two floats is a float: it is exact in double and
    then rounded. *)
Definition interpolation_switch (t : T) (mode : InterpolationMode) : T :=
  match mode with
  | ImParabolic => t * t
  | ImCubic => t * t * t
  | ImExponential => fpow (Re 2) t - Re 1
  | ImCosine => Re 1 - fcos (t * PI_OVER_2)
  | ImLinear => t
  | ImQuadraticIn => t * t
  | ImQuadraticOut => t * (Re 2 - t)
  | ImQuadraticInOut =>
      if t <? flit 1 2 then Re 2 * t * t else (- Re 2 * t + Re 4) * t - Re 1
  | ImCubicIn => t * t * t
  | ImCubicOut => t * (t * (t - Re 3) + Re 3)
  | ImCubicInOut =>
      if t <? flit 1 2 then Re 4 * t * t * t
      else ((Re 4 * t - Re 12) * t + Re 12) * t - Re 3
  | ImQuarticIn => t * t * t * t
  | ImQuarticOut =>
      let t0 := ftofloat (t - Re 1) in fmulf (fmulf (fmulf (- t0) t0) t0) t0 + Re 1
  | ImQuarticInOut =>
      let t0 := ftofloat (Re 2 * t - Re 2) in
      if t <? flit 1 2 then Re 8 * t * t * t * t
      else (- flit 1 2) * (fmulf (fmulf (fmulf t0 t0) t0) t0 - Re 2)
  | ImQuinticIn => t * t * t * t * t
  | ImQuinticOut =>
      let t0 := ftofloat (t - Re 1) in fmulf (fmulf (fmulf (fmulf t0 t0) t0) t0) t0 + Re 1
  | ImQuinticInOut =>
      let t0 := ftofloat (Re 2 * t - Re 2) in
      if t <? flit 1 2 then Re 16 * t * t * t * t * t
      else flit 1 2 * (fmulf (fmulf (fmulf (fmulf t0 t0) t0) t0) t0 + Re 2)
  | ImSinusoidalIn => Re 1 - fcos (t * PI_OVER_2)
  | ImSinusoidalOut => fsin (t * PI_OVER_2)
  | ImSinusoidalInOut => flit 1 2 * (Re 1 - fcos (t * fpi))
  | ImExponentialIn =>
      (fpow (Re 2) (Re 10 * (t - Re 1)) - POW_2_M10) * INV_POW_2_0_MINUS_POW_2_M10
  | ImExponentialOut =>
      Re 1 - (fpow (Re 2) (- Re 10 * t) - POW_2_M10) * INV_POW_2_0_MINUS_POW_2_M10
  | ImExponentialInOut =>
      if t <? flit 1 2
      then flit 1 2 * ((fpow (Re 2) (Re 20 * t - Re 10) - POW_2_M10) * INV_POW_2_0_MINUS_POW_2_M10)
      else flit 1 2 * (Re 2 - (fpow (Re 2) (Re 10 - Re 20 * t) - POW_2_M10) * INV_POW_2_0_MINUS_POW_2_M10)
  | ImExponential2In => fpow (Re 2) (Re 20 * (t - Re 1))
  | ImExponential2Out => Re 1 - fpow (Re 2) (- Re 20 * t)
  | ImExponential2InOut =>
      if t <? flit 1 2
      then flit 1 2 * fpow (Re 2) (Re 40 * t - Re 20)
      else flit 1 2 * (Re 2 - fpow (Re 2) (Re 20 - Re 40 * t))
  | ImCircularIn => Re 1 - fsqrt (Re 1 - t * t)
  | ImCircularOut => fsqrt (Re 1 - (t - Re 1) * (t - Re 1))
  | ImCircularInOut =>
      if t <? flit 1 2
      then flit 1 2 * (Re 1 - fsqrt (Re 1 - Re 4 * t * t))
      else flit 1 2 * (fsqrt (Re 1 - (Re 4 * t - Re 8) * t - Re 4) + Re 1)
  end.

(** interpolation.h:44-124 *)
Definition interpolationRatio (t : T) (mode : InterpolationMode) : T :=
  if t <=? Re 0 then Re 0
  else if t >=? Re 1 then Re 1
  else interpolation_switch t mode.

(** interpolation.h:126-130; int subtraction, conversion and addition may
    overflow *)
Definition lerp_int (from to : Z) (ratio : T) : outcome Z :=
  let! d := int_sub to from in
  match ftoint (ratio * fofZ d) with
  | Some k => int_add from k
  | None => Undef
  end.

(** interpolation.h:132-137 *)
Definition lerp (from to ratio : T) : T :=
  let delta := to - from in from + delta * ratio.

(** interpolation.h:139-152 *)
Definition lerp2 (from to : Vec2 T) (ratio : T) : Vec2 T :=
  mkV2 (x2 from + (x2 to - x2 from) * ratio) (y2 from + (y2 to - y2 from) * ratio).
Definition lerp3 (from to : Vec3 T) (ratio : T) : Vec3 T :=
  mkV3 (x3 from + (x3 to - x3 from) * ratio) (y3 from + (y3 to - y3 from) * ratio)
       (z3 from + (z3 to - z3 from) * ratio).

(** interpolation.h:154-176 *)
Definition lerp_int_mode (from to : Z) (ratio : T) (mode : InterpolationMode) : outcome Z :=
  lerp_int from to (interpolationRatio ratio mode).
Definition lerp_mode (from to ratio : T) (mode : InterpolationMode) : T :=
  lerp from to (interpolationRatio ratio mode).
Definition lerp2_mode (from to : Vec2 T) (ratio : T) (mode : InterpolationMode) : Vec2 T :=
  lerp2 from to (interpolationRatio ratio mode).
Definition lerp3_mode (from to : Vec3 T) (ratio : T) (mode : InterpolationMode) : Vec3 T :=
  lerp3 from to (interpolationRatio ratio mode).

(** interpolation.h:181, 188, 198; the assertion of fmod is on 2*PI and the
    result is used directly *)
Definition clerp_delta (from to : T) : outcome T :=
  let! m := fmod_ (to - from + fpi) PI_TIMES_2 in Ok (m - fpi).

(** interpolation.h:178-183 *)
Definition clerp (from to ratio : T) : outcome T :=
  let! delta := clerp_delta from to in Ok (from + delta * ratio).

(** interpolation.h:189-191 *)
Definition clerp_limited (from delta maxAngle : T) : T :=
  if delta >=? Re 0
  then from + (if delta >? maxAngle then maxAngle else delta)
  else from + (if delta <? - maxAngle then - maxAngle else delta).

(** interpolation.h:185-193 *)
Definition clerpMaxAngle (from to maxAngle : T) : outcome T :=
  let! delta := clerp_delta from to in Ok (clerp_limited from delta maxAngle).

(** interpolation.h:195-204: angle and ratio *)
Definition clerpMaxAngle_ratio (from to maxAngle : T) : outcome (T * T) :=
  let! delta := clerp_delta from to in
  let angle := clerp_limited from delta maxAngle in
  Ok (angle, angle / delta).

(** impl/vec2.h:115-133 *)
Definition v2_clerp (u v : Vec2 T) (ratio : T) : outcome (Vec2 T) :=
  assert_then ((ratio >=? Re 0) && (ratio <=? Re 1))%bool
    (if ratio =? Re 0 then Ok u
     else if ratio =? Re 1 then Ok v
     else
       let! angle := clerp (v2_angle u) (v2_angle v) ratio in
       let l := lerp (v2_length u) (v2_length v) ratio in
       Ok (v2_setAngle angle l)).

(** impl/vec2.h:135-151 *)
Definition v2_clerpMaxAngle (u v : Vec2 T) (maxAngle : T) : outcome (Vec2 T) :=
  assert_then (maxAngle >=? Re 0)
    (if maxAngle =? Re 0 then Ok u
     else
       let! p := clerpMaxAngle_ratio (v2_angle u) (v2_angle v) maxAngle in
       let '(angle, ratio) := p in
       let l := lerp (v2_length u) (v2_length v) ratio in
       Ok (v2_setAngle angle l)).

End Interpolation.
