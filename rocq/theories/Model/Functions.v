(** Model of libs/mathlib/include/functions.h. *)
From Coq Require Import ZArith Bool.
From Verif.Base Require Import Outcome Scalar.
From Verif.Model Require Import Types.

(** functions.h:7-15 *)
Definition next2D (c : Coord) : Coord :=
  match c with CoX => CoY | CoY => CoX | _ => CoUndefined end.

(** functions.h:17-26 *)
Definition next3D (c : Coord) : Coord :=
  match c with CoX => CoY | CoY => CoZ | CoZ => CoX | _ => CoUndefined end.

(** ** int functions. The int type has 32 bits; overflow, modulus by zero and
    INT_MIN % -1 are undefined behaviour. [r] is the value returned by
    [::rand()]. *)

Definition int_min : Z := (-2147483648)%Z.
Definition int_max : Z := 2147483647%Z.
Definition int_ok (z : Z) : bool := (Z.leb int_min z && Z.leb z int_max)%bool.
Definition int_of (z : Z) : outcome Z := if int_ok z then Ok z else Undef.
Definition int_add (a b : Z) : outcome Z := int_of (a + b).
Definition int_sub (a b : Z) : outcome Z := int_of (a - b).
Definition int_mul (a b : Z) : outcome Z := int_of (a * b).
(** C++ % truncates toward zero, as [Z.rem]; a % b is undefined when b = 0 or
    when a / b overflows. *)
Definition int_rem (a b : Z) : outcome Z :=
  if Z.eqb b 0 then Undef
  else if int_ok (Z.quot a b) then Ok (Z.rem a b) else Undef.

(** functions.h:66-69 *)
Definition rand_int (r n : Z) : outcome Z := int_rem r n.

(** functions.h:71-74 *)
Definition randBetween_int (r from to : Z) : outcome Z :=
  let! d := int_sub to from in
  let! m := int_rem r d in
  int_add from m.

(** functions.h:76-79 *)
Definition randAmplitude_int (r n : Z) : outcome Z :=
  let! d := int_mul 2 n in
  let! m := int_rem r d in
  int_sub m n.

(** functions.h:81-86 *)
Definition randAmplitude2_int (r from to : Z) : outcome Z :=
  let! delta := int_sub to from in
  let! d := int_mul 2 delta in
  let! m := int_rem r d in
  let! q := int_sub m delta in
  if Z.leb 0 q then int_add from q
  else let! nf := int_sub 0 from in int_add nf q.

(** functions.h:173-176 *)
Definition min_int (a b : Z) : Z := if Z.ltb a b then a else b.
(** functions.h:185-188 *)
Definition max_int (a b : Z) : Z := if Z.ltb b a then a else b.
(** functions.h:197-202 *)
Definition clippedBetween_int (value a b : Z) : Z :=
  if Z.ltb b value then b else if Z.ltb value a then a else value.

Section Functions.
Context {T : Type} {O : RealOps T}.
Local Open Scope fs_scope.

(** functions.h:28-32 *)
Definition abs_ (value : T) : T := if value <? Re 0 then - value else value.

(** functions.h:34-38 *)
Definition degreeToRadian (x : T) : T := x * fpi / Re 180.

(** functions.h:40-44 *)
Definition radianToDegree (x : T) : T := x * Re 180 / fpi.

(** functions.h:46-54 *)
Definition asin_ (s0 : T) : T :=
  let s1 := if s0 >? Re 1 then Re 1 else s0 in
  let s2 := if s1 <? Re (-1) then Re (-1) else s1 in
  fasin_c s2.

(** functions.h:56-64 *)
Definition acos_ (c0 : T) : T :=
  let c1 := if c0 >? Re 1 then Re 1 else c0 in
  let c2 := if c1 <? Re (-1) then Re (-1) else c1 in
  facos_c c2.

(** functions.h:88-92; [r] is the value of [::rand()], [rmax] is RAND_MAX *)
Definition rand_real (r rmax : Z) (f : T) : T := fofZ r * (f / fofZ rmax).

(** functions.h:94-98 *)
Definition randBetween_real (r rmax : Z) (from to : T) : T :=
  from + fofZ r * (to - from) / fofZ rmax.

(** functions.h:100-104 *)
Definition randAmplitude_real (r rmax : Z) (f : T) : T :=
  (fofZ r * (Re 2 / fofZ rmax) - Re 1) * f.

(** functions.h:106-113 *)
Definition randAmplitude2_real (r rmax : Z) (from to : T) : T :=
  if Z.leb 0 r
  then from + fofZ r * (to - from) / fofZ rmax
  else - (from + fofZ r * (to - from) / fofZ rmax).

(** functions.h:115-120 *)
Definition fmod_ (x y : T) : outcome T :=
  assert_then (y <>? Re 0) (Ok (ffmod_c x y)).

(** functions.h:122-128 *)
Definition fmodPositive (x y : T) : outcome T :=
  assert_then (y >? Re 0)
    (let r := ffmod_c x y in
     Ok (if r >=? Re 0 then r else y + r)).

(** functions.h:130-135 *)
Definition fmodCentered (x y : T) : outcome T :=
  let y_2 := y * flit 1 2 in
  let! p := fmodPositive (x + y_2) y in
  Ok (p - y_2).

(** functions.h:138-144 *)
Definition distance2 (a b : Vec2 T) : T :=
  let x := x2 b - x2 a in
  let y := y2 b - y2 a in
  fsqrt (x * x + y * y).

(** functions.h:146-152 *)
Definition distanceSqr2 (a b : Vec2 T) : T :=
  let x := x2 b - x2 a in
  let y := y2 b - y2 a in
  x * x + y * y.

(** functions.h:154-161 *)
Definition distance3 (a b : Vec3 T) : T :=
  let x := x3 b - x3 a in
  let y := y3 b - y3 a in
  let z := z3 b - z3 a in
  fsqrt (x * x + y * y + z * z).

(** functions.h:163-170 *)
Definition distanceSqr3 (a b : Vec3 T) : T :=
  let x := x3 b - x3 a in
  let y := y3 b - y3 a in
  let z := z3 b - z3 a in
  x * x + y * y + z * z.

(** functions.h:178-182 *)
Definition min_ (a b : T) : T := if a <? b then a else b.

(** functions.h:190-194 *)
Definition max_ (a b : T) : T := if a >? b then a else b.

(** functions.h:204-210 *)
Definition clippedBetween (value a b : T) : T :=
  if value >? b then b else if value <? a then a else value.

(** functions.h:217-226, the dead zone of [evaluate] *)
Definition evaluate_input (value threshold : T) : T :=
  if ((value >=? - threshold) && (value <=? threshold))%bool then Re 0
  else if value >=? Re 0
       then (value - threshold) / (Re 1 - threshold)
       else (value + threshold) / (Re 1 - threshold).

(** functions.h:256, literal 1.57079633 *)
Definition half_pi_lit : T := flit 157079633 100000000.

(** functions.h:212-269. [pow(2.0f, v)] is [fpow (Re 2) v]. *)
Definition evaluate (value0 threshold : T) (curve : ResponseCurve) : outcome T :=
  assert_then ((threshold >=? Re 0) && (threshold <? Re 1))%bool
    (let value := evaluate_input value0 threshold in
     match curve with
     | RcZero => Ok (Re 0)
     | RcLinear => Ok value
     | RcParabolic =>
         Ok (if value >=? Re 0 then value * value else (- value) * value)
     | RcCubic => Ok (value * value * value)
     | RcExponential =>
         Ok (if value >=? Re 0 then fpow (Re 2) value - Re 1
             else - (fpow (Re 2) (- value) - Re 1))
     | RcCosine =>
         Ok (if value >=? Re 0
             then (if value >=? Re 1 then Re 1
                   else (Re 1 - fcos (value * half_pi_lit)) / (Re 1 - fcos half_pi_lit))
             else (if value <=? Re (-1) then Re (-1)
                   else (- (Re 1 - fcos ((- value) * half_pi_lit))) / (Re 1 - fcos half_pi_lit)))
     | RcUndefined => AssertFail
     end).

End Functions.
