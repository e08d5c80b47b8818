(** Model of impl/vec2.h, impl/vec3.h, impl/vec4.h. Member functions that
    modify the object return the new object. *)
From Coq Require Import ZArith Bool.
From Verif.Base Require Import Outcome Scalar.
From Verif.Model Require Import Types Functions.

Section Vec.
Context {T : Type} {O : RealOps T}.
Local Open Scope fs_scope.

(** * Vec2 *)

(** impl/vec2.h:5-12 *)
Definition v2_zero : Vec2 T := mkV2 (Re 0) (Re 0).
Definition v2_onex : Vec2 T := mkV2 (Re 1) (Re 0).
Definition v2_oney : Vec2 T := mkV2 (Re 0) (Re 1).

(** impl/vec2.h:35-45; the assertion of the default case guards members left
    unset *)
Definition v2_of_v3 (u : Vec3 T) (drop : Coord) : outcome (Vec2 T) :=
  match drop with
  | CoX => Ok (mkV2 (y3 u) (z3 u))
  | CoY => Ok (mkV2 (x3 u) (z3 u))
  | CoZ => Ok (mkV2 (x3 u) (y3 u))
  | _ => AssertFail
  end.

(** impl/vec2.h:95-105 *)
Definition v2_set_coord (u : Vec2 T) (c : Coord) (value : T) : outcome (Vec2 T) :=
  match c with
  | CoX => Ok (mkV2 value (y2 u))
  | CoY => Ok (mkV2 (x2 u) value)
  | _ => AssertFail
  end.

(** impl/vec2.h:107-113, also fromAngle 51-57 *)
Definition v2_setAngle (angle length : T) : Vec2 T :=
  mkV2 (length * fcos angle) (length * fsin angle).

(** impl/vec2.h:384-394 *)
Definition v2_lengthSqr (u : Vec2 T) : T := x2 u * x2 u + y2 u * y2 u.
Definition v2_length (u : Vec2 T) : T := fsqrt (x2 u * x2 u + y2 u * y2 u).

(** impl/vec2.h:158-173: new vector and returned former length *)
Definition v2_normalize (u : Vec2 T) (k : T) : Vec2 T * T :=
  let l := v2_length u in
  if l =? Re 0 then (mkV2 (Re 0) (Re 0), l)
  else (mkV2 (x2 u * (k / l)) (y2 u * (k / l)), l).

(** impl/vec2.h:396-401 *)
Definition v2_normalized (u : Vec2 T) (k : T) : Vec2 T :=
  let l := v2_length u in
  if l =? Re 0 then mkV2 (Re 0) (Re 0)
  else mkV2 (x2 u * k / l) (y2 u * k / l).

(** impl/vec2.h:175-185 *)
Definition v2_rotate (u : Vec2 T) (a : T) : Vec2 T :=
  let s := fsin a in
  let c := fcos a in
  mkV2 (x2 u * c - y2 u * s) (x2 u * s + y2 u * c).

(** impl/vec2.h:414-420 *)
Definition v2_rotated (u : Vec2 T) (a : T) : Vec2 T :=
  let s := fsin a in
  let c := fcos a in
  mkV2 (x2 u * c - y2 u * s) (x2 u * s + y2 u * c).

(** impl/vec2.h:187-211 and 439-455 *)
Definition v2_rotate90 (u : Vec2 T) : Vec2 T := mkV2 (- y2 u) (x2 u).
Definition v2_rotate180 (u : Vec2 T) : Vec2 T := mkV2 (- x2 u) (- y2 u).
Definition v2_rotate270 (u : Vec2 T) : Vec2 T := mkV2 (y2 u) (- x2 u).

(** impl/vec2.h:213-223: other coordinates leave the vector unchanged *)
Definition v2_mirror (u : Vec2 T) (c : Coord) : Vec2 T :=
  match c with
  | CoX => mkV2 (- x2 u) (y2 u)
  | CoY => mkV2 (x2 u) (- y2 u)
  | _ => u
  end.

(** impl/vec2.h:422-431: other coordinates give the null vector *)
Definition v2_mirrored (u : Vec2 T) (c : Coord) : Vec2 T :=
  match c with
  | CoX => mkV2 (- x2 u) (y2 u)
  | CoY => mkV2 (x2 u) (- y2 u)
  | _ => mkV2 (Re 0) (Re 0)
  end.

(** impl/vec2.h:230-242 *)
Definition v2_get (u : Vec2 T) (c : Coord) : outcome T :=
  match c with
  | CoX => Ok (x2 u)
  | CoY => Ok (y2 u)
  | _ => AssertFail
  end.

(** impl/vec2.h:249-255, 303-307 *)
Definition v2_add (u v : Vec2 T) : Vec2 T := mkV2 (x2 u + x2 v) (y2 u + y2 v).
(** impl/vec2.h:257-263, 315-319 *)
Definition v2_sub (u v : Vec2 T) : Vec2 T := mkV2 (x2 u - x2 v) (y2 u - y2 v).
(** impl/vec2.h:309-313 *)
Definition v2_opp (u : Vec2 T) : Vec2 T := mkV2 (- x2 u) (- y2 u).
(** impl/vec2.h:265-271, 333-337 *)
Definition v2_scale (u : Vec2 T) (k : T) : Vec2 T := mkV2 (x2 u * k) (y2 u * k).
(** impl/vec2.h:289-296, 350-355 *)
Definition v2_div (u : Vec2 T) (k : T) : outcome (Vec2 T) :=
  assert_then (k <>? Re 0) (Ok (mkV2 (x2 u / k) (y2 u / k))).
(** impl/vec2.h:321-325 *)
Definition v2_dot (u v : Vec2 T) : T := x2 u * x2 v + y2 u * y2 v.
(** impl/vec2.h:327-331 *)
Definition v2_cross (u v : Vec2 T) : T := x2 u * y2 v - y2 u * x2 v.
(** impl/vec2.h:361-371; operator!= is its negation *)
Definition v2_eqb (u v : Vec2 T) : bool := ((x2 u =? x2 v) && (y2 u =? y2 v))%bool.
Definition v2_neqb (u v : Vec2 T) : bool := ((x2 u <>? x2 v) || (y2 u <>? y2 v))%bool.
(** impl/vec2.h:403-412 *)
Definition v2_moved (u : Vec2 T) (c : Coord) (value : T) : Vec2 T :=
  match c with
  | CoX => mkV2 (x2 u + value) (y2 u)
  | CoY => mkV2 (x2 u) (y2 u + value)
  | _ => u
  end.
(** impl/vec2.h:433-437 *)
Definition v2_angle (u : Vec2 T) : T := fatan2 (y2 u) (x2 u).
(** impl/vec2.h:457-463 *)
Definition v2_majorCoord (u : Vec2 T) : Coord :=
  let fx := if x2 u >=? Re 0 then x2 u else - x2 u in
  let fy := if y2 u >=? Re 0 then y2 u else - y2 u in
  if fx >=? fy then CoX else CoY.
(** impl/vec2.h:465-471 *)
Definition v2_minorCoord (u : Vec2 T) : Coord :=
  let fx := if x2 u >=? Re 0 then x2 u else - x2 u in
  let fy := if y2 u >=? Re 0 then y2 u else - y2 u in
  if fx <? fy then CoX else CoY.
(** impl/vec2.h:473-477 *)
Definition v2_isNull (u : Vec2 T) : bool := ((x2 u =? Re 0) && (y2 u =? Re 0))%bool.
(** impl/vec2.h:501-519 *)
Definition v2_product (a b : Vec2 T) : Vec2 T := mkV2 (x2 a * x2 b) (y2 a * y2 b).
Definition v2_min (a b : Vec2 T) : Vec2 T := mkV2 (min_ (x2 a) (x2 b)) (min_ (y2 a) (y2 b)).
Definition v2_max (a b : Vec2 T) : Vec2 T := mkV2 (max_ (x2 a) (x2 b)) (max_ (y2 a) (y2 b)).
(** impl/vec2.h:521-525 *)
Definition v2_crossProduct (a b c : Vec2 T) : T :=
  (x2 b - x2 a) * (y2 c - y2 a) - (x2 c - x2 a) * (y2 b - y2 a).
(** impl/vec2.h:548-570: returned code, ftp, abp *)
Definition v2_intersection (from to a b : Vec2 T) : Z * T * T :=
  let ft := v2_sub to from in
  let ab := v2_sub b a in
  let det := x2 ft * y2 ab - y2 ft * x2 ab in
  if det =? Re 0 then (0%Z, Re 0, Re 0)
  else
    let fa := v2_sub a from in
    let num_lambda := x2 fa * y2 ab - y2 fa * x2 ab in
    let num_gamma := x2 fa * y2 ft - y2 fa * x2 ft in
    (1%Z, num_lambda / det, num_gamma / det).

(** * Vec3 *)

(** impl/vec3.h:5-15 *)
Definition v3_zero : Vec3 T := mkV3 (Re 0) (Re 0) (Re 0).
Definition v3_onex : Vec3 T := mkV3 (Re 1) (Re 0) (Re 0).
Definition v3_oney : Vec3 T := mkV3 (Re 0) (Re 1) (Re 0).
Definition v3_onez : Vec3 T := mkV3 (Re 0) (Re 0) (Re 1).

(** impl/vec3.h:38-48 *)
Definition v3_of_v2 (u : Vec2 T) (c : Coord) : Vec3 T :=
  match c with
  | CoX => mkV3 (Re 0) (x2 u) (y2 u)
  | CoY => mkV3 (y2 u) (Re 0) (x2 u)
  | _ => mkV3 (x2 u) (y2 u) (Re 0)
  end.

(** impl/vec3.h:92-103 *)
Definition v3_set_coord (u : Vec3 T) (c : Coord) (value : T) : outcome (Vec3 T) :=
  match c with
  | CoX => Ok (mkV3 value (y3 u) (z3 u))
  | CoY => Ok (mkV3 (x3 u) value (z3 u))
  | CoZ => Ok (mkV3 (x3 u) (y3 u) value)
  | _ => AssertFail
  end.

(** impl/vec3.h:608-618 *)
Definition v3_lengthSqr (u : Vec3 T) : T := x3 u * x3 u + y3 u * y3 u + z3 u * z3 u.
Definition v3_length (u : Vec3 T) : T := fsqrt (x3 u * x3 u + y3 u * y3 u + z3 u * z3 u).

(** impl/vec3.h:203-219: new vector and returned former length *)
Definition v3_normalize (u : Vec3 T) (k : T) : Vec3 T * T :=
  let l := v3_length u in
  if l =? Re 0 then (mkV3 (Re 0) (Re 0) (Re 0), l)
  else
    let coeff := k / l in
    (mkV3 (x3 u * coeff) (y3 u * coeff) (z3 u * coeff), l).

(** impl/vec3.h:620-633 *)
Definition v3_normalized (u : Vec3 T) (k : T) : Vec3 T :=
  let l := v3_length u in
  if l =? Re 0 then v3_zero
  else
    let coeff := k / l in
    mkV3 (x3 u * coeff) (y3 u * coeff) (z3 u * coeff).

(** impl/vec3.h:221-252 *)
Definition v3_rotate (u : Vec3 T) (axis : Coord) (angle : T) : Vec3 T :=
  let s := fsin angle in
  let c := fcos angle in
  match axis with
  | CoX => mkV3 (x3 u) (y3 u * c - z3 u * s) (y3 u * s + z3 u * c)
  | CoY => mkV3 (x3 u * c + z3 u * s) (y3 u) ((- x3 u) * s + z3 u * c)
  | CoZ => mkV3 (x3 u * c - y3 u * s) (x3 u * s + y3 u * c) (z3 u)
  | _ => mkV3 (Re 0) (Re 0) (Re 0)
  end.

(** impl/vec3.h:647-659 *)
Definition v3_rotated (u : Vec3 T) (axis : Coord) (angle : T) : Vec3 T :=
  let s := fsin angle in
  let c := fcos angle in
  match axis with
  | CoX => mkV3 (x3 u) (y3 u * c - z3 u * s) (y3 u * s + z3 u * c)
  | CoY => mkV3 (x3 u * c + z3 u * s) (y3 u) ((- x3 u) * s + z3 u * c)
  | CoZ => mkV3 (x3 u * c - y3 u * s) (x3 u * s + y3 u * c) (z3 u)
  | _ => v3_zero
  end.

(** impl/vec3.h:254-265 *)
Definition v3_mirror (u : Vec3 T) (c : Coord) : Vec3 T :=
  match c with
  | CoX => mkV3 (- x3 u) (y3 u) (z3 u)
  | CoY => mkV3 (x3 u) (- y3 u) (z3 u)
  | CoZ => mkV3 (x3 u) (y3 u) (- z3 u)
  | _ => u
  end.

(** impl/vec3.h:661-671 *)
Definition v3_mirrored (u : Vec3 T) (c : Coord) : Vec3 T :=
  match c with
  | CoX => mkV3 (- x3 u) (y3 u) (z3 u)
  | CoY => mkV3 (x3 u) (- y3 u) (z3 u)
  | CoZ => mkV3 (x3 u) (y3 u) (- z3 u)
  | _ => mkV3 (Re 0) (Re 0) (Re 0)
  end.

(** impl/vec3.h:271-293 *)
Definition v3_get (u : Vec3 T) (c : Coord) : outcome T :=
  match c with
  | CoX => Ok (x3 u)
  | CoY => Ok (y3 u)
  | CoZ => Ok (z3 u)
  | _ => AssertFail
  end.

(** impl/vec3.h:300-307, 453-457 *)
Definition v3_add (u v : Vec3 T) : Vec3 T := mkV3 (x3 u + x3 v) (y3 u + y3 v) (z3 u + z3 v).
(** impl/vec3.h:309-316, 465-469 *)
Definition v3_sub (u v : Vec3 T) : Vec3 T := mkV3 (x3 u - x3 v) (y3 u - y3 v) (z3 u - z3 v).
(** impl/vec3.h:459-463 *)
Definition v3_opp (u : Vec3 T) : Vec3 T := mkV3 (- x3 u) (- y3 u) (- z3 u).
(** impl/vec3.h:318-325, 552-556 *)
Definition v3_scale (u : Vec3 T) (k : T) : Vec3 T := mkV3 (x3 u * k) (y3 u * k) (z3 u * k).
(** impl/vec3.h:344-352, 573-578 *)
Definition v3_div (u : Vec3 T) (k : T) : outcome (Vec3 T) :=
  assert_then (k <>? Re 0) (Ok (mkV3 (x3 u / k) (y3 u / k) (z3 u / k))).
(** impl/vec3.h:471-475 *)
Definition v3_dot (u v : Vec3 T) : T := x3 u * x3 v + y3 u * y3 v + z3 u * z3 v.
(** impl/vec3.h:354-365, 477-483 *)
Definition v3_cross (u v : Vec3 T) : Vec3 T :=
  mkV3 (y3 u * z3 v - z3 u * y3 v)
       (z3 u * x3 v - x3 u * z3 v)
       (x3 u * y3 v - y3 u * x3 v).
(** impl/vec3.h:367-398, 485-509 *)
Definition v3_cross_coord (u : Vec3 T) (v : Coord) : outcome (Vec3 T) :=
  match v with
  | CoX => Ok (mkV3 (Re 0) (z3 u) (- y3 u))
  | CoY => Ok (mkV3 (- z3 u) (Re 0) (x3 u))
  | CoZ => Ok (mkV3 (y3 u) (- x3 u) (Re 0))
  | _ => AssertFail
  end.
(** impl/vec3.h:400-446, 511-550 *)
Definition v3_cross_axis (u : Vec3 T) (v : Axis) : outcome (Vec3 T) :=
  match v with
  | AxX => Ok (mkV3 (Re 0) (z3 u) (- y3 u))
  | AxY => Ok (mkV3 (- z3 u) (Re 0) (x3 u))
  | AxZ => Ok (mkV3 (y3 u) (- x3 u) (Re 0))
  | AxNX => Ok (mkV3 (Re 0) (- z3 u) (y3 u))
  | AxNY => Ok (mkV3 (z3 u) (Re 0) (- x3 u))
  | AxNZ => Ok (mkV3 (- y3 u) (x3 u) (Re 0))
  | AxUndefined => AssertFail
  end.
(** impl/vec3.h:585-595 *)
Definition v3_eqb (u v : Vec3 T) : bool :=
  ((x3 u =? x3 v) && (y3 u =? y3 v) && (z3 u =? z3 v))%bool.
Definition v3_neqb (u v : Vec3 T) : bool :=
  ((x3 u <>? x3 v) || (y3 u <>? y3 v) || (z3 u <>? z3 v))%bool.
(** impl/vec3.h:635-645 *)
Definition v3_moved (u : Vec3 T) (c : Coord) (value : T) : Vec3 T :=
  match c with
  | CoX => mkV3 (x3 u + value) (y3 u) (z3 u)
  | CoY => mkV3 (x3 u) (y3 u + value) (z3 u)
  | CoZ => mkV3 (x3 u) (y3 u) (z3 u + value)
  | _ => u
  end.
(** impl/vec3.h:673-682 *)
Definition v3_majorCoord (u : Vec3 T) : Coord :=
  let fx := if x3 u >=? Re 0 then x3 u else - x3 u in
  let fy := if y3 u >=? Re 0 then y3 u else - y3 u in
  let fz := if z3 u >=? Re 0 then z3 u else - z3 u in
  if fx >=? fy
  then (if fx >=? fz then CoX else CoZ)
  else (if fy >=? fz then CoY else CoZ).
(** impl/vec3.h:684-693 *)
Definition v3_minorCoord (u : Vec3 T) : Coord :=
  let fx := if x3 u >=? Re 0 then x3 u else - x3 u in
  let fy := if y3 u >=? Re 0 then y3 u else - y3 u in
  let fz := if z3 u >=? Re 0 then z3 u else - z3 u in
  if fx <? fy
  then (if fx <? fz then CoX else CoZ)
  else (if fy <? fz then CoY else CoZ).
(** impl/vec3.h:695-699 *)
Definition v3_isNull (u : Vec3 T) : bool :=
  ((x3 u =? Re 0) && (y3 u =? Re 0) && (z3 u =? Re 0))%bool.
(** impl/vec3.h:701-711 *)
Definition v3_toVec2 (u : Vec3 T) (drop : Coord) : Vec2 T :=
  match drop with
  | CoX => mkV2 (y3 u) (z3 u)
  | CoY => mkV2 (z3 u) (x3 u)
  | _ => mkV2 (x3 u) (y3 u)
  end.
(** impl/vec3.h:736-756 *)
Definition v3_product (a b : Vec3 T) : Vec3 T := mkV3 (x3 a * x3 b) (y3 a * y3 b) (z3 a * z3 b).
Definition v3_min (a b : Vec3 T) : Vec3 T :=
  mkV3 (min_ (x3 a) (x3 b)) (min_ (y3 a) (y3 b)) (min_ (z3 a) (z3 b)).
Definition v3_max (a b : Vec3 T) : Vec3 T :=
  mkV3 (max_ (x3 a) (x3 b)) (max_ (y3 a) (y3 b)) (max_ (z3 a) (z3 b)).

(** Vec3::randomUnitVector, impl/vec3.h:758-773, one pass of the loop for the
    three values [r1 r2 r3] of [::rand()]; the loop repeats while the returned
    former length is 0 *)
Definition v3_randomUnit_try (rmax r1 r2 r3 : Z) : Vec3 T * T :=
  v3_normalize (mkV3 (rand_real r1 rmax (Re 1)) (rand_real r2 rmax (Re 1))
                     (rand_real r3 rmax (Re 1))) (Re 1).

(** Vec3::randomUnitVector, impl/vec3.h:758-773: the whole loop, for the list
    [draws] of the values [::rand()] returns; None while the loop still waits
    for another value *)
Fixpoint v3_randomUnit (rmax : Z) (draws : list Z) : option (Vec3 T) :=
  match draws with
  | cons r1 (cons r2 (cons r3 rest)) =>
      let (v, l) := v3_randomUnit_try rmax r1 r2 r3 in
      if l =? Re 0 then v3_randomUnit rmax rest else Some v
  | _ => None
  end.

(** * Vec4 *)

(** impl/vec4.h:5-27 *)
Definition v4_zero : Vec4 T := mkV4 (Re 0) (Re 0) (Re 0) (Re 0).
Definition v4_onew : Vec4 T := mkV4 (Re 0) (Re 0) (Re 0) (Re 1).
Definition v4_onexnw : Vec4 T := mkV4 (Re 1) (Re 0) (Re 0) (Re 0).
Definition v4_oneynw : Vec4 T := mkV4 (Re 0) (Re 1) (Re 0) (Re 0).
Definition v4_oneznw : Vec4 T := mkV4 (Re 0) (Re 0) (Re 1) (Re 0).
(** impl/vec4.h:50-54 *)
Definition v4_of_v3 (u : Vec3 T) (w : T) : Vec4 T := mkV4 (x3 u) (y3 u) (z3 u) w.
(** impl/vec4.h:90-102 *)
Definition v4_set_coord (u : Vec4 T) (c : Coord) (value : T) : outcome (Vec4 T) :=
  match c with
  | CoX => Ok (mkV4 value (y4 u) (z4 u) (w4 u))
  | CoY => Ok (mkV4 (x4 u) value (z4 u) (w4 u))
  | CoZ => Ok (mkV4 (x4 u) (y4 u) value (w4 u))
  | CoW => Ok (mkV4 (x4 u) (y4 u) (z4 u) value)
  | _ => AssertFail
  end.
(** impl/vec4.h:109-125 *)
Definition v4_add_v3 (u : Vec4 T) (v : Vec3 T) : Vec4 T :=
  mkV4 (x4 u + x3 v) (y4 u + y3 v) (z4 u + z3 v) (w4 u).
Definition v4_sub_v3 (u : Vec4 T) (v : Vec3 T) : Vec4 T :=
  mkV4 (x4 u - x3 v) (y4 u - y3 v) (z4 u - z3 v) (w4 u).
(** impl/vec4.h:127-135, 173-177 *)
Definition v4_add (u v : Vec4 T) : Vec4 T :=
  mkV4 (x4 u + x4 v) (y4 u + y4 v) (z4 u + z4 v) (w4 u + w4 v).
(** impl/vec4.h:137-145, 185-189 *)
Definition v4_sub (u v : Vec4 T) : Vec4 T :=
  mkV4 (x4 u - x4 v) (y4 u - y4 v) (z4 u - z4 v) (w4 u - w4 v).
(** impl/vec4.h:179-183 *)
Definition v4_opp (u : Vec4 T) : Vec4 T := mkV4 (- x4 u) (- y4 u) (- z4 u) (- w4 u).
(** impl/vec4.h:191-195 *)
Definition v4_dot (u v : Vec4 T) : T :=
  x4 u * x4 v + y4 u * y4 v + z4 u * z4 v + w4 u * w4 v.
(** impl/vec4.h:147-155, 197-201 *)
Definition v4_scale (u : Vec4 T) (k : T) : Vec4 T :=
  mkV4 (x4 u * k) (y4 u * k) (z4 u * k) (w4 u * k).
(** impl/vec4.h:157-166, 203-208 *)
Definition v4_div (u : Vec4 T) (k : T) : outcome (Vec4 T) :=
  assert_then (k <>? Re 0) (Ok (mkV4 (x4 u / k) (y4 u / k) (z4 u / k) (w4 u / k))).
(** impl/vec4.h:215-225 *)
Definition v4_eqb (u v : Vec4 T) : bool :=
  ((x4 u =? x4 v) && (y4 u =? y4 v) && (z4 u =? z4 v) && (w4 u =? w4 v))%bool.
Definition v4_neqb (u v : Vec4 T) : bool :=
  ((x4 u <>? x4 v) || (y4 u <>? y4 v) || (z4 u <>? z4 v) || (w4 u <>? w4 v))%bool.
(** impl/vec4.h:238-248 *)
Definition v4_lengthSqr (u : Vec4 T) : T :=
  x4 u * x4 u + y4 u * y4 u + z4 u * z4 u + w4 u * w4 u.
Definition v4_length (u : Vec4 T) : T :=
  fsqrt (x4 u * x4 u + y4 u * y4 u + z4 u * z4 u + w4 u * w4 u).
(** impl/vec4.h:250-261 *)
Definition v4_moved (u : Vec4 T) (c : Coord) (value : T) : Vec4 T :=
  match c with
  | CoX => mkV4 (x4 u + value) (y4 u) (z4 u) (w4 u)
  | CoY => mkV4 (x4 u) (y4 u + value) (z4 u) (w4 u)
  | CoZ => mkV4 (x4 u) (y4 u) (z4 u + value) (w4 u)
  | CoW => mkV4 (x4 u) (y4 u) (z4 u) (w4 u + value)
  | _ => u
  end.
(** impl/vec4.h:263-267 *)
Definition v4_toVec3 (u : Vec4 T) : Vec3 T := mkV3 (x4 u) (y4 u) (z4 u).
(** impl/vec4.h:269-273 *)
Definition v4_isNull (u : Vec4 T) : bool :=
  ((x4 u =? Re 0) && (y4 u =? Re 0) && (z4 u =? Re 0) && (w4 u =? Re 0))%bool.
(** impl/vec4.h:299-321 *)
Definition v4_product (a b : Vec4 T) : Vec4 T :=
  mkV4 (x4 a * x4 b) (y4 a * y4 b) (z4 a * z4 b) (w4 a * w4 b).
Definition v4_min (a b : Vec4 T) : Vec4 T :=
  mkV4 (min_ (x4 a) (x4 b)) (min_ (y4 a) (y4 b)) (min_ (z4 a) (z4 b)) (min_ (w4 a) (w4 b)).
Definition v4_max (a b : Vec4 T) : Vec4 T :=
  mkV4 (max_ (x4 a) (x4 b)) (max_ (y4 a) (y4 b)) (max_ (z4 a) (z4 b)) (max_ (w4 a) (w4 b)).

End Vec.
