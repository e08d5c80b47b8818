(** Model of the static constants of the library and of program start.

    The constants are static data members of class templates.  C++11
    [basic.start.init] gives them their values in two phases.  First all are
    zero, and those whose initialiser is a constant expression get their value:
    a literal, std::numeric_limits (constexpr), or an aggregate of literals.
    Reading another floating point constant or calling a constructor that is not
    constexpr is not a constant expression: these constants are initialised
    afterwards, when the program runs, in no specified order ("unordered
    initialization"), mixed with the initialisers of the user's own globals.  A
    compiler may do any of this work in the first phase when it finds the same
    value.

    Simplified: a constant that is never used is not instantiated; here all
    exist.  Concurrent initialisation is not modelled. *)
From Coq Require Import ZArith List Bool Eqdep_dec.
From Verif.Base Require Import Outcome Scalar.
From Verif.Model Require Import Types Functions Interpolation Vec Mat2 Mat3 Quat Mat4 Mat34 Access Shapes Box Ball Plane Color.
Import ListNotations.

(** The static constants: constants.h:8-21, vec2.h:95-97, vec3.h:90-93,
    vec4.h:63-70, mat2.h:92-95, mat3.h:130-133, mat4.h:156-159,
    mat34.h:106-107, quat.h:80, aabb2.h:78-79, aabb3.h:79-80, caabb2.h:67,
    caabb3.h:68, circle.h:60, sphere.h:60, plane.h:67-69, colorrgb.h:55-59,
    colorrgba.h:55-59, colorhsv.h:40-44 *)
Inductive cst :=
| kPI | kPI_TIMES_2 | kPI_OVER_2 | kPI_OVER_4 | kPI_OVER_8 | kPI_OVER_16 | kPI_OVER_3 | kPI_OVER_6
| kMIN_VALUE | kMAX_VALUE | kMAX_NEG_VALUE
| kVec2_Zero | kVec2_OneX | kVec2_OneY
| kVec3_Zero | kVec3_OneX | kVec3_OneY | kVec3_OneZ
| kVec4_Zero | kVec4_OneX | kVec4_OneY | kVec4_OneZ | kVec4_OneW | kVec4_OneXnw | kVec4_OneYnw | kVec4_OneZnw
| kMat2_Zero | kMat2_One | kMat2_Tolerance
| kMat3_Zero | kMat3_One | kMat3_Tolerance
| kMat4_Zero | kMat4_One | kMat4_Tolerance
| kMat34_Zero | kMat34_One | kQuat_One
| kAABB2_Zero | kAABB2_One | kAABB3_Zero | kAABB3_One | kCAABB2_One | kCAABB3_One
| kCircle_One | kSphere_One | kPlane_XY | kPlane_YZ | kPlane_ZX
| kRGB_Black | kRGB_White | kRGB_Red | kRGB_Green | kRGB_Blue
| kRGBA_Black | kRGBA_White | kRGBA_Red | kRGBA_Green | kRGBA_Blue
| kHSV_Black | kHSV_White | kHSV_Red | kHSV_Green | kHSV_Blue.
Definition cst_eq_dec (a b : cst) : {a = b} + {a <> b}.
Proof. decide equality. Defined.

Section Statics.
Context {T : Type} {O : RealOps T}.
(** std::numeric_limits<Real>::min() *)
Context (minval : T).
Local Open Scope fs_scope.

(** Types of the constants, as in the headers above. *)
Definition ctype (c : cst) : Type :=
  match c with
  | kPI | kPI_TIMES_2 | kPI_OVER_2 | kPI_OVER_4 | kPI_OVER_8 | kPI_OVER_16 | kPI_OVER_3 | kPI_OVER_6
  | kMIN_VALUE | kMAX_VALUE | kMAX_NEG_VALUE => T
  | kVec2_Zero | kVec2_OneX | kVec2_OneY => Vec2 T
  | kVec3_Zero | kVec3_OneX | kVec3_OneY | kVec3_OneZ => Vec3 T
  | kVec4_Zero | kVec4_OneX | kVec4_OneY | kVec4_OneZ | kVec4_OneW | kVec4_OneXnw | kVec4_OneYnw | kVec4_OneZnw => Vec4 T
  | kMat2_Zero | kMat2_One => Mat2 T
  | kMat3_Zero | kMat3_One => Mat3 T
  | kMat4_Zero | kMat4_One => Mat4 T
  | kMat2_Tolerance | kMat3_Tolerance | kMat4_Tolerance => Tolerance T
  | kMat34_Zero | kMat34_One => Mat34 T
  | kQuat_One => Quat T
  | kAABB2_Zero | kAABB2_One => AABB2 T
  | kAABB3_Zero | kAABB3_One => AABB3 T
  | kCAABB2_One => CAABB2 T
  | kCAABB3_One => CAABB3 T
  | kCircle_One => Circle T
  | kSphere_One => Sphere T
  | kPlane_XY | kPlane_YZ | kPlane_ZX => Plane T
  | kRGB_Black | kRGB_White | kRGB_Red | kRGB_Green | kRGB_Blue => RGB T
  | kRGBA_Black | kRGBA_White | kRGBA_Red | kRGBA_Green | kRGBA_Blue => RGBA T
  | kHSV_Black | kHSV_White | kHSV_Red | kHSV_Green | kHSV_Blue => HSV T
  end.

(** The memory of the constants. *)
Definition statics := forall c : cst, ctype c.
Definition assign (s : statics) (c : cst) (v : ctype c) : statics :=
  fun d => match cst_eq_dec c d with
           | left e => eq_rect c ctype v d e
           | right _ => s d
           end.

(** Zero initialisation: every number is 0 and no flag is set (the flag
    Uninitialized is 8, mat3.h:120, so it is not set either). *)
Definition flags_0 : Flags := mkFlags false false false false false.
Definition zero_value (c : cst) : ctype c :=
  let z := Re 0 in
  let z2 := mkV2 z z in
  let z3 := mkV3 z z z in
  let z4 := mkV4 z z z z in
  let m3 := mkM3 z3 z3 z3 flags_0 in
  match c with
  | kPI | kPI_TIMES_2 | kPI_OVER_2 | kPI_OVER_4 | kPI_OVER_8 | kPI_OVER_16 | kPI_OVER_3 | kPI_OVER_6
  | kMIN_VALUE | kMAX_VALUE | kMAX_NEG_VALUE => z
  | kVec2_Zero | kVec2_OneX | kVec2_OneY => z2
  | kVec3_Zero | kVec3_OneX | kVec3_OneY | kVec3_OneZ => z3
  | kVec4_Zero | kVec4_OneX | kVec4_OneY | kVec4_OneZ | kVec4_OneW | kVec4_OneXnw | kVec4_OneYnw | kVec4_OneZnw => z4
  | kMat2_Zero | kMat2_One => mkM2 z2 z2 flags_0
  | kMat3_Zero | kMat3_One => m3
  | kMat4_Zero | kMat4_One => mkM4 z4 z4 z4 z4 flags_0
  | kMat2_Tolerance | kMat3_Tolerance | kMat4_Tolerance => mkTol z z z
  | kMat34_Zero | kMat34_One => mkM34 m3 z3
  | kQuat_One => mkQ z z z z
  | kAABB2_Zero | kAABB2_One => mkAABB2 z2 z2
  | kAABB3_Zero | kAABB3_One => mkAABB3 z3 z3
  | kCAABB2_One => mkCAABB2 z2 z2
  | kCAABB3_One => mkCAABB3 z3 z3
  | kCircle_One => mkCircle z2 z
  | kSphere_One => mkSphere z3 z
  | kPlane_XY | kPlane_YZ | kPlane_ZX => mkPlane z3 z
  | kRGB_Black | kRGB_White | kRGB_Red | kRGB_Green | kRGB_Blue => mkRGB z z z
  | kRGBA_Black | kRGBA_White | kRGBA_Red | kRGBA_Green | kRGBA_Blue => mkRGBA z z z z
  | kHSV_Black | kHSV_White | kHSV_Red | kHSV_Green | kHSV_Blue => mkHSV z z z
  end.

(** The initialisers, with the memory they run in.  Files under impl/:
    constants.h:7-47, vec2.h:5-12, vec3.h:5-15, vec4.h:5-27, mat2.h:5-12,
    mat3.h:5-12, mat4.h:5-17, mat34.h:5-9, quat.h:7-8, aabb2.h:5-13,
    aabb3.h:5-13, caabb2.h:5-8, caabb3.h:5-8, circle.h:5-6, sphere.h:5-6,
    plane.h:6-13, colorrgb.h:5-18, colorrgba.h:5-18, colorhsv.h:5-18.
    Mat4::Zero is made by set(), which calls optimize() and so reads
    DefaultTolerance (mat4.h:50-55, 602-606). *)
Definition init (s : statics) (c : cst) : ctype c :=
  match c with
  | kPI => fpi
  | kPI_TIMES_2 => s kPI * Re 2
  | kPI_OVER_2 => s kPI * flit 1 2
  | kPI_OVER_4 => s kPI * flit 1 4
  | kPI_OVER_8 => s kPI * flit 1 8
  | kPI_OVER_16 => s kPI * flit 1 16
  | kPI_OVER_3 => s kPI / Re 3
  | kPI_OVER_6 => s kPI / Re 6
  | kMIN_VALUE => minval
  | kMAX_VALUE => fmaxval
  | kMAX_NEG_VALUE => - fmaxval
  | kVec2_Zero => mkV2 (Re 0) (Re 0)
  | kVec2_OneX => mkV2 (Re 1) (Re 0)
  | kVec2_OneY => mkV2 (Re 0) (Re 1)
  | kVec3_Zero => mkV3 (Re 0) (Re 0) (Re 0)
  | kVec3_OneX => mkV3 (Re 1) (Re 0) (Re 0)
  | kVec3_OneY => mkV3 (Re 0) (Re 1) (Re 0)
  | kVec3_OneZ => mkV3 (Re 0) (Re 0) (Re 1)
  | kVec4_Zero => mkV4 (Re 0) (Re 0) (Re 0) (Re 0)
  | kVec4_OneX => mkV4 (Re 1) (Re 0) (Re 0) (Re 1)
  | kVec4_OneY => mkV4 (Re 0) (Re 1) (Re 0) (Re 1)
  | kVec4_OneZ => mkV4 (Re 0) (Re 0) (Re 1) (Re 1)
  | kVec4_OneW => mkV4 (Re 0) (Re 0) (Re 0) (Re 1)
  | kVec4_OneXnw => mkV4 (Re 1) (Re 0) (Re 0) (Re 0)
  | kVec4_OneYnw => mkV4 (Re 0) (Re 1) (Re 0) (Re 0)
  | kVec4_OneZnw => mkV4 (Re 0) (Re 0) (Re 1) (Re 0)
  | kMat2_Zero => m2_scalar (Re 0)
  | kMat2_One => m2_scalar (Re 1)
  | kMat2_Tolerance => mkTol (flit 1 1000) (flit 1 1000) (flit 1 1000)
  | kMat3_Zero => m3_scalar (Re 0)
  | kMat3_One => m3_scalar (Re 1)
  | kMat3_Tolerance => mkTol (flit 1 1000) (flit 1 1000) (flit 1 1000)
  | kMat4_Zero =>
      let z4 := mkV4 (Re 0) (Re 0) (Re 0) (Re 0) in
      m4_optimize_tol (s kMat4_Tolerance) (mkM4 z4 z4 z4 z4 flags_uninit)
  | kMat4_One => m4_scalar (Re 1)
  | kMat4_Tolerance => mkTol (flit 1 1000) (flit 1 1000) (flit 1 1000)
  | kMat34_Zero => mkM34 (m3_scalar (Re 0)) (mkV3 (Re 0) (Re 0) (Re 0))
  | kMat34_One => mkM34 (m3_scalar (Re 1)) (mkV3 (Re 0) (Re 0) (Re 0))
  | kQuat_One => mkQ (Re 0) (Re 0) (Re 0) (Re 1)
  | kAABB2_Zero => mkAABB2 (mkV2 (Re 0) (Re 0)) (mkV2 (Re 0) (Re 0))
  | kAABB2_One => mkAABB2 (mkV2 (flit (-1) 2) (flit (-1) 2)) (mkV2 (flit 1 2) (flit 1 2))
  | kAABB3_Zero => mkAABB3 (mkV3 (Re 0) (Re 0) (Re 0)) (mkV3 (Re 0) (Re 0) (Re 0))
  | kAABB3_One => mkAABB3 (mkV3 (flit (-1) 2) (flit (-1) 2) (flit (-1) 2)) (mkV3 (flit 1 2) (flit 1 2) (flit 1 2))
  | kCAABB2_One => caabb2_of (mkV2 (Re 0) (Re 0)) (mkV2 (Re 1) (Re 1))
  | kCAABB3_One => caabb3_of (mkV3 (Re 0) (Re 0) (Re 0)) (mkV3 (Re 1) (Re 1) (Re 1))
  | kCircle_One => mkCircle (mkV2 (Re 0) (Re 0)) (Re 1)
  | kSphere_One => mkSphere (mkV3 (Re 0) (Re 0) (Re 0)) (Re 1)
  | kPlane_XY => mkPlane (mkV3 (Re 0) (Re 0) (Re 1)) (Re 0)
  | kPlane_YZ => mkPlane (mkV3 (Re 1) (Re 0) (Re 0)) (Re 0)
  | kPlane_ZX => mkPlane (mkV3 (Re 0) (Re 1) (Re 0)) (Re 0)
  | kRGB_Black => mkRGB (Re 0) (Re 0) (Re 0)
  | kRGB_White => mkRGB (Re 1) (Re 1) (Re 1)
  | kRGB_Red => mkRGB (Re 1) (Re 0) (Re 0)
  | kRGB_Green => mkRGB (Re 0) (Re 1) (Re 0)
  | kRGB_Blue => mkRGB (Re 0) (Re 0) (Re 1)
  | kRGBA_Black => mkRGBA (Re 0) (Re 0) (Re 0) (Re 1)
  | kRGBA_White => mkRGBA (Re 1) (Re 1) (Re 1) (Re 1)
  | kRGBA_Red => mkRGBA (Re 1) (Re 0) (Re 0) (Re 1)
  | kRGBA_Green => mkRGBA (Re 0) (Re 1) (Re 0) (Re 1)
  | kRGBA_Blue => mkRGBA (Re 0) (Re 0) (Re 1) (Re 1)
  | kHSV_Black => mkHSV (Re 0) (Re 0) (Re 0)
  | kHSV_White => mkHSV (Re 0) (Re 0) (Re 1)
  | kHSV_Red => mkHSV (Re 0) (Re 1) (Re 1)
  | kHSV_Green => mkHSV (Re 120) (Re 1) (Re 1)
  | kHSV_Blue => mkHSV (Re 240) (Re 1) (Re 1)
  end.

(** The initialisers that are constant expressions: a literal
    (constants.h:8), std::numeric_limits (constants.h:41-47) and the aggregates
    of literals (mat2.h:12, mat3.h:12, mat4.h:17, all under impl/). *)
Definition constant_expression (c : cst) : bool :=
  match c with
  | kPI | kMIN_VALUE | kMAX_VALUE | kMAX_NEG_VALUE | kMat2_Tolerance | kMat3_Tolerance | kMat4_Tolerance => true
  | _ => false
  end.

(** First phase.  [early c] says that the compiler initialises [c] in this
    phase; it must for constant expressions. *)
Definition phase1 (early : cst -> bool) : statics :=
  let s0 : statics := fun c => if constant_expression c then init zero_value c else zero_value c in
  fun c => if early c then init s0 c else zero_value c.
(** Second phase: the remaining initialisers run in the order of the list. *)
Fixpoint phase2 (order : list cst) (s : statics) : statics :=
  match order with
  | [] => s
  | c :: rest => phase2 rest (assign s c (init s c))
  end.

(** * Functions that read the constants, as they run in a given memory *)
(** functions.h:34-44 *)
Definition degreeToRadian_when (s : statics) (x : T) : T := x * s kPI / Re 180.
Definition radianToDegree_when (s : statics) (x : T) : T := x * Re 180 / s kPI.
(** interpolation.h:178-183 *)
Definition clerp_when (s : statics) (from to ratio : T) : outcome T :=
  let! m := fmod_ (to - from + s kPI) (s kPI_TIMES_2) in
  let delta := m - s kPI in Ok (from + delta * ratio).
(** interpolation.h:44-57: the easing Cosine *)
Definition cosine_when (s : statics) (t : T) : T :=
  if t <=? Re 0 then Re 0
  else if t >=? Re 1 then Re 1
  else Re 1 - fcos (t * s kPI_OVER_2).
(** impl/mat2.h:186-193, impl/mat3.h:49-57: setIdentity *)
Definition m2_setIdentity_when (s : statics) : Mat2 T :=
  mkM2 (s kVec2_OneX) (s kVec2_OneY) (mkFlags true true true false false).
Definition m3_setIdentity_when (s : statics) : Mat3 T :=
  mkM3 (s kVec3_OneX) (s kVec3_OneY) (s kVec3_OneZ) (mkFlags true true true false false).
(** optimize() without argument: impl/mat2.h:295-311, impl/mat3.h:629-645,
    impl/mat4.h:601-621 *)
Definition m2_optimize_when (s : statics) (m : Mat2 T) : Mat2 T := m2_optimize_tol (s kMat2_Tolerance) m.
Definition m3_optimize_when (s : statics) (m : Mat3 T) : Mat3 T := m3_optimize_tol (s kMat3_Tolerance) m.
Definition m4_optimize_when (s : statics) (m : Mat4 T) : Mat4 T := m4_optimize_tol (s kMat4_Tolerance) m.
(** set(x, y, z) of a Mat4 from Vec4s with the default t = Vec4::OneW:
    mat4.h:26, impl/mat4.h:127-135 *)
Definition m4_set3_default_when (s : statics) (x y z : Vec4 T) : Mat4 T :=
  m4_optimize_when s (mkM4 x y z (s kVec4_OneW) flags_uninit).
End Statics.
