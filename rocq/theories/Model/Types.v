(** Enumerations and plain records shared by the models. *)
From Coq Require Import ZArith Bool.
From Verif.Base Require Import Scalar.

(** common.h:16-23, enum class Coord. *)
Inductive Coord := CoX | CoY | CoZ | CoW | CoUndefined.

(** common.h:25-34, enum class Axis. *)
Inductive Axis := AxX | AxY | AxZ | AxNX | AxNY | AxNZ | AxUndefined.

(** common.h:36-45, enum class ResponseCurveType. *)
Inductive ResponseCurve :=
| RcZero | RcLinear | RcParabolic | RcCubic | RcExponential | RcCosine | RcUndefined.

(** vec2.h:6-97, data members of class Vec2. *)
Record Vec2 (T : Type) := mkV2 { x2 : T; y2 : T }.
Arguments mkV2 {T} x2 y2.
Arguments x2 {T} v : rename.
Arguments y2 {T} v : rename.

(** vec3.h:6-98, data members of class Vec3. *)
Record Vec3 (T : Type) := mkV3 { x3 : T; y3 : T; z3 : T }.
Arguments mkV3 {T} x3 y3 z3.
Arguments x3 {T} v : rename.
Arguments y3 {T} v : rename.
Arguments z3 {T} v : rename.

(** vec4.h:6-71, data members of class Vec4. *)
Record Vec4 (T : Type) := mkV4 { x4 : T; y4 : T; z4 : T; w4 : T }.
Arguments mkV4 {T} x4 y4 z4 w4.
Arguments x4 {T} v : rename.
Arguments y4 {T} v : rename.
Arguments z4 {T} v : rename.
Arguments w4 {T} v : rename.

(** quat.h:74-78, data members of class Quat. *)
Record Quat (T : Type) := mkQ { qx : T; qy : T; qz : T; qw : T }.
Arguments mkQ {T} qx qy qz qw.
Arguments qx {T} q : rename.
Arguments qy {T} q : rename.
Arguments qz {T} q : rename.
Arguments qw {T} q : rename.

(** common.h:47-53, struct MatrixTolerance. *)
Record Tolerance (T : Type) := mkTol { tolNormal : T; tolOrthogonal : T; tolIdentity : T }.
Arguments mkTol {T} tolNormal tolOrthogonal tolIdentity.
Arguments tolNormal {T} t : rename.
Arguments tolOrthogonal {T} t : rename.
Arguments tolIdentity {T} t : rename.

(** mat2.h:98-106, mat3.h:114-121, mat34.h, mat4.h: the bits of the private
    member [flags]. Bit Trs exists in Mat4 only and stays false elsewhere. *)
Record Flags := mkFlags {
  fNormal : bool; fOrthogonal : bool; fIdentity : bool; fTrs : bool; fUninit : bool }.

(** [a & b] on the bits. *)
Definition flags_and (a b : Flags) : Flags :=
  mkFlags (fNormal a && fNormal b) (fOrthogonal a && fOrthogonal b) (fIdentity a && fIdentity b)
          (fTrs a && fTrs b) (fUninit a && fUninit b).

(** (flags & Orthonormal) == Orthonormal *)
Definition isOrthonormalF (f : Flags) : bool := (fNormal f && fOrthogonal f)%bool.

(** mat2.h:89-90, 108: data members of class Mat2; x and y are columns. *)
Record Mat2 (T : Type) := mkM2 { mx2 : Vec2 T; my2 : Vec2 T; mf2 : Flags }.
Arguments mkM2 {T} mx2 my2 mf2.
Arguments mx2 {T} m : rename.
Arguments my2 {T} m : rename.
Arguments mf2 {T} m : rename.

(** mat3.h:123-128: data members of class Mat3; x, y and z are columns. *)
Record Mat3 (T : Type) := mkM3 { mx3 : Vec3 T; my3 : Vec3 T; mz3 : Vec3 T; mf3 : Flags }.
Arguments mkM3 {T} mx3 my3 mz3 mf3.
Arguments mx3 {T} m : rename.
Arguments my3 {T} m : rename.
Arguments mz3 {T} m : rename.
Arguments mf3 {T} m : rename.

Definition coord_eqb (a b : Coord) : bool :=
  match a, b with
  | CoX, CoX | CoY, CoY | CoZ, CoZ | CoW, CoW | CoUndefined, CoUndefined => true
  | _, _ => false
  end.

(** mat4.h:5-160, data members of class Mat4. *)
Record Mat4 (T : Type) := mkM4 { mx4 : Vec4 T; my4 : Vec4 T; mz4 : Vec4 T; mt4 : Vec4 T; mf4 : Flags }.
Arguments mkM4 {T} mx4 my4 mz4 mt4 mf4.
Arguments mx4 {T} m : rename.
Arguments my4 {T} m : rename.
Arguments mz4 {T} m : rename.
Arguments mt4 {T} m : rename.
Arguments mf4 {T} m : rename.

(** mat34.h:5-108, data members of class Mat34. *)
Record Mat34 (T : Type) := mkM34 { rs34 : Mat3 T; t34 : Vec3 T }.
Arguments mkM34 {T} rs34 t34.
Arguments rs34 {T} m : rename.
Arguments t34 {T} m : rename.
