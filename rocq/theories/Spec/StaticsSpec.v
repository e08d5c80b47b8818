(** The values that the rest of the model uses for the static constants, and
    what a moment of program start is. *)
From Coq Require Import ZArith List Bool.
From Verif.Base Require Import Outcome Scalar.
From Verif.Model Require Import Types Functions Interpolation Vec Mat2 Mat3 Quat Mat4 Mat34 Access Shapes Box Ball Plane Color Statics.
Import ListNotations.

Section StaticsSpec.
Context {T : Type} {O : RealOps T}.
Context (minval : T).
Local Open Scope fs_scope.

(** The constants as the other files of the model have them. *)
Definition settled (c : cst) : ctype (T := T) c :=
  match c with
  | kPI => fpi | kPI_TIMES_2 => PI_TIMES_2 | kPI_OVER_2 => PI_OVER_2 | kPI_OVER_4 => PI_OVER_4
  | kPI_OVER_8 => PI_OVER_8 | kPI_OVER_16 => PI_OVER_16 | kPI_OVER_3 => PI_OVER_3 | kPI_OVER_6 => PI_OVER_6
  | kMIN_VALUE => minval | kMAX_VALUE => fmaxval | kMAX_NEG_VALUE => - fmaxval
  | kVec2_Zero => v2_zero | kVec2_OneX => v2_onex | kVec2_OneY => v2_oney
  | kVec3_Zero => v3_zero | kVec3_OneX => v3_onex | kVec3_OneY => v3_oney | kVec3_OneZ => v3_onez
  | kVec4_Zero => v4_zero
  | kVec4_OneX => mkV4 (Re 1) (Re 0) (Re 0) (Re 1)
  | kVec4_OneY => mkV4 (Re 0) (Re 1) (Re 0) (Re 1)
  | kVec4_OneZ => mkV4 (Re 0) (Re 0) (Re 1) (Re 1)
  | kVec4_OneW => v4_onew | kVec4_OneXnw => v4_onexnw | kVec4_OneYnw => v4_oneynw | kVec4_OneZnw => v4_oneznw
  | kMat2_Zero => m2_zero | kMat2_One => m2_one | kMat2_Tolerance => tol_default
  | kMat3_Zero => m3_zero | kMat3_One => m3_one | kMat3_Tolerance => tol_default
  | kMat4_Zero => m4_zero | kMat4_One => m4_one | kMat4_Tolerance => tol_default
  | kMat34_Zero => m34_zero | kMat34_One => m34_one | kQuat_One => q_one
  | kAABB2_Zero => aabb2_zero | kAABB2_One => aabb2_one
  | kAABB3_Zero => aabb3_zero | kAABB3_One => aabb3_one
  | kCAABB2_One => caabb2_one | kCAABB3_One => caabb3_one
  | kCircle_One => circle_one | kSphere_One => sphere_one
  | kPlane_XY => plane_XY | kPlane_YZ => plane_YZ | kPlane_ZX => plane_ZX
  | kRGB_Black => rgb_Black | kRGB_White => rgb_White | kRGB_Red => rgb_Red | kRGB_Green => rgb_Green | kRGB_Blue => rgb_Blue
  | kRGBA_Black => rgba_Black | kRGBA_White => rgba_White | kRGBA_Red => rgba_Red
  | kRGBA_Green => rgba_Green | kRGBA_Blue => rgba_Blue
  | kHSV_Black => hsv_Black | kHSV_White => hsv_White | kHSV_Red => hsv_Red | kHSV_Green => hsv_Green | kHSV_Blue => hsv_Blue
  end.

(** A compiler that follows the standard does at least the constant
    expressions in the first phase. *)
Definition conforming (early : cst -> bool) : Prop :=
  forall c, constant_expression c = true -> early c = true.
(** A moment of program start: some initialisers have run, in some order. *)
Definition moment (s : statics (T := T)) : Prop :=
  exists early order, conforming early /\ s = phase2 minval order (phase1 minval early).
(** The constant has been initialised at that moment. *)
Definition reached (early : cst -> bool) (order : list cst) (c : cst) : Prop :=
  early c = true \/ In c order.
End StaticsSpec.
