(** Floats as numbers, as Spec/FloatSpec.v for floats. *)
From Coq Require Import Reals ZArith.
From Flocq Require Import Core.Core IEEE754.BinarySingleNaN.
From Verif.Base Require Import ScalarF.
From Verif.Model Require Import Types Shapes Color.
Local Open Scope R_scope.

(** Not a NaN. *)
Definition ordered32 (x : F32) : Prop := is_nan x = false.
(** Not a NaN, not infinite. *)
Definition fin32 (x : F32) : Prop := is_finite x = true.
(** The number a float stands for; an infinity is beyond every float. *)
Definition val32 (x : F32) : R :=
  match x with
  | B754_infinity s => if s then - bpow radix2 128 else bpow radix2 128
  | _ => B2R x
  end.
Definition ordered2_32 (p : Vec2 F32) : Prop := ordered32 (x2 p) /\ ordered32 (y2 p).
Definition ordered3_32 (p : Vec3 F32) : Prop := ordered32 (x3 p) /\ ordered32 (y3 p) /\ ordered32 (z3 p).
Definition val2_32 (p : Vec2 F32) : Vec2 R := mkV2 (val32 (x2 p)) (val32 (y2 p)).
Definition val3_32 (p : Vec3 F32) : Vec3 R := mkV3 (val32 (x3 p)) (val32 (y3 p)) (val32 (z3 p)).
Definition ordered_box2_32 (b : AABB2 F32) : Prop := ordered2_32 (inf2 b) /\ ordered2_32 (sup2 b).
Definition ordered_box3_32 (b : AABB3 F32) : Prop := ordered3_32 (inf3 b) /\ ordered3_32 (sup3 b).
Definition valbox2_32 (b : AABB2 F32) : AABB2 R := mkAABB2 (val2_32 (inf2 b)) (val2_32 (sup2 b)).
Definition valbox3_32 (b : AABB3 F32) : AABB3 R := mkAABB3 (val3_32 (inf3 b)) (val3_32 (sup3 b)).
(** Nearest float, ties to even, when it does not overflow. *)
Definition rnd32 (x : R) : R := round radix2 (FLT_exp (-149) 24) ZnearestE x.
(** The largest float. *)
Definition Rmax32 : R := IZR (2 ^ 24 - 1) * bpow radix2 104.
(** At most a quarter of it. *)
Definition quarter32 (x : F32) : Prop := fin32 x /\ Rabs (val32 x) <= Rmax32 / 4.
(** A float from lo to hi. *)
Definition between32 (lo hi : Z) (x : F32) : Prop := fin32 x /\ IZR lo <= val32 x <= IZR hi.
(** Components from 0 to 1. *)
Definition unit_rgbF32 (c : RGB F32) : Prop := between32 0 1 (cr c) /\ between32 0 1 (cg c) /\ between32 0 1 (cb c).
Definition valrgb32 (c : RGB F32) : RGB R := mkRGB (val32 (cr c)) (val32 (cg c)) (val32 (cb c)).
Definition valhsv32 (c : HSV F32) : HSV R := mkHSV (val32 (ch c)) (val32 (cs c)) (val32 (cv c)).
