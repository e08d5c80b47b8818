(** Doubles as numbers. *)
From Coq Require Import Reals ZArith List.
From Flocq Require Import Core.Core IEEE754.BinarySingleNaN.
From Verif.Base Require Import ScalarF.
From Verif.Model Require Import Types Shapes Color Interpolation.
Import ListNotations.
Local Open Scope R_scope.

(** Not a NaN. *)
Definition ordered (x : F64) : Prop := is_nan x = false.
(** Not a NaN, not infinite. *)
Definition fin (x : F64) : Prop := is_finite x = true.
(** The number a double stands for; an infinity is beyond every double. *)
Definition val (x : F64) : R :=
  match x with
  | B754_infinity s => if s then - bpow radix2 1024 else bpow radix2 1024
  | _ => B2R x
  end.
Definition ordered2 (p : Vec2 F64) : Prop := ordered (x2 p) /\ ordered (y2 p).
Definition ordered3 (p : Vec3 F64) : Prop := ordered (x3 p) /\ ordered (y3 p) /\ ordered (z3 p).
Definition val2 (p : Vec2 F64) : Vec2 R := mkV2 (val (x2 p)) (val (y2 p)).
Definition val3 (p : Vec3 F64) : Vec3 R := mkV3 (val (x3 p)) (val (y3 p)) (val (z3 p)).
Definition ordered_box2 (b : AABB2 F64) : Prop := ordered2 (inf2 b) /\ ordered2 (sup2 b).
Definition ordered_box3 (b : AABB3 F64) : Prop := ordered3 (inf3 b) /\ ordered3 (sup3 b).
Definition valbox2 (b : AABB2 F64) : AABB2 R := mkAABB2 (val2 (inf2 b)) (val2 (sup2 b)).
Definition valbox3 (b : AABB3 F64) : AABB3 R := mkAABB3 (val3 (inf3 b)) (val3 (sup3 b)).
(** Nearest double, ties to even, when it does not overflow. *)
Definition rnd (x : R) : R := round radix2 (FLT_exp (-1074) 53) ZnearestE x.
(** The largest double. *)
Definition Rmax64 : R := IZR (2 ^ 53 - 1) * bpow radix2 971.
(** At most a quarter of it. *)
Definition quarter (x : F64) : Prop := fin x /\ Rabs (val x) <= Rmax64 / 4.
(** A double from lo to hi. *)
Definition between (lo hi : Z) (x : F64) : Prop := fin x /\ IZR lo <= val x <= IZR hi.
(** Components from 0 to 1. *)
Definition unit_rgbF (c : RGB F64) : Prop := between 0 1 (cr c) /\ between 0 1 (cg c) /\ between 0 1 (cb c).
Definition valrgb (c : RGB F64) : RGB R := mkRGB (val (cr c)) (val (cg c)) (val (cb c)).
Definition valhsv (c : HSV F64) : HSV R := mkHSV (val (ch c)) (val (cs c)) (val (cv c)).
(** No component differs by more than e. *)
Definition close_rgb (e : R) (c d : RGB R) : Prop :=
  Rabs (cr c - cr d) <= e /\ Rabs (cg c - cg d) <= e /\ Rabs (cb c - cb d) <= e.
(** Easing curves whose doubles keep the order, proved in Props/Floats.v. *)
Definition modes_up : list InterpolationMode :=
  [ImLinear; ImParabolic; ImCubic; ImQuadraticIn; ImCubicIn; ImQuarticIn; ImQuinticIn;
   ImQuarticOut; ImQuinticOut; ImCircularIn; ImCircularOut; ImQuarticInOut; ImQuinticInOut].
