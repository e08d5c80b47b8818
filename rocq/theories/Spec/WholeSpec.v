(** Whole numbers stored in binary floating point. *)
From Coq Require Import Reals ZArith.
From Flocq Require Import Core.Core IEEE754.BinarySingleNaN.
From Verif.Model Require Import Types Shapes Box Ball Plane.
From Verif.Spec Require Import IeeeSpec.
Local Open Scope R_scope.

Section Whole.
Context {p e : Z} {Hp : Prec_gt_0 p} {He : Prec_lt_emax p e}.
Notation B := (binary_float p e).
(** A whole number of size at most [K]. *)
Definition whole (K : R) (x : B) : Prop := finite x /\ Rabs (num x) <= K /\ exists z : Z, num x = IZR z.
(** Nothing was lost: [x] is the number [r]. *)
Definition exactly (x : B) (r : R) : Prop := finite x /\ num x = r.
Definition whole2 (K : R) (u : Vec2 B) : Prop := whole K (x2 u) /\ whole K (y2 u).
Definition whole3 (K : R) (u : Vec3 B) : Prop := whole K (x3 u) /\ whole K (y3 u) /\ whole K (z3 u).
Definition whole4 (K : R) (u : Vec4 B) : Prop := whole K (x4 u) /\ whole K (y4 u) /\ whole K (z4 u) /\ whole K (w4 u).
Definition exactly2 (u : Vec2 B) (v : Vec2 R) : Prop := finite2 u /\ num2 u = v.
Definition exactly3 (u : Vec3 B) (v : Vec3 R) : Prop := finite3 u /\ num3 u = v.
(** Shapes with whole coordinates, and the shapes they stand for. *)
Definition whole_circle (K : R) (s : Circle B) : Prop := whole2 K (ccenter s) /\ whole K (cradius s).
Definition whole_sphere (K : R) (s : Sphere B) : Prop := whole3 K (scenter s) /\ whole K (sradius s).
Definition whole_tri (K : R) (t : Tri2 B) : Prop := whole2 K (ta2 t) /\ whole2 K (tb2 t) /\ whole2 K (tc2 t).
Definition num_circle (s : Circle B) : Circle R := mkCircle (num2 (ccenter s)) (num (cradius s)).
Definition num_sphere (s : Sphere B) : Sphere R := mkSphere (num3 (scenter s)) (num (sradius s)).
Definition num_tri (t : Tri2 B) : Tri2 R := mkTri2 (num2 (ta2 t)) (num2 (tb2 t)) (num2 (tc2 t)).
Definition whole_cbox2 (K : R) (b : CAABB2 B) : Prop := whole2 K (cbcenter2 b) /\ whole2 K (cbextents2 b).
Definition whole_cbox3 (K : R) (b : CAABB3 B) : Prop := whole3 K (cbcenter3 b) /\ whole3 K (cbextents3 b).
Definition num_cbox2 (b : CAABB2 B) : CAABB2 R := mkCAABB2 (num2 (cbcenter2 b)) (num2 (cbextents2 b)).
Definition num_cbox3 (b : CAABB3 B) : CAABB3 R := mkCAABB3 (num3 (cbcenter3 b)) (num3 (cbextents3 b)).
(** The largest whole number below which all whole numbers are numbers of the format. *)
Definition whole_limit : R := bpow radix2 p.
End Whole.
Arguments whole_limit p : clear implicits.
