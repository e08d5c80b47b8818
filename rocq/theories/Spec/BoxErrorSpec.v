(** Boxes, centered boxes and their balls, in rounded numbers. *)
From Coq Require Import Reals ZArith.
From Flocq Require Import Core.Core IEEE754.BinarySingleNaN.
From Verif.Base Require Import Scalar.
From Verif.Model Require Import Types Shapes.
From Verif.Spec Require Import VecSpec GeomSpec IeeeSpec QuatErrorSpec.
Local Open Scope R_scope.

(** The faces of [a] are at most [d] away from those of [b]. *)
Definition faces_by2 (d : R) (a b : AABB2 R) : Prop :=
  (Rabs (x2 (inf2 a) - x2 (inf2 b)) <= d /\ Rabs (y2 (inf2 a) - y2 (inf2 b)) <= d) /\
  (Rabs (x2 (sup2 a) - x2 (sup2 b)) <= d /\ Rabs (y2 (sup2 a) - y2 (sup2 b)) <= d).
Definition faces_by3 (d : R) (a b : AABB3 R) : Prop :=
  (Rabs (x3 (inf3 a) - x3 (inf3 b)) <= d /\ Rabs (y3 (inf3 a) - y3 (inf3 b)) <= d /\ Rabs (z3 (inf3 a) - z3 (inf3 b)) <= d) /\
  (Rabs (x3 (sup3 a) - x3 (sup3 b)) <= d /\ Rabs (y3 (sup3 a) - y3 (sup3 b)) <= d /\ Rabs (z3 (sup3 a) - z3 (sup3 b)) <= d).
(** Center and half size of a box. *)
Definition middle2 (b : AABB2 R) : Vec2 R := smul2 (1 / 2) (plus2 (inf2 b) (sup2 b)).
Definition middle3 (b : AABB3 R) : Vec3 R := smul3 (1 / 2) (plus3 (inf3 b) (sup3 b)).
Definition reach2 (b : AABB2 R) : Vec2 R := smul2 (1 / 2) (minus2 (sup2 b) (inf2 b)).
Definition reach3 (b : AABB3 R) : Vec3 R := smul3 (1 / 2) (minus3 (sup3 b) (inf3 b)).
(** The same box with its half size times [k]. *)
Definition stretched2 (k : R) (b : AABB2 R) : AABB2 R :=
  mkAABB2 (minus2 (middle2 b) (smul2 k (reach2 b))) (plus2 (middle2 b) (smul2 k (reach2 b))).
Definition stretched3 (k : R) (b : AABB3 R) : AABB3 R :=
  mkAABB3 (minus3 (middle3 b) (smul3 k (reach3 b))) (plus3 (middle3 b) (smul3 k (reach3 b))).
(** Every face moved out by [m]. *)
Definition around2 (m : R) (b : AABB2 R) : AABB2 R := mkAABB2 (minus2 (inf2 b) (mkV2 m m)) (plus2 (sup2 b) (mkV2 m m)).
Definition around3 (m : R) (b : AABB3 R) : AABB3 R := mkAABB3 (minus3 (inf3 b) (mkV3 m m m)) (plus3 (sup3 b) (mkV3 m m m)).
(** Corners in order. *)
Definition proper2 (b : AABB2 R) : Prop := x2 (inf2 b) <= x2 (sup2 b) /\ y2 (inf2 b) <= y2 (sup2 b).
Definition proper3 (b : AABB3 R) : Prop := x3 (inf3 b) <= x3 (sup3 b) /\ y3 (inf3 b) <= y3 (sup3 b) /\ z3 (inf3 b) <= z3 (sup3 b).
(** Center and half size together no larger than [m]. *)
Definition spread_below2 (m : R) (b : CAABB2 R) : Prop :=
  Rabs (x2 (cbcenter2 b)) + Rabs (x2 (cbextents2 b)) <= m /\ Rabs (y2 (cbcenter2 b)) + Rabs (y2 (cbextents2 b)) <= m.
Definition spread_below3 (m : R) (b : CAABB3 R) : Prop :=
  Rabs (x3 (cbcenter3 b)) + Rabs (x3 (cbextents3 b)) <= m /\ Rabs (y3 (cbcenter3 b)) + Rabs (y3 (cbextents3 b)) <= m /\
  Rabs (z3 (cbcenter3 b)) + Rabs (z3 (cbextents3 b)) <= m.
(** [b] is the smallest box that includes S, up to [m]. *)
Definition almost_bounding2 (m : R) (S : Vec2 R -> Prop) (b : AABB2 R) : Prop :=
  included S (inbox2 (around2 m b)) /\ forall c, included S (inbox2 c) -> included (inbox2 b) (inbox2 (around2 m c)).
Definition almost_bounding3 (m : R) (S : Vec3 R -> Prop) (b : AABB3 R) : Prop :=
  included S (inbox3 (around3 m b)) /\ forall c, included S (inbox3 c) -> included (inbox3 b) (inbox3 (around3 m c)).
Section Num.
Context {p e : Z} {Hp : Prec_gt_0 p} {He : Prec_lt_emax p e}.
Notation B := (binary_float p e).
Definition by_at_most2 (d : R) (u : Vec2 B) (v : Vec2 R) : Prop := by_at_most d (x2 u) (x2 v) /\ by_at_most d (y2 u) (y2 v).
End Num.
