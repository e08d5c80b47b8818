(** Figures grown or shrunk by a margin, and the margins that rounding calls for. *)
From Coq Require Import Reals ZArith.
From Flocq Require Import Core.Core IEEE754.BinarySingleNaN.
From Verif.Base Require Import Scalar.
From Verif.Model Require Import Types Shapes Box Ball Plane.
From Verif.Spec Require Import VecSpec GeomSpec IeeeSpec WholeSpec.
Local Open Scope R_scope.

(** The same figure with [m] added to its radius. *)
Definition grow2 (s : Circle R) (m : R) : Circle R := mkCircle (ccenter s) (cradius s + m).
Definition grow3 (s : Sphere R) (m : R) : Sphere R := mkSphere (scenter s) (sradius s + m).
(** Distances whose square neither overflows nor comes near to it. *)
Definition far_ok (e : Z) (d : R) : Prop := d * d + 3 * tiny e <= huge e.
(** Error of a distance computed as [d]: a few units in the last place, or a
    few times the square root of the smallest number of full precision. *)
Definition far_slack (p e : Z) (d : R) : R := gamma p 11 * d + 3 * sqrt (tiny e).
(** Error of the comparison of a distance to a sum of radii [r]. *)
Definition meet_slack (p e : Z) (r : R) : R := gamma p 10 * r + sqrt (tiny e).
(** [a <= b] up to one rounding of each. *)
Definition almost_le (p : Z) (a b : R) : Prop := a <= b + unit p * (Rabs a + Rabs b).
Definition almost_within2 (p : Z) (lo hi q : Vec2 R) : Prop :=
  (almost_le p (x2 lo) (x2 q) /\ almost_le p (x2 q) (x2 hi)) /\ (almost_le p (y2 lo) (y2 q) /\ almost_le p (y2 q) (y2 hi)).
Definition almost_within3 (p : Z) (lo hi q : Vec3 R) : Prop :=
  (almost_le p (x3 lo) (x3 q) /\ almost_le p (x3 q) (x3 hi)) /\ (almost_le p (y3 lo) (y3 q) /\ almost_le p (y3 q) (y3 hi)) /\
  (almost_le p (z3 lo) (z3 q) /\ almost_le p (z3 q) (z3 hi)).
(** A box in another, and two boxes that meet, up to rounding. *)
Definition almost_sub2 (p : Z) (a b : AABB2 R) : Prop :=
  (almost_le p (x2 (inf2 b)) (x2 (inf2 a)) /\ almost_le p (x2 (sup2 a)) (x2 (sup2 b))) /\
  (almost_le p (y2 (inf2 b)) (y2 (inf2 a)) /\ almost_le p (y2 (sup2 a)) (y2 (sup2 b))).
Definition almost_sub3 (p : Z) (a b : AABB3 R) : Prop :=
  (almost_le p (x3 (inf3 b)) (x3 (inf3 a)) /\ almost_le p (x3 (sup3 a)) (x3 (sup3 b))) /\
  (almost_le p (y3 (inf3 b)) (y3 (inf3 a)) /\ almost_le p (y3 (sup3 a)) (y3 (sup3 b))) /\
  (almost_le p (z3 (inf3 b)) (z3 (inf3 a)) /\ almost_le p (z3 (sup3 a)) (z3 (sup3 b))).
Definition almost_meet2 (p : Z) (a b : AABB2 R) : Prop :=
  (almost_le p (x2 (inf2 b)) (x2 (sup2 a)) /\ almost_le p (x2 (inf2 a)) (x2 (sup2 b))) /\
  (almost_le p (y2 (inf2 b)) (y2 (sup2 a)) /\ almost_le p (y2 (inf2 a)) (y2 (sup2 b))).
Definition almost_meet3 (p : Z) (a b : AABB3 R) : Prop :=
  (almost_le p (x3 (inf3 b)) (x3 (sup3 a)) /\ almost_le p (x3 (inf3 a)) (x3 (sup3 b))) /\
  (almost_le p (y3 (inf3 b)) (y3 (sup3 a)) /\ almost_le p (y3 (inf3 a)) (y3 (sup3 b))) /\
  (almost_le p (z3 (inf3 b)) (z3 (sup3 a)) /\ almost_le p (z3 (inf3 a)) (z3 (sup3 b))).
(** Corners no larger than [m]. *)
Definition corners_below2 (m : R) (b : AABB2 R) : Prop :=
  (Rabs (x2 (inf2 b)) <= m /\ Rabs (y2 (inf2 b)) <= m) /\ (Rabs (x2 (sup2 b)) <= m /\ Rabs (y2 (sup2 b)) <= m).
Definition corners_below3 (m : R) (b : AABB3 R) : Prop :=
  (Rabs (x3 (inf3 b)) <= m /\ Rabs (y3 (inf3 b)) <= m /\ Rabs (z3 (inf3 b)) <= m) /\
  (Rabs (x3 (sup3 b)) <= m /\ Rabs (y3 (sup3 b)) <= m /\ Rabs (z3 (sup3 b)) <= m).
(** The box around a ball. *)
Definition box_of_ball (s : Sphere R) : AABB3 R :=
  let r := mkV3 (sradius s) (sradius s) (sradius s) in mkAABB3 (minus3 (scenter s) r) (plus3 (scenter s) r).
(** Signed distance of [q] to a plane with a normal of length 1, and the error of its computation. *)
Definition side (s : Plane R) (q : Vec3 R) : R := dot3 (pnormal s) q - pd s.
Definition side_size (e : Z) (s : Plane R) (q : Vec3 R) : R := absdot3 (pnormal s) q + Rabs (pd s) + 3 * tiny e.
Definition side_slack (p e : Z) (s : Plane R) (q : Vec3 R) : R := gamma p 4 * side_size e s q.
(** Twice the signed area of a triangle, and the error of its computation. *)
Definition turn (a b c : Vec2 R) : R := det2 (minus2 b a) (minus2 c a).
Definition turn_size (e : Z) (a b c : Vec2 R) : R :=
  Rabs ((x2 b - x2 a) * (y2 c - y2 a)) + Rabs ((x2 c - x2 a) * (y2 b - y2 a)) + 2 * tiny e.
Definition turn_ok (e : Z) (a b c : Vec2 R) : Prop :=
  turn_size e a b c <= huge e /\ (Rabs (x2 b - x2 a) <= huge e /\ Rabs (y2 b - y2 a) <= huge e) /\ (Rabs (x2 c - x2 a) <= huge e /\ Rabs (y2 c - y2 a) <= huge e).
Definition turn_slack (p e : Z) (a b c : Vec2 R) : R := gamma p 4 * turn_size e a b c.

Section Num.
Context {p e : Z} {Hp : Prec_gt_0 p} {He : Prec_lt_emax p e}.
Notation B := (binary_float p e).
Definition num_plane (s : Plane B) : Plane R := mkPlane (num3 (pnormal s)) (num (pd s)).
Definition num_box3 (b : AABB3 B) : AABB3 R := mkAABB3 (num3 (inf3 b)) (num3 (sup3 b)).
Definition finite_circle (s : Circle B) : Prop := finite2 (ccenter s) /\ finite (cradius s).
Definition finite_sphere (s : Sphere B) : Prop := finite3 (scenter s) /\ finite (sradius s).
Definition finite_plane (s : Plane B) : Prop := finite3 (pnormal s) /\ finite (pd s).
Definition finite_tri (t : Tri2 B) : Prop := finite2 (ta2 t) /\ finite2 (tb2 t) /\ finite2 (tc2 t).
Definition finite_cbox2 (b : CAABB2 B) : Prop := finite2 (cbcenter2 b) /\ finite2 (cbextents2 b).
Definition finite_cbox3 (b : CAABB3 B) : Prop := finite3 (cbcenter3 b) /\ finite3 (cbextents3 b).
Definition finite_box3 (b : AABB3 B) : Prop := finite3 (inf3 b) /\ finite3 (sup3 b).
(** Finite numbers of magnitude at most 2^k. *)
Definition below (k : Z) (x : B) : Prop := finite x /\ Rabs (num x) <= bpow radix2 k.
Definition below3 (k : Z) (u : Vec3 B) : Prop := below k (x3 u) /\ below k (y3 u) /\ below k (z3 u).
Definition num_line3 (l : Line3 B) : Line3 R := mkLine3 (num3 (lstart3 l)) (num3 (lend3 l)).
End Num.
