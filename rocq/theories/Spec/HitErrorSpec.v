(** Rays and segments against boxes and balls, in rounded numbers. *)
From Coq Require Import Reals ZArith.
From Flocq Require Import Core.Core IEEE754.BinarySingleNaN.
From Verif.Base Require Import Scalar.
From Verif.Model Require Import Types Shapes.
From Verif.Spec Require Import VecSpec GeomSpec ShapeSpec IeeeSpec MarginSpec.
Local Open Scope R_scope.

(** How far, after [k] roundings, a face of the slab from [lo] to [hi] may seem
    to be off, seen from [s] along [d]. *)
Definition face_slack (p e : Z) (k : nat) (lo hi s d : R) : R :=
  gamma p k * (Rmax (Rabs (lo - s)) (Rabs (hi - s)) + Rabs d * tiny e).
Definition hit_slack2 (p e : Z) (k : nat) (b : AABB2 R) (o d : Vec2 R) : Vec2 R :=
  mkV2 (face_slack p e k (x2 (inf2 b)) (x2 (sup2 b)) (x2 o) (x2 d)) (face_slack p e k (y2 (inf2 b)) (y2 (sup2 b)) (y2 o) (y2 d)).
Definition hit_slack3 (p e : Z) (k : nat) (b : AABB3 R) (o d : Vec3 R) : Vec3 R :=
  mkV3 (face_slack p e k (x3 (inf3 b)) (x3 (sup3 b)) (x3 o) (x3 d)) (face_slack p e k (y3 (inf3 b)) (y3 (sup3 b)) (y3 o) (y3 d))
    (face_slack p e k (z3 (inf3 b)) (z3 (sup3 b)) (z3 o) (z3 d)).
(** Boxes with their faces moved out or in by [m]. *)
Definition wider2 (m : Vec2 R) (b : AABB2 R) : AABB2 R := mkAABB2 (minus2 (inf2 b) m) (plus2 (sup2 b) m).
Definition narrower2 (m : Vec2 R) (b : AABB2 R) : AABB2 R := mkAABB2 (plus2 (inf2 b) m) (minus2 (sup2 b) m).
Definition wider3 (m : Vec3 R) (b : AABB3 R) : AABB3 R := mkAABB3 (minus3 (inf3 b) m) (plus3 (sup3 b) m).
Definition narrower3 (m : Vec3 R) (b : AABB3 R) : AABB3 R := mkAABB3 (plus3 (inf3 b) m) (minus3 (sup3 b) m).
(** The corners are in order, the direction is along the slab or not nearly
    so, and nothing comes near the ends of the range. *)
Definition slab_fits (e : Z) (lo hi s d : R) : Prop :=
  lo <= hi /\ (d = 0 \/ (tiny e <= Rabs d <= huge e / 2 /\
    (Rabs (lo - s) <= huge e /\ Rabs (lo - s) <= huge e * Rabs d) /\ (Rabs (hi - s) <= huge e /\ Rabs (hi - s) <= huge e * Rabs d))).
Definition box_fits2 (e : Z) (b : AABB2 R) (o d : Vec2 R) : Prop :=
  slab_fits e (x2 (inf2 b)) (x2 (sup2 b)) (x2 o) (x2 d) /\ slab_fits e (y2 (inf2 b)) (y2 (sup2 b)) (y2 o) (y2 d).
Definition box_fits3 (e : Z) (b : AABB3 R) (o d : Vec3 R) : Prop :=
  slab_fits e (x3 (inf3 b)) (x3 (sup3 b)) (x3 o) (x3 d) /\ slab_fits e (y3 (inf3 b)) (y3 (sup3 b)) (y3 o) (y3 d) /\
  slab_fits e (z3 (inf3 b)) (z3 (sup3 b)) (z3 o) (z3 d).
(** The slab is ahead of [s] on the way along [d], at a distance of at least
    [m], or beside the way. *)
Definition ahead (m lo hi s d : R) : Prop := d = 0 \/ (0 < d /\ s + m <= lo) \/ (d < 0 /\ hi + m <= s).
Definition all_ahead2 (m : Vec2 R) (b : AABB2 R) (o d : Vec2 R) : Prop :=
  ahead (x2 m) (x2 (inf2 b)) (x2 (sup2 b)) (x2 o) (x2 d) /\ ahead (y2 m) (y2 (inf2 b)) (y2 (sup2 b)) (y2 o) (y2 d).
Definition all_ahead3 (m : Vec3 R) (b : AABB3 R) (o d : Vec3 R) : Prop :=
  ahead (x3 m) (x3 (inf3 b)) (x3 (sup3 b)) (x3 o) (x3 d) /\ ahead (y3 m) (y3 (inf3 b)) (y3 (sup3 b)) (y3 o) (y3 d) /\
  ahead (z3 m) (z3 (inf3 b)) (z3 (sup3 b)) (z3 o) (z3 d).
(** The walk from [o] along [d] enters the ball at [w]. *)
Definition enters (s : Sphere R) (o d : Vec3 R) (w : R) : Prop :=
  inball s (along3 o d w) /\ forall y, y < w -> ~ inball s (along3 o d y).
Section Ieee.
Context {p e : Z} {Hp : Prec_gt_0 p} {He : Prec_lt_emax p e}.
Notation B := (binary_float p e).
Definition finite_box2 (b : AABB2 B) : Prop := finite2 (inf2 b) /\ finite2 (sup2 b).
Definition num_box2 (b : AABB2 B) : AABB2 R := mkAABB2 (num2 (inf2 b)) (num2 (sup2 b)).
Definition num_line2 (l : Line2 B) : Line2 R := mkLine2 (num2 (lstart2 l)) (num2 (lend2 l)).
End Ieee.
