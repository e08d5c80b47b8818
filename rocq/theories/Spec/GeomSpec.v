(** Plane and space figures as sets of points over R, independent of the
    library's functions. *)
From Coq Require Import Reals.
From Verif.Base Require Import Array ScalarR.
From Verif.Model Require Import Types Shapes.
From Verif.Spec Require Import VecSpec.
Local Open Scope R_scope.

(** Closed boxes with corners lo and hi. *)
Definition within2 (lo hi p : Vec2 R) : Prop := x2 lo <= x2 p <= x2 hi /\ y2 lo <= y2 p <= y2 hi.
Definition within3 (lo hi p : Vec3 R) : Prop :=
  x3 lo <= x3 p <= x3 hi /\ y3 lo <= y3 p <= y3 hi /\ z3 lo <= z3 p <= z3 hi.
Definition inbox2 (b : AABB2 R) := within2 (inf2 b) (sup2 b).
Definition inbox3 (b : AABB3 R) := within3 (inf3 b) (sup3 b).
(** Box given by its center and its half size: the corner box it stands for. *)
Definition corners2 (b : CAABB2 R) : AABB2 R :=
  mkAABB2 (minus2 (cbcenter2 b) (cbextents2 b)) (plus2 (cbcenter2 b) (cbextents2 b)).
Definition corners3 (b : CAABB3 R) : AABB3 R :=
  mkAABB3 (minus3 (cbcenter3 b) (cbextents3 b)) (plus3 (cbcenter3 b) (cbextents3 b)).
Definition incbox2 (b : CAABB2 R) := inbox2 (corners2 b).
Definition incbox3 (b : CAABB3 R) := inbox3 (corners3 b).
(** Closed balls. *)
Definition indisc (c : Circle R) (p : Vec2 R) : Prop := dist2 (ccenter c) p <= cradius c.
Definition inball (s : Sphere R) (p : Vec3 R) : Prop := dist3 (scenter s) p <= sradius s.

Definition nonempty {P} (S : P -> Prop) : Prop := exists p, S p.
Definition included {P} (S S' : P -> Prop) : Prop := forall p, S p -> S' p.
Definition meets {P} (S S' : P -> Prop) : Prop := exists p, S p /\ S' p.

(** [b] is the smallest box that includes S. *)
Definition bounding2 (S : Vec2 R -> Prop) (b : AABB2 R) : Prop :=
  included S (inbox2 b) /\ forall c, included S (inbox2 c) -> included (inbox2 b) (inbox2 c).
Definition bounding3 (S : Vec3 R -> Prop) (b : AABB3 R) : Prop :=
  included S (inbox3 b) /\ forall c, included S (inbox3 c) -> included (inbox3 b) (inbox3 c).
(** The [n] points found in [a] at every [stride]-th cell. *)
Definition points_of {V} (a : arr V) (n stride : nat) (f : nat -> V) : Prop :=
  forall i, (i < n)%nat -> (i * stride < alen a)%nat /\ acell a (i * stride) = Some (f i).
Definition listed {V} (n : nat) (f : nat -> V) (p : V) : Prop := exists i, (i < n)%nat /\ p = f i.

(** Points of a straight line, by a parameter. *)
Definition along2 (p d : Vec2 R) (t : R) : Vec2 R := plus2 p (smul2 t d).
Definition along3 (p d : Vec3 R) (t : R) : Vec3 R := plus3 p (smul3 t d).

(** On one axis: a point at s moving with speed d is in [lo,hi] for good, or
    has not passed the side of [lo,hi] it is moving to. *)
Definition facing (lo hi s d : R) : Prop :=
  d = 0 /\ lo <= s <= hi \/ 0 < d /\ s <= lo \/ d < 0 /\ hi <= s.
Definition facing2 (b : AABB2 R) (p d : Vec2 R) : Prop :=
  facing (x2 (inf2 b)) (x2 (sup2 b)) (x2 p) (x2 d) /\ facing (y2 (inf2 b)) (y2 (sup2 b)) (y2 p) (y2 d).
Definition facing3 (b : AABB3 R) (p d : Vec3 R) : Prop :=
  facing (x3 (inf3 b)) (x3 (sup3 b)) (x3 p) (x3 d) /\ facing (y3 (inf3 b)) (y3 (sup3 b)) (y3 p) (y3 d) /\
  facing (z3 (inf3 b)) (z3 (sup3 b)) (z3 p) (z3 d).

(** Coordinates well below the largest number of the type. *)
Definition small3 (p : Vec3 R) : Prop :=
  Rabs (x3 p) <= Rmaxval / 8 /\ Rabs (y3 p) <= Rmaxval / 8 /\ Rabs (z3 p) <= Rmaxval / 8.
Definition small2 (p : Vec2 R) : Prop := Rabs (x2 p) <= Rmaxval / 8 /\ Rabs (y2 p) <= Rmaxval / 8.
