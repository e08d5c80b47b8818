(** Balls around points, planes, affine maps and truncated pyramids as sets of
    points over R, independent of the library's functions. *)
From Coq Require Import Reals.
From Verif.Base Require Import Array ScalarR.
From Verif.Model Require Import Types Shapes.
From Verif.Spec Require Import VecSpec GeomSpec.
Local Open Scope R_scope.

(** Displacement from the start to the end of a segment, and its points. *)
Definition dir2 (l : Line2 R) : Vec2 R := minus2 (lend2 l) (lstart2 l).
Definition dir3 (l : Line3 R) : Vec3 R := minus3 (lend3 l) (lstart3 l).
Definition insegment3 (l : Line3 R) (p : Vec3 R) : Prop := exists t, 0 <= t <= 1 /\ p = along3 (lstart3 l) (dir3 l) t.
Definition inray3 (r : Ray3 R) (p : Vec3 R) : Prop := exists t, 0 <= t /\ p = along3 (rstart3 r) (rdir3 r) t.

(** The ball around the n points f: centered in their bounding box, with the
    smallest radius that reaches all of them. *)
Definition around2 (n : nat) (f : nat -> Vec2 R) (s : Circle R) : Prop :=
  (exists b, bounding2 (listed n f) b /\ ccenter s = smul2 (1/2) (plus2 (inf2 b) (sup2 b))) /\
  (forall i, (i < n)%nat -> indisc s (f i)) /\ exists i, (i < n)%nat /\ dist2 (ccenter s) (f i) = cradius s.
Definition around3 (n : nat) (f : nat -> Vec3 R) (s : Sphere R) : Prop :=
  (exists b, bounding3 (listed n f) b /\ scenter s = smul3 (1/2) (plus3 (inf3 b) (sup3 b))) /\
  (forall i, (i < n)%nat -> inball s (f i)) /\ exists i, (i < n)%nat /\ dist3 (scenter s) (f i) = sradius s.

(** Points of a plane; planes whose normal has length 1; signed distance. *)
Definition inplane (p : Plane R) (q : Vec3 R) : Prop := dot3 (pnormal p) q = pd p.
Definition unitplane (p : Plane R) : Prop := norm3 (pnormal p) = 1.
(** Plane spanned by two directions from a point. *)
Definition spanned (o u v q : Vec3 R) : Prop := exists a b, q = plus3 o (plus3 (smul3 a u) (smul3 b v)).

(** The ray from o along d. *)
Definition ray_of (o d : Vec3 R) (r : Ray3 R) : Prop :=
  rstart3 r = o /\ (d = zero3 -> rdir3 r = zero3) /\
  (d <> zero3 -> norm3 (rdir3 r) = 1 /\ exists k, 0 < k /\ d = smul3 k (rdir3 r)).
(** The plane through o with normal along d. *)
Definition plane_of_normal (o d : Vec3 R) (p : Plane R) : Prop :=
  d <> zero3 -> unitplane p /\ (exists k, 0 < k /\ d = smul3 k (pnormal p)) /\
    forall q, inplane p q <-> dot3 d (minus3 q o) = 0.

(** Affine maps of space, as three columns and an offset. *)
Definition affine (x y z t u : Vec3 R) : Vec3 R :=
  plus3 (plus3 (plus3 (smul3 (x3 u) x) (smul3 (y3 u) y)) (smul3 (z3 u) z)) t.
Definition triple (x y z : Vec3 R) : R := dot3 (cross3 x y) z.

(** Truncated pyramid seen along -Z: near side at depth n, half width a and
    half height b; far side at depth f, half width A and half height B. *)
Record Pyramid := mkPyramid { pyn : R; pyf : R; pya : R; pyb : R; pyA : R; pyB : R }.
Definition proper (p : Pyramid) : Prop := pyn p < pyf p /\ 0 < pya p /\ 0 < pyb p /\ 0 < pyA p /\ 0 < pyB p.
Definition inpyramid (p : Pyramid) (q : Vec3 R) : Prop :=
  exists s u v, 0 <= s <= 1 /\ -1 <= u <= 1 /\ -1 <= v <= 1 /\
    q = mkV3 (u * (pya p + s * (pyA p - pya p))) (v * (pyb p + s * (pyB p - pyb p))) (- (pyn p + s * (pyf p - pyn p))).
(** Its corners, in the order documented in impl/frustum.h:5-34. *)
Definition corner (p : Pyramid) (i : nat) : Vec3 R :=
  match i with
  | 0 => mkV3 (pya p) (pyb p) (- pyn p)      | 1 => mkV3 (pya p) (- pyb p) (- pyn p)
  | 2 => mkV3 (- pya p) (- pyb p) (- pyn p)  | 3 => mkV3 (- pya p) (pyb p) (- pyn p)
  | 4 => mkV3 (pyA p) (pyB p) (- pyf p)      | 5 => mkV3 (pyA p) (- pyB p) (- pyf p)
  | 6 => mkV3 (- pyA p) (- pyB p) (- pyf p)  | _ => mkV3 (- pyA p) (pyB p) (- pyf p)
  end%nat.

(** The image of the pyramid by an affine map. *)
Definition region (x y z t : Vec3 R) (p : Pyramid) (q : Vec3 R) : Prop := exists u, inpyramid p u /\ q = affine x y z t u.

(** The half-spaces bounded by its far, near, left, top, right and bottom sides. *)
Definition halfspace (p : Pyramid) (i : nat) (q : Vec3 R) : Prop :=
  let w := (pyf p - pyn p) * pya p + (- z3 q - pyn p) * (pyA p - pya p) in
  let h := (pyf p - pyn p) * pyb p + (- z3 q - pyn p) * (pyB p - pyb p) in
  match i with
  | O => - z3 q <= pyf p
  | 1%nat => pyn p <= - z3 q
  | 2%nat => - w <= (pyf p - pyn p) * x3 q
  | 3%nat => (pyf p - pyn p) * y3 q <= h
  | 4%nat => (pyf p - pyn p) * x3 q <= w
  | _ => - h <= (pyf p - pyn p) * y3 q
  end.
