(** Textbook notions on plane and space vectors over R, independent of the
    library's functions. *)
From Coq Require Import Reals.
From Verif.Model Require Import Types.
Local Open Scope R_scope.

Definition dot2 (u v : Vec2 R) : R := x2 u * x2 v + y2 u * y2 v.
Definition dot3 (u v : Vec3 R) : R := x3 u * x3 v + y3 u * y3 v + z3 u * z3 v.
Definition norm2 (u : Vec2 R) : R := sqrt (dot2 u u).
Definition norm3 (u : Vec3 R) : R := sqrt (dot3 u u).
Definition zero2 : Vec2 R := mkV2 0 0.
Definition zero3 : Vec3 R := mkV3 0 0 0.
Definition smul2 (k : R) (u : Vec2 R) : Vec2 R := mkV2 (k * x2 u) (k * y2 u).
Definition smul3 (k : R) (u : Vec3 R) : Vec3 R := mkV3 (k * x3 u) (k * y3 u) (k * z3 u).
Definition plus2 (u v : Vec2 R) : Vec2 R := mkV2 (x2 u + x2 v) (y2 u + y2 v).
Definition plus3 (u v : Vec3 R) : Vec3 R := mkV3 (x3 u + x3 v) (y3 u + y3 v) (z3 u + z3 v).
Definition minus2 (u v : Vec2 R) : Vec2 R := mkV2 (x2 u - x2 v) (y2 u - y2 v).
Definition minus3 (u v : Vec3 R) : Vec3 R := mkV3 (x3 u - x3 v) (y3 u - y3 v) (z3 u - z3 v).
Definition det2 (u v : Vec2 R) : R := x2 u * y2 v - y2 u * x2 v.
Definition cross3 (u v : Vec3 R) : Vec3 R :=
  mkV3 (y3 u * z3 v - z3 u * y3 v) (z3 u * x3 v - x3 u * z3 v) (x3 u * y3 v - y3 u * x3 v).
Definition dist2 (u v : Vec2 R) : R := norm2 (minus2 u v).
Definition dist3 (u v : Vec3 R) : R := norm3 (minus3 u v).

(** Unit vectors of named coordinates and signed axes. *)
Definition coord_vec (c : Coord) : option (Vec3 R) :=
  match c with
  | CoX => Some (mkV3 1 0 0) | CoY => Some (mkV3 0 1 0) | CoZ => Some (mkV3 0 0 1)
  | _ => None
  end.
Definition axis_vec (a : Axis) : option (Vec3 R) :=
  match a with
  | AxX => Some (mkV3 1 0 0) | AxY => Some (mkV3 0 1 0) | AxZ => Some (mkV3 0 0 1)
  | AxNX => Some (mkV3 (-1) 0 0) | AxNY => Some (mkV3 0 (-1) 0) | AxNZ => Some (mkV3 0 0 (-1))
  | AxUndefined => None
  end.
(** Component named by a coordinate. *)
Definition comp2 (c : Coord) (u : Vec2 R) : option R :=
  match c with CoX => Some (x2 u) | CoY => Some (y2 u) | _ => None end.
Definition comp3 (c : Coord) (u : Vec3 R) : option R :=
  match c with CoX => Some (x3 u) | CoY => Some (y3 u) | CoZ => Some (z3 u) | _ => None end.

(** Right-handed rotation of u by [a] around the unit vector n (Rodrigues). *)
Definition rodrigues (n : Vec3 R) (a : R) (u : Vec3 R) : Vec3 R :=
  plus3 (plus3 (smul3 (cos a) u) (smul3 (sin a) (cross3 n u)))
        (smul3 ((1 - cos a) * dot3 n u) n).
