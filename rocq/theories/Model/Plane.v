(** Model of plane.h, and of [localAxis] and [localPlane] of mat34.h and mat4.h.
    A function with output arguments [hit], [t] or [depth] gives [None] when it
    returns false and leaves them as they are. Vectors are passed by value here
    and by reference in the code: calls such as [plane.set(plane.normal, n)],
    whose argument is a field of the plane they change, are in InPlace.v. [cast]
    is in Cast.v; the [data] pointers are not modelled. *)
From Coq Require Import ZArith Bool.
From Verif.Base Require Import Outcome Scalar.
From Verif.Model Require Import Types Functions Interpolation Vec Shapes.

Section Plane.
Context {T : Type} {O : RealOps T}.
Local Open Scope fs_scope.

(** impl/plane.h:6-13 *)
Definition plane_XY : Plane T := mkPlane (mkV3 (Re 0) (Re 0) (Re 1)) (Re 0).
Definition plane_YZ : Plane T := mkPlane (mkV3 (Re 1) (Re 0) (Re 0)) (Re 0).
Definition plane_ZX : Plane T := mkPlane (mkV3 (Re 0) (Re 1) (Re 0)) (Re 0).
(** impl/plane.h:21-26 *)
Definition plane_of (n : Vec3 T) (distance : T) : Plane T := mkPlane n distance.
(** impl/plane.h:30-36, 78-85 *)
Definition plane_from_normal (normal : Vec3 T) (distance : T) : Plane T :=
  mkPlane (v3_normalized normal (Re 1)) distance.
(** impl/plane.h:39-45, 88-95 *)
Definition plane_from_point (point normal : Vec3 T) : Plane T :=
  let n := v3_normalized normal (Re 1) in mkPlane n (v3_dot n point).
(** impl/plane.h:48-53, 98-103 *)
Definition plane_from_tangents (point u v : Vec3 T) : Plane T := plane_from_point point (v3_cross u v).
(** impl/plane.h:56-65, 106-115 *)
Definition plane_from_points (a b c : Vec3 T) : Plane T :=
  plane_from_point a (v3_cross (v3_sub b a) (v3_sub c a)).
(** impl/plane.h:68-74, 118-125, 147-152, 166-173: also [move] and [moved] *)
Definition plane_moved (p : Plane T) (distance : T) : Plane T := mkPlane (pnormal p) (pd p + distance).
(** impl/plane.h:131-141 *)
Definition plane_eqb (a b : Plane T) : bool := (v3_eqb (pnormal a) (pnormal b) && (pd a =? pd b))%bool.
Definition plane_neqb (a b : Plane T) : bool := (v3_neqb (pnormal a) (pnormal b) || (pd a <>? pd b))%bool.
(** impl/plane.h:154-160, 175-182 *)
Definition plane_flipped (p : Plane T) : Plane T := mkPlane (v3_opp (pnormal p)) (- pd p).
(** impl/plane.h:191-195 *)
Definition plane_distance (p : Plane T) (point : Vec3 T) : T := v3_dot point (pnormal p) - pd p.
(** impl/plane.h:184-189 *)
Definition plane_contains (p : Plane T) (point : Vec3 T) (tolerance : T) : bool :=
  abs_ (plane_distance p point) <=? tolerance.
(** impl/plane.h:197-207: the projection and the returned value *)
Definition plane_project (p : Plane T) (point : Vec3 T) : Vec3 T * T :=
  let t := v3_dot point (pnormal p) - pd p in
  (mkV3 (x3 point - x3 (pnormal p) * t) (y3 point - y3 (pnormal p) * t) (z3 point - z3 (pnormal p) * t), t).
(** impl/plane.h:209-220 *)
Definition plane_project_along (p : Plane T) (point direction : Vec3 T) : option (Vec3 T) :=
  let f := v3_dot direction (pnormal p) in
  if f =? Re 0 then None
  else Some (v3_sub point (v3_scale direction (v3_dot point (pnormal p) / f))).
(** impl/plane.h:222-239 *)
Definition plane_hits_ray (p : Plane T) (ray : Ray3 T) : option (Vec3 T * T) :=
  let startDist := v3_dot (rstart3 ray) (pnormal p) - pd p in
  let normalDotDir := v3_dot (pnormal p) (rdir3 ray) in
  if normalDotDir >=? Re 0 then None
  else
    let dist := - startDist / normalDotDir in
    if dist <? Re 0 then None else Some (ray3_pointAt ray dist, dist).
(** impl/plane.h:241-258 *)
Definition plane_hits_line (p : Plane T) (line : Line3 T) : option (Vec3 T * T) :=
  let startDist := v3_dot (lstart3 line) (pnormal p) - pd p in
  let endDist := v3_dot (lend3 line) (pnormal p) - pd p in
  if startDist <? Re 0 then None
  else if endDist >=? Re 0 then None
  else
    let t := startDist / (startDist - endDist) in
    Some (line3_pointAt line t, t).
(** impl/plane.h:260-277 *)
Definition plane_hits_line_radius (p : Plane T) (line : Line3 T) (radius : T) : option (Vec3 T * T) :=
  let startDist := v3_dot (lstart3 line) (pnormal p) - pd p - radius in
  let endDist := v3_dot (lend3 line) (pnormal p) - pd p - radius in
  if startDist <? Re 0 then None
  else if endDist >=? Re 0 then None
  else
    let t := startDist / (startDist - endDist) in
    Some (line3_pointAt line t, t).
(** impl/plane.h:279-293 *)
Definition plane_hits_sphere (p : Plane T) (sphere : Sphere T) : option T :=
  let dist := v3_dot (scenter sphere) (pnormal p) - pd p in
  if dist >? sradius sphere then None
  else if dist <? Re 0 then None
  else Some (sradius sphere - dist).
(** impl/plane.h:295-312 *)
Definition plane_intersects_ray (p : Plane T) (ray : Ray3 T) : option (Vec3 T * T) :=
  let startDist := v3_dot (rstart3 ray) (pnormal p) - pd p in
  let normalDotDir := v3_dot (pnormal p) (rdir3 ray) in
  if normalDotDir =? Re 0 then None
  else
    let dist := - startDist / normalDotDir in
    if dist <? Re 0 then None else Some (ray3_pointAt ray dist, dist).
(** impl/plane.h:314-334 *)
Definition plane_intersects_line (p : Plane T) (line : Line3 T) : option (Vec3 T * T) :=
  let startDist := v3_dot (lstart3 line) (pnormal p) - pd p in
  let endDist := v3_dot (lend3 line) (pnormal p) - pd p in
  if startDist =? endDist then None
  else if ((startDist <? Re 0) && (endDist <? Re 0))%bool then None
  else if ((startDist >? Re 0) && (endDist >? Re 0))%bool then None
  else
    let t := startDist / (startDist - endDist) in
    Some (line3_pointAt line t, t).
(** impl/plane.h:336-350 *)
Definition plane_intersects_sphere (p : Plane T) (sphere : Sphere T) : option T :=
  let dist := v3_dot (scenter sphere) (pnormal p) - pd p in
  if dist >? sradius sphere then None
  else if dist <? - sradius sphere then None
  else Some (sradius sphere - dist).
(** impl/plane.h:374-393: the point and the returned value *)
Definition plane_single_point (p0 p1 p2 : Plane T) : outcome (Vec3 T * bool) :=
  let det := v3_dot (v3_cross (pnormal p0) (pnormal p1)) (pnormal p2) in
  if abs_ det <? flit 1 10000 then Ok (v3_zero, false)
  else
    let! point := v3_div
      (v3_add (v3_add (v3_scale (v3_cross (pnormal p1) (pnormal p2)) (pd p0))
                      (v3_scale (v3_cross (pnormal p2) (pnormal p0)) (pd p1)))
              (v3_scale (v3_cross (pnormal p0) (pnormal p1)) (pd p2))) det in
    Ok (point, true).

(** * Axes and planes of an affine transformation *)
(** impl/mat4.h:844-857, impl/mat34.h:456-469: the switch on a Coord, the columns given *)
Definition column_coord (x y z : Vec3 T) (c : Coord) : outcome (Vec3 T) :=
  match c with CoX => Ok x | CoY => Ok y | CoZ => Ok z | _ => AssertFail end.
(** impl/mat4.h:874-890, impl/mat34.h:486-502: the switch on an Axis *)
Definition column_axis (x y z : Vec3 T) (a : Axis) : outcome (Vec3 T) :=
  match a with
  | AxX => Ok x | AxY => Ok y | AxZ => Ok z
  | AxNX => Ok (v3_opp x) | AxNY => Ok (v3_opp y) | AxNZ => Ok (v3_opp z)
  | AxUndefined => AssertFail
  end.
(** impl/mat34.h:456-469 *)
Definition m34_localAxis (m : Mat34 T) (c : Coord) : outcome (Ray3 T) :=
  let! d := column_coord (mx3 (rs34 m)) (my3 (rs34 m)) (mz3 (rs34 m)) c in Ok (ray3_from (t34 m) d).
(** impl/mat34.h:471-484 *)
Definition m34_localPlane (m : Mat34 T) (c : Coord) : outcome (Plane T) :=
  let! n := column_coord (mx3 (rs34 m)) (my3 (rs34 m)) (mz3 (rs34 m)) c in Ok (plane_from_point (t34 m) n).
(** impl/mat34.h:486-502 *)
Definition m34_localPlane_axis (m : Mat34 T) (a : Axis) : outcome (Plane T) :=
  let! n := column_axis (mx3 (rs34 m)) (my3 (rs34 m)) (mz3 (rs34 m)) a in Ok (plane_from_point (t34 m) n).
(** impl/mat4.h:844-857 *)
Definition m4_localAxis (m : Mat4 T) (c : Coord) : outcome (Ray3 T) :=
  let! d := column_coord (v4_toVec3 (mx4 m)) (v4_toVec3 (my4 m)) (v4_toVec3 (mz4 m)) c in
  Ok (ray3_from (v4_toVec3 (mt4 m)) d).
(** impl/mat4.h:859-872 *)
Definition m4_localPlane (m : Mat4 T) (c : Coord) : outcome (Plane T) :=
  let! n := column_coord (v4_toVec3 (mx4 m)) (v4_toVec3 (my4 m)) (v4_toVec3 (mz4 m)) c in
  Ok (plane_from_point (v4_toVec3 (mt4 m)) n).
(** impl/mat4.h:874-890 *)
Definition m4_localPlane_axis (m : Mat4 T) (a : Axis) : outcome (Plane T) :=
  let! n := column_axis (v4_toVec3 (mx4 m)) (v4_toVec3 (my4 m)) (v4_toVec3 (mz4 m)) a in
  Ok (plane_from_point (v4_toVec3 (mt4 m)) n).

End Plane.
