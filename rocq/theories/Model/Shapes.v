(** Geometric shapes: their fields, and model of line2.h, line3.h, ray2.h,
    ray3.h and tri2.h. *)
From Coq Require Import ZArith Bool.
From Verif.Base Require Import Outcome Scalar.
From Verif.Model Require Import Types Functions Interpolation Vec.

(** line2.h:34-36, line3.h:34-36 *)
Record Line2 (T : Type) := mkLine2 { lstart2 : Vec2 T; lend2 : Vec2 T }.
Arguments mkLine2 {T}. Arguments lstart2 {T}. Arguments lend2 {T}.
Record Line3 (T : Type) := mkLine3 { lstart3 : Vec3 T; lend3 : Vec3 T }.
Arguments mkLine3 {T}. Arguments lstart3 {T}. Arguments lend3 {T}.
(** ray2.h:30-32, ray3.h:30-32 *)
Record Ray2 (T : Type) := mkRay2 { rstart2 : Vec2 T; rdir2 : Vec2 T }.
Arguments mkRay2 {T}. Arguments rstart2 {T}. Arguments rdir2 {T}.
Record Ray3 (T : Type) := mkRay3 { rstart3 : Vec3 T; rdir3 : Vec3 T }.
Arguments mkRay3 {T}. Arguments rstart3 {T}. Arguments rdir3 {T}.
(** tri2.h:28-31 *)
Record Tri2 (T : Type) := mkTri2 { ta2 : Vec2 T; tb2 : Vec2 T; tc2 : Vec2 T }.
Arguments mkTri2 {T}. Arguments ta2 {T}. Arguments tb2 {T}. Arguments tc2 {T}.
(** aabb2.h:81-83, aabb3.h:82-84 *)
Record AABB2 (T : Type) := mkAABB2 { inf2 : Vec2 T; sup2 : Vec2 T }.
Arguments mkAABB2 {T}. Arguments inf2 {T}. Arguments sup2 {T}.
Record AABB3 (T : Type) := mkAABB3 { inf3 : Vec3 T; sup3 : Vec3 T }.
Arguments mkAABB3 {T}. Arguments inf3 {T}. Arguments sup3 {T}.
(** caabb2.h:69-71, caabb3.h:70-72 *)
Record CAABB2 (T : Type) := mkCAABB2 { cbcenter2 : Vec2 T; cbextents2 : Vec2 T }.
Arguments mkCAABB2 {T}. Arguments cbcenter2 {T}. Arguments cbextents2 {T}.
Record CAABB3 (T : Type) := mkCAABB3 { cbcenter3 : Vec3 T; cbextents3 : Vec3 T }.
Arguments mkCAABB3 {T}. Arguments cbcenter3 {T}. Arguments cbextents3 {T}.
(** circle.h:62-64, sphere.h:62-64 *)
Record Circle (T : Type) := mkCircle { ccenter : Vec2 T; cradius : T }.
Arguments mkCircle {T}. Arguments ccenter {T}. Arguments cradius {T}.
Record Sphere (T : Type) := mkSphere { scenter : Vec3 T; sradius : T }.
Arguments mkSphere {T}. Arguments scenter {T}. Arguments sradius {T}.
(** plane.h:71-73 *)
Record Plane (T : Type) := mkPlane { pnormal : Vec3 T; pd : T }.
Arguments mkPlane {T}. Arguments pnormal {T}. Arguments pd {T}.

Section Shapes.
Context {T : Type} {O : RealOps T}.
Local Open Scope fs_scope.

(** impl/line2.h:10-17 *)
Definition line2_from (start end_ : Vec2 T) : Line2 T := mkLine2 start end_.
(** impl/line2.h:23-33 *)
Definition line2_eqb (a b : Line2 T) : bool := (v2_eqb (lstart2 a) (lstart2 b) && v2_eqb (lend2 a) (lend2 b))%bool.
Definition line2_neqb (a b : Line2 T) : bool := (v2_neqb (lstart2 a) (lstart2 b) || v2_neqb (lend2 a) (lend2 b))%bool.
(** impl/line2.h:39-55 *)
Definition line2_length (l : Line2 T) : T := v2_length (v2_sub (lend2 l) (lstart2 l)).
Definition line2_lengthSqr (l : Line2 T) : T := v2_lengthSqr (v2_sub (lend2 l) (lstart2 l)).
Definition line2_isNull (l : Line2 T) : bool := v2_eqb (lend2 l) (lstart2 l).
(** impl/line2.h:57-61 *)
Definition line2_pointAt (l : Line2 T) (t : T) : Vec2 T := lerp2 (lstart2 l) (lend2 l) t.
(** impl/line2.h:63-71 *)
Definition line2_distance (ln : Line2 T) (point : Vec2 T) : T :=
  let (d, l) := v2_normalize (v2_sub (lend2 ln) (lstart2 ln)) (Re 1) in
  if l =? Re 0 then distance2 (lstart2 ln) point
  else abs_ ((- y2 d) * (x2 point - x2 (lstart2 ln)) + x2 d * (y2 point - y2 (lstart2 ln))).

(** impl/line3.h:10-17 *)
Definition line3_from (start end_ : Vec3 T) : Line3 T := mkLine3 start end_.
(** impl/line3.h:23-33 *)
Definition line3_eqb (a b : Line3 T) : bool := (v3_eqb (lstart3 a) (lstart3 b) && v3_eqb (lend3 a) (lend3 b))%bool.
Definition line3_neqb (a b : Line3 T) : bool := (v3_neqb (lstart3 a) (lstart3 b) || v3_neqb (lend3 a) (lend3 b))%bool.
(** impl/line3.h:39-55 *)
Definition line3_length (l : Line3 T) : T := v3_length (v3_sub (lend3 l) (lstart3 l)).
Definition line3_lengthSqr (l : Line3 T) : T := v3_lengthSqr (v3_sub (lend3 l) (lstart3 l)).
Definition line3_isNull (l : Line3 T) : bool := v3_eqb (lend3 l) (lstart3 l).
(** impl/line3.h:57-61 *)
Definition line3_pointAt (l : Line3 T) (t : T) : Vec3 T := lerp3 (lstart3 l) (lend3 l) t.
(** impl/line3.h:63-73 *)
Definition line3_distance (ln : Line3 T) (point : Vec3 T) : T :=
  let d := v3_sub (lend3 ln) (lstart3 ln) in
  let northo := v3_cross (v3_sub point (lstart3 ln)) d in
  let (n, l) := v3_normalize (v3_cross d northo) (Re 1) in
  if l =? Re 0 then distance3 (lstart3 ln) point
  else abs_ (v3_dot n (v3_sub point (lstart3 ln))).

(** impl/ray2.h:10-17 *)
Definition ray2_from (start direction : Vec2 T) : Ray2 T := mkRay2 start (v2_normalized direction (Re 1)).
(** impl/ray2.h:23-33 *)
Definition ray2_eqb (a b : Ray2 T) : bool := (v2_eqb (rstart2 a) (rstart2 b) && v2_eqb (rdir2 a) (rdir2 b))%bool.
Definition ray2_neqb (a b : Ray2 T) : bool := (v2_neqb (rstart2 a) (rstart2 b) || v2_neqb (rdir2 a) (rdir2 b))%bool.
(** impl/ray2.h:39-43 *)
Definition ray2_pointAt (r : Ray2 T) (dist : T) : Vec2 T := v2_add (rstart2 r) (v2_scale (rdir2 r) dist).
(** impl/ray2.h:45-49 *)
Definition ray2_distance (r : Ray2 T) (point : Vec2 T) : T :=
  abs_ ((- y2 (rdir2 r)) * (x2 point - x2 (rstart2 r)) + x2 (rdir2 r) * (y2 point - y2 (rstart2 r))).

(** impl/ray3.h:10-17 *)
Definition ray3_from (start direction : Vec3 T) : Ray3 T := mkRay3 start (v3_normalized direction (Re 1)).
(** impl/ray3.h:23-33 *)
Definition ray3_eqb (a b : Ray3 T) : bool := (v3_eqb (rstart3 a) (rstart3 b) && v3_eqb (rdir3 a) (rdir3 b))%bool.
Definition ray3_neqb (a b : Ray3 T) : bool := (v3_neqb (rstart3 a) (rstart3 b) || v3_neqb (rdir3 a) (rdir3 b))%bool.
(** impl/ray3.h:39-43 *)
Definition ray3_pointAt (r : Ray3 T) (dist : T) : Vec3 T := v3_add (rstart3 r) (v3_scale (rdir3 r) dist).
(** impl/ray3.h:45-54 *)
Definition ray3_distance (r : Ray3 T) (point : Vec3 T) : T :=
  let northo := v3_cross (v3_sub point (rstart3 r)) (rdir3 r) in
  let (n, l) := v3_normalize (v3_cross (rdir3 r) northo) (Re 1) in
  if l =? Re 0 then distance3 (rstart3 r) point
  else abs_ (v3_dot n (v3_sub point (rstart3 r))).

(** impl/tri2.h:10-18 *)
Definition tri2_from (a b c : Vec2 T) : Tri2 T := mkTri2 a b c.
(** impl/tri2.h:24-34 *)
Definition tri2_eqb (s t : Tri2 T) : bool :=
  (v2_eqb (ta2 s) (ta2 t) && v2_eqb (tb2 s) (tb2 t) && v2_eqb (tc2 s) (tc2 t))%bool.
Definition tri2_neqb (s t : Tri2 T) : bool :=
  (v2_neqb (ta2 s) (ta2 t) || v2_neqb (tb2 s) (tb2 t) || v2_neqb (tc2 s) (tc2 t))%bool.
(** impl/tri2.h:40-49 *)
Definition tri2_contains (t : Tri2 T) (p : Vec2 T) : bool :=
  let cross1 := v2_crossProduct (ta2 t) (tb2 t) p in
  let cross2 := v2_crossProduct (tb2 t) (tc2 t) p in
  let cross3 := v2_crossProduct (tc2 t) (ta2 t) p in
  ((cross1 >=? Re 0) && (cross2 >=? Re 0) && (cross3 >=? Re 0)
   || (cross1 <=? Re 0) && (cross2 <=? Re 0) && (cross3 <=? Re 0))%bool.

End Shapes.
