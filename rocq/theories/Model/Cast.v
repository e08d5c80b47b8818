(** Model of the [cast<>()] members. [conv] is static_cast from [S] to [T]. *)
From Coq Require Import ZArith Bool.
From Verif.Base Require Import Outcome Array Scalar.
From Verif.Model Require Import Types Functions Interpolation Vec Mat2 Mat3 Mat4 Mat34 Shapes Box Ball Plane Frustum Color.

Section Cast.
Context {S T : Type} {O : RealOps T} (conv : S -> T).

(** impl/vec2.h:491-499 *)
Definition v2_cast (v : Vec2 S) : Vec2 T := mkV2 (conv (x2 v)) (conv (y2 v)).
(** impl/vec3.h:725-734 *)
Definition v3_cast (v : Vec3 S) : Vec3 T := mkV3 (conv (x3 v)) (conv (y3 v)) (conv (z3 v)).
(** impl/vec4.h:287-297 *)
Definition v4_cast (v : Vec4 S) : Vec4 T := mkV4 (conv (x4 v)) (conv (y4 v)) (conv (z4 v)) (conv (w4 v)).
(** impl/quat.h:609-618: the constructor does not normalise *)
Definition q_cast (q : Quat S) : Quat T := mkQ (conv (qx q)) (conv (qy q)) (conv (qz q)) (conv (qw q)).
(** impl/mat2.h:480-488 *)
Definition m2_cast (m : Mat2 S) : Mat2 T := m2_set (v2_cast (mx2 m)) (v2_cast (my2 m)).
(** impl/mat3.h:1021-1030 *)
Definition m3_cast (m : Mat3 S) : Mat3 T := m3_set (v3_cast (mx3 m)) (v3_cast (my3 m)) (v3_cast (mz3 m)).
(** impl/mat34.h:546-554 *)
Definition m34_cast (m : Mat34 S) : Mat34 T := m34_make (m3_cast (rs34 m)) (v3_cast (t34 m)).
(** impl/mat4.h:1134-1144 *)
Definition m4_cast (m : Mat4 S) : Mat4 T :=
  m4_set4 (v4_cast (mx4 m)) (v4_cast (my4 m)) (v4_cast (mz4 m)) (v4_cast (mt4 m)).
(** impl/colorrgb.h:271-280 *)
Definition rgb_cast (c : RGB S) : RGB T := mkRGB (conv (cr c)) (conv (cg c)) (conv (cb c)).
(** impl/colorrgba.h:222-232 *)
Definition rgba_cast (c : RGBA S) : RGBA T := mkRGBA (conv (ar c)) (conv (ag c)) (conv (ab c)) (conv (aa c)).
(** impl/colorhsv.h:182-191 *)
Definition hsv_cast (c : HSV S) : HSV T := mkHSV (conv (ch c)) (conv (cs c)) (conv (cv c)).
(** impl/line2.h:73-81 *)
Definition line2_cast (l : Line2 S) : Line2 T := line2_from (v2_cast (lstart2 l)) (v2_cast (lend2 l)).
(** impl/line3.h:75-83 *)
Definition line3_cast (l : Line3 S) : Line3 T := line3_from (v3_cast (lstart3 l)) (v3_cast (lend3 l)).
(** impl/ray2.h:51-59: [from] normalises the direction again *)
Definition ray2_cast (r : Ray2 S) : Ray2 T := ray2_from (v2_cast (rstart2 r)) (v2_cast (rdir2 r)).
(** impl/ray3.h:56-64 *)
Definition ray3_cast (r : Ray3 S) : Ray3 T := ray3_from (v3_cast (rstart3 r)) (v3_cast (rdir3 r)).
(** impl/tri2.h:51-60 *)
Definition tri2_cast (t : Tri2 S) : Tri2 T := tri2_from (v2_cast (ta2 t)) (v2_cast (tb2 t)) (v2_cast (tc2 t)).
(** impl/aabb2.h:619-627 *)
Definition aabb2_cast (b : AABB2 S) : AABB2 T := mkAABB2 (v2_cast (inf2 b)) (v2_cast (sup2 b)).
(** impl/aabb3.h:729-737 *)
Definition aabb3_cast (b : AABB3 S) : AABB3 T := mkAABB3 (v3_cast (inf3 b)) (v3_cast (sup3 b)).
(** impl/caabb2.h:372-380 *)
Definition caabb2_cast (b : CAABB2 S) : CAABB2 T := mkCAABB2 (v2_cast (cbcenter2 b)) (v2_cast (cbextents2 b)).
(** impl/caabb3.h:468-476 *)
Definition caabb3_cast (b : CAABB3 S) : CAABB3 T := mkCAABB3 (v3_cast (cbcenter3 b)) (v3_cast (cbextents3 b)).
(** impl/circle.h:351-359: the constructor asserts that the radius is not negative *)
Definition circle_cast (c : Circle S) : outcome (Circle T) := circle_of (v2_cast (ccenter c)) (conv (cradius c)).
(** impl/sphere.h:355-363 *)
Definition sphere_cast (s : Sphere S) : outcome (Sphere T) := sphere_of (v3_cast (scenter s)) (conv (sradius s)).
(** impl/plane.h:364-372: the constructor does not normalise *)
Definition plane_cast (p : Plane S) : Plane T := plane_of (v3_cast (pnormal p)) (conv (pd p)).
(** impl/frustum.h:137-151 *)
Definition frustum_cast (f : Frustum S) : outcome (Frustum T) :=
  let result := frustum_new in
  let! c := forM (upto 0 8) (fun i c => let! v := aget (fcorners f) i in aset c i (v3_cast v)) (fcorners result) in
  let! p := forM (upto 0 6) (fun i p => let! v := aget (fplanes f) i in aset p i (plane_cast v)) (fplanes result) in
  Ok (mkFrustum c p).
End Cast.
