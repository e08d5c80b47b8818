(** Model of the matchers of the test library (libs/testlib). All file names
    are relative to libs/testlib/include/impl. A component of type Real is added
    to a margin of type double, so the arithmetic is that of [D] and [up] is the
    conversion from Real to double. A matcher class is its target and margin;
    describe() and StringMaker are in Text.v. *)
From Coq Require Import ZArith Bool List.
From Verif.Base Require Import Outcome Array Scalar.
From Verif.Model Require Import Types Functions Interpolation Vec Mat2 Mat3 Mat4 Mat34 Shapes Box Ball Plane Frustum Color.

Section Testlib.
Context {T D : Type} {O : RealOps D} (up : T -> D).
Local Open Scope fs_scope.

(** catch_matchers.h:5-9 *)
Definition mc (matchee target : T) (margin : D) : bool :=
  ((up matchee + margin >=? up target) && (up target + margin >=? up matchee))%bool.
(** catch_matchers.h:11-16 *)
Definition mc_v2 (matchee target : Vec2 T) (margin : D) : bool :=
  (mc (x2 matchee) (x2 target) margin && mc (y2 matchee) (y2 target) margin)%bool.
(** catch_matchers.h:18-24 *)
Definition mc_v3 (matchee target : Vec3 T) (margin : D) : bool :=
  (mc (x3 matchee) (x3 target) margin && mc (y3 matchee) (y3 target) margin && mc (z3 matchee) (z3 target) margin)%bool.
(** catch_matchers.h:26-33 *)
Definition mc_v4 (matchee target : Vec4 T) (margin : D) : bool :=
  (mc (x4 matchee) (x4 target) margin && mc (y4 matchee) (y4 target) margin && mc (z4 matchee) (z4 target) margin && mc (w4 matchee) (w4 target) margin)%bool.
(** catch_matchers.h:35-40 *)
Definition mc_m2 (matchee target : Mat2 T) (margin : D) : bool :=
  (mc_v2 (mx2 matchee) (mx2 target) margin && mc_v2 (my2 matchee) (my2 target) margin)%bool.
(** catch_matchers.h:42-48 *)
Definition mc_m3 (matchee target : Mat3 T) (margin : D) : bool :=
  (mc_v3 (mx3 matchee) (mx3 target) margin && mc_v3 (my3 matchee) (my3 target) margin && mc_v3 (mz3 matchee) (mz3 target) margin)%bool.
(** catch_matchers.h:50-57 *)
Definition mc_m4 (matchee target : Mat4 T) (margin : D) : bool :=
  (mc_v4 (mx4 matchee) (mx4 target) margin && mc_v4 (my4 matchee) (my4 target) margin && mc_v4 (mz4 matchee) (mz4 target) margin && mc_v4 (mt4 matchee) (mt4 target) margin)%bool.
(** catch_matchers.h:59-64 *)
Definition mc_m34 (matchee target : Mat34 T) (margin : D) : bool :=
  (mc_m3 (rs34 matchee) (rs34 target) margin && mc_v3 (t34 matchee) (t34 target) margin)%bool.
(** catch_matchers.h:66-73 *)
Definition mc_q (matchee target : Quat T) (margin : D) : bool :=
  (mc (qx matchee) (qx target) margin && mc (qy matchee) (qy target) margin && mc (qz matchee) (qz target) margin && mc (qw matchee) (qw target) margin)%bool.
(** catch_matchers.h:75-80 *)
Definition mc_aabb2 (matchee target : AABB2 T) (margin : D) : bool :=
  (mc_v2 (inf2 matchee) (inf2 target) margin && mc_v2 (sup2 matchee) (sup2 target) margin)%bool.
(** catch_matchers.h:82-87 *)
Definition mc_caabb2 (matchee target : CAABB2 T) (margin : D) : bool :=
  (mc_v2 (cbcenter2 matchee) (cbcenter2 target) margin && mc_v2 (cbextents2 matchee) (cbextents2 target) margin)%bool.
(** catch_matchers.h:89-94 *)
Definition mc_aabb3 (matchee target : AABB3 T) (margin : D) : bool :=
  (mc_v3 (inf3 matchee) (inf3 target) margin && mc_v3 (sup3 matchee) (sup3 target) margin)%bool.
(** catch_matchers.h:96-101 *)
Definition mc_caabb3 (matchee target : CAABB3 T) (margin : D) : bool :=
  (mc_v3 (cbcenter3 matchee) (cbcenter3 target) margin && mc_v3 (cbextents3 matchee) (cbextents3 target) margin)%bool.
(** catch_matchers.h:103-109 *)
Definition mc_rgb (matchee target : RGB T) (margin : D) : bool :=
  (mc (cr matchee) (cr target) margin && mc (cg matchee) (cg target) margin && mc (cb matchee) (cb target) margin)%bool.
(** catch_matchers.h:111-118 *)
Definition mc_rgba (matchee target : RGBA T) (margin : D) : bool :=
  (mc (ar matchee) (ar target) margin && mc (ag matchee) (ag target) margin && mc (ab matchee) (ab target) margin && mc (aa matchee) (aa target) margin)%bool.
(** catch_matchers.h:120-126 *)
Definition mc_hsv (matchee target : HSV T) (margin : D) : bool :=
  (mc (ch matchee) (ch target) margin && mc (cs matchee) (cs target) margin && mc (cv matchee) (cv target) margin)%bool.
(** catch_matchers.h:128-133 *)
Definition mc_line2 (matchee target : Line2 T) (margin : D) : bool :=
  (mc_v2 (lstart2 matchee) (lstart2 target) margin && mc_v2 (lend2 matchee) (lend2 target) margin)%bool.
(** catch_matchers.h:135-140 *)
Definition mc_line3 (matchee target : Line3 T) (margin : D) : bool :=
  (mc_v3 (lstart3 matchee) (lstart3 target) margin && mc_v3 (lend3 matchee) (lend3 target) margin)%bool.
(** catch_matchers.h:142-147 *)
Definition mc_ray2 (matchee target : Ray2 T) (margin : D) : bool :=
  (mc_v2 (rstart2 matchee) (rstart2 target) margin && mc_v2 (rdir2 matchee) (rdir2 target) margin)%bool.
(** catch_matchers.h:149-154 *)
Definition mc_ray3 (matchee target : Ray3 T) (margin : D) : bool :=
  (mc_v3 (rstart3 matchee) (rstart3 target) margin && mc_v3 (rdir3 matchee) (rdir3 target) margin)%bool.
(** catch_matchers.h:156-161 *)
Definition mc_plane (matchee target : Plane T) (margin : D) : bool :=
  (mc_v3 (pnormal matchee) (pnormal target) margin && mc (pd matchee) (pd target) margin)%bool.
(** catch_matchers.h:163-168 *)
Definition mc_circle (matchee target : Circle T) (margin : D) : bool :=
  (mc_v2 (ccenter matchee) (ccenter target) margin && mc (cradius matchee) (cradius target) margin)%bool.
(** catch_matchers.h:170-175 *)
Definition mc_sphere (matchee target : Sphere T) (margin : D) : bool :=
  (mc_v3 (scenter matchee) (scenter target) margin && mc (sradius matchee) (sradius target) margin)%bool.
(** One line of catch_matchers.h:177-188 *)
Definition mc_corner (matchee target : Frustum T) (margin : D) (i : nat) : outcome bool :=
  let! u := aget (fcorners matchee) i in let! v := aget (fcorners target) i in Ok (mc_v3 u v margin).
(** [&&] on results that may be undefined: the right-hand side is evaluated only
    when the left-hand side is true. *)
Definition and_then (a b : outcome bool) : outcome bool := let! x := a in if x then b else Ok false.
(** catch_matchers.h:177-188 *)
Definition mc_frustum (matchee target : Frustum T) (margin : D) : outcome bool :=
  let c := mc_corner matchee target margin in
  and_then (and_then (and_then (and_then (and_then (and_then (and_then (c 0%nat) (c 1%nat)) (c 2%nat)) (c 3%nat)) (c 4%nat)) (c 5%nat)) (c 6%nat)) (c 7%nat).

(** A matcher object: the fields m_target and m_margin. *)
Record Matcher (A : Type) := mkMatcher { mTarget : A; mMargin : D }.
(** The constructor, the same text in each of the 23 classes
    (catch_matchers_vec2.h:25-30, ..., catch_matchers_frustum.h:34-39) and
    WithinAbs, which calls it (catch_matchers_vec2.h:48-51, ...): [None] when
    CATCH_ENFORCE throws std::domain_error. *)
Definition within_abs {A} (target : A) (margin : D) : option (Matcher A) :=
  if margin >=? Re 0 then Some (mkMatcher A target margin) else None.
(** catch_matchers_vec2.h:32-35 *)
Definition match_v2 (m : Matcher (Vec2 T)) (matchee : Vec2 T) : bool := mc_v2 matchee (mTarget _ m) (mMargin _ m).
(** catch_matchers_vec3.h:32-35 *)
Definition match_v3 (m : Matcher (Vec3 T)) (matchee : Vec3 T) : bool := mc_v3 matchee (mTarget _ m) (mMargin _ m).
(** catch_matchers_vec4.h:32-35 *)
Definition match_v4 (m : Matcher (Vec4 T)) (matchee : Vec4 T) : bool := mc_v4 matchee (mTarget _ m) (mMargin _ m).
(** catch_matchers_mat2.h:35-38 *)
Definition match_m2 (m : Matcher (Mat2 T)) (matchee : Mat2 T) : bool := mc_m2 matchee (mTarget _ m) (mMargin _ m).
(** catch_matchers_mat3.h:36-39 *)
Definition match_m3 (m : Matcher (Mat3 T)) (matchee : Mat3 T) : bool := mc_m3 matchee (mTarget _ m) (mMargin _ m).
(** catch_matchers_mat4.h:37-40 *)
Definition match_m4 (m : Matcher (Mat4 T)) (matchee : Mat4 T) : bool := mc_m4 matchee (mTarget _ m) (mMargin _ m).
(** catch_matchers_mat34.h:37-40 *)
Definition match_m34 (m : Matcher (Mat34 T)) (matchee : Mat34 T) : bool := mc_m34 matchee (mTarget _ m) (mMargin _ m).
(** catch_matchers_quat.h:32-35 *)
Definition match_q (m : Matcher (Quat T)) (matchee : Quat T) : bool := mc_q matchee (mTarget _ m) (mMargin _ m).
(** catch_matchers_aabb2.h:34-37 *)
Definition match_aabb2 (m : Matcher (AABB2 T)) (matchee : AABB2 T) : bool := mc_aabb2 matchee (mTarget _ m) (mMargin _ m).
(** catch_matchers_caabb2.h:34-37 *)
Definition match_caabb2 (m : Matcher (CAABB2 T)) (matchee : CAABB2 T) : bool := mc_caabb2 matchee (mTarget _ m) (mMargin _ m).
(** catch_matchers_aabb3.h:34-37 *)
Definition match_aabb3 (m : Matcher (AABB3 T)) (matchee : AABB3 T) : bool := mc_aabb3 matchee (mTarget _ m) (mMargin _ m).
(** catch_matchers_caabb3.h:34-37 *)
Definition match_caabb3 (m : Matcher (CAABB3 T)) (matchee : CAABB3 T) : bool := mc_caabb3 matchee (mTarget _ m) (mMargin _ m).
(** catch_matchers_colorrgb.h:32-35 *)
Definition match_rgb (m : Matcher (RGB T)) (matchee : RGB T) : bool := mc_rgb matchee (mTarget _ m) (mMargin _ m).
(** catch_matchers_colorrgba.h:32-35 *)
Definition match_rgba (m : Matcher (RGBA T)) (matchee : RGBA T) : bool := mc_rgba matchee (mTarget _ m) (mMargin _ m).
(** catch_matchers_colorhsv.h:32-35 *)
Definition match_hsv (m : Matcher (HSV T)) (matchee : HSV T) : bool := mc_hsv matchee (mTarget _ m) (mMargin _ m).
(** catch_matchers_line2.h:34-37 *)
Definition match_line2 (m : Matcher (Line2 T)) (matchee : Line2 T) : bool := mc_line2 matchee (mTarget _ m) (mMargin _ m).
(** catch_matchers_line3.h:34-37 *)
Definition match_line3 (m : Matcher (Line3 T)) (matchee : Line3 T) : bool := mc_line3 matchee (mTarget _ m) (mMargin _ m).
(** catch_matchers_ray2.h:34-37 *)
Definition match_ray2 (m : Matcher (Ray2 T)) (matchee : Ray2 T) : bool := mc_ray2 matchee (mTarget _ m) (mMargin _ m).
(** catch_matchers_ray3.h:34-37 *)
Definition match_ray3 (m : Matcher (Ray3 T)) (matchee : Ray3 T) : bool := mc_ray3 matchee (mTarget _ m) (mMargin _ m).
(** catch_matchers_plane.h:34-37 *)
Definition match_plane (m : Matcher (Plane T)) (matchee : Plane T) : bool := mc_plane matchee (mTarget _ m) (mMargin _ m).
(** catch_matchers_circle.h:34-37 *)
Definition match_circle (m : Matcher (Circle T)) (matchee : Circle T) : bool := mc_circle matchee (mTarget _ m) (mMargin _ m).
(** catch_matchers_sphere.h:34-37 *)
Definition match_sphere (m : Matcher (Sphere T)) (matchee : Sphere T) : bool := mc_sphere matchee (mTarget _ m) (mMargin _ m).
(** catch_matchers_frustum.h:41-44 *)
Definition match_frustum (m : Matcher (Frustum T)) (matchee : Frustum T) : outcome bool := mc_frustum matchee (mTarget _ m) (mMargin _ m).
End Testlib.
Arguments Matcher D A : clear implicits.
Arguments mkMatcher {D A}. Arguments mTarget {D A}. Arguments mMargin {D A}.
