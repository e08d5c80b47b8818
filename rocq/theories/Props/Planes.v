(** Properties C57 and C58: planes (plane.h), and the local axes and planes of
    Mat34 and Mat4, over R. [inplane p] is the set of points of a plane. *)
From Coq Require Import Reals ZArith.
From Verif.Base Require Import Outcome Array Scalar ScalarR.
From Verif.Model Require Import Types Vec Mat3 Mat4 Mat34 Shapes Plane.
From Verif.Spec Require Import VecSpec CompSpec GeomSpec ShapeSpec.
From Verif.Proof Require Import VecFacts Planes LocalAxes.
Local Open Scope R_scope.

(** C57. Plane(normal, distance): the normal is normalized, the distance is kept. A zero normal is kept as it is. *)
Theorem C57_from_normal (n : Vec3 R) k :
  (n <> zero3 -> unitplane (plane_from_normal n k) /\ n = smul3 (norm3 n) (pnormal (plane_from_normal n k)) /\
     pd (plane_from_normal n k) = k /\ inplane (plane_from_normal n k) (smul3 (k / norm3 n) n)) /\
  plane_from_normal zero3 k = mkPlane zero3 k.
Proof. exact (from_normal_spec n k). Qed.
Print Assumptions C57_from_normal.

(** C57. Plane(point, normal): the points whose offset from the point is orthogonal to the normal. *)
Theorem C57_from_point (o n : Vec3 R) :
  (n <> zero3 -> unitplane (plane_from_point o n) /\ n = smul3 (norm3 n) (pnormal (plane_from_point o n)) /\
     forall q, inplane (plane_from_point o n) q <-> dot3 n (minus3 q o) = 0) /\
  plane_from_point o zero3 = mkPlane zero3 0.
Proof. exact (from_point_spec o n). Qed.
Print Assumptions C57_from_point.

(** C57. Plane(point, u, v): the plane spanned by u and v from the point, oriented by u x v. *)
Theorem C57_from_tangents (o u v : Vec3 R) : cross3 u v <> zero3 ->
  unitplane (plane_from_tangents o u v) /\
  (exists k, 0 < k /\ cross3 u v = smul3 k (pnormal (plane_from_tangents o u v))) /\
  (forall q, inplane (plane_from_tangents o u v) q <-> spanned o u v q).
Proof. exact (from_tangents_spec o u v). Qed.
Print Assumptions C57_from_tangents.
Example C57_from_tangents_case : cross3 (mkV3 1 0 0) (mkV3 1 2 0) <> zero3.
Proof. intros [= H]. revert H. cbn. Lra.lra. Qed.

(** C57. Plane(a, b, c): goes through the three points, and is the plane they span. *)
Theorem C57_from_points (a b c : Vec3 R) : cross3 (minus3 b a) (minus3 c a) <> zero3 ->
  unitplane (plane_from_points a b c) /\
  inplane (plane_from_points a b c) a /\ inplane (plane_from_points a b c) b /\ inplane (plane_from_points a b c) c /\
  (exists k, 0 < k /\ cross3 (minus3 b a) (minus3 c a) = smul3 k (pnormal (plane_from_points a b c))) /\
  (forall q, inplane (plane_from_points a b c) q <-> spanned a (minus3 b a) (minus3 c a) q).
Proof. exact (from_points_spec a b c). Qed.
Print Assumptions C57_from_points.
Example C57_from_points_case : cross3 (minus3 (mkV3 1 0 0) zero3) (minus3 (mkV3 1 2 0) zero3) <> zero3.
Proof. intros [= H]. revert H. cbn. Lra.lra. Qed.

(** C57. Parallel tangents or aligned points give a plane with zero normal and distance. *)
Theorem C57_degenerate (a b c u v : Vec3 R) :
  (cross3 u v = zero3 -> plane_from_tangents a u v = mkPlane zero3 0) /\
  (cross3 (minus3 b a) (minus3 c a) = zero3 -> plane_from_points a b c = mkPlane zero3 0).
Proof. exact (plane_degenerate a b c u v). Qed.
Print Assumptions C57_degenerate.

(** C57. move shifts distances, and moves the points along the normal. *)
Theorem C57_moved (p : Plane R) k q :
  plane_distance (plane_moved p k) q = plane_distance p q - k /\
  (unitplane p -> (inplane (plane_moved p k) (plus3 q (smul3 k (pnormal p))) <-> inplane p q)).
Proof. exact (moved_spec p k q). Qed.
Print Assumptions C57_moved.

(** C57. flip negates distances and keeps the points. *)
Theorem C57_flipped (p : Plane R) q :
  plane_distance (plane_flipped p) q = - plane_distance p q /\
  (inplane (plane_flipped p) q <-> inplane p q) /\ (unitplane p -> unitplane (plane_flipped p)) /\
  plane_flipped (plane_flipped p) = p.
Proof. exact (flipped_spec p q). Qed.
Print Assumptions C57_flipped.

(** C57. project gives the only nearest point of the plane, at the signed distance that is returned. *)
Theorem C57_project (p : Plane R) q : unitplane p ->
  exists pr t, plane_project p q = (pr, t) /\ t = plane_distance p q /\
    inplane p pr /\ q = plus3 pr (smul3 t (pnormal p)) /\ dist3 q pr = Rabs t /\
    (forall r, inplane p r -> dist3 q pr <= dist3 q r /\ (dist3 q r = dist3 q pr -> r = pr)).
Proof. exact (project_spec p q). Qed.
Print Assumptions C57_project.
Example C57_project_case : unitplane (mkPlane (mkV3 (3/5) 0 (4/5)) 2).
Proof. exact tilted_unit. Qed.

(** C57. contains(point, tolerance) holds exactly when some point of the plane is within tolerance. *)
Theorem C57_contains (p : Plane R) q tol : unitplane p ->
  plane_contains p q tol = true <-> exists r, inplane p r /\ dist3 q r <= tol.
Proof. exact (plane_contains_spec p q tol). Qed.
Print Assumptions C57_contains.

(** C57. project(point, direction): moves along the direction to the parallel plane through the origin. Missing: it should reach this plane; see the refutation. *)
Theorem C57_project_along_partial (p : Plane R) q d :
  (dot3 (pnormal p) d = 0 <-> plane_project_along p q d = None) /\
  (forall r, plane_project_along p q d = Some r ->
     (exists k, r = along3 q d k) /\ inplane (mkPlane (pnormal p) 0) r /\ (pd p = 0 -> inplane p r)).
Proof. exact (project_along_spec p q d). Qed.
Print Assumptions C57_project_along_partial.

(** C57. A point of the plane projected along a direction leaves the plane: the distance of the plane is ignored. *)
Theorem C57_project_along_refuted : exists (p : Plane R) q d r, unitplane p /\ inplane p q /\
  plane_project_along p q d = Some r /\ ~ inplane p r.
Proof. exact project_along_refuted. Qed.
Print Assumptions C57_project_along_refuted.

(** C57. == is equality of normals and distances, != is its negation. *)
Theorem C57_equality (a b : Plane R) : (plane_eqb a b = true <-> a = b) /\ plane_neqb a b = negb (plane_eqb a b).
Proof. exact (plane_eqb_spec a b). Qed.
Print Assumptions C57_equality.

(** C57. The coordinate planes, and Plane as given. *)
Theorem C57_constants (q : Vec3 R) :
  (inplane plane_XY q <-> z3 q = 0) /\ (inplane plane_YZ q <-> x3 q = 0) /\ (inplane plane_ZX q <-> y3 q = 0) /\
  unitplane plane_XY /\ unitplane plane_YZ /\ unitplane plane_ZX /\
  (plane_distance plane_XY q = z3 q /\ plane_distance plane_YZ q = x3 q /\ plane_distance plane_ZX q = y3 q) /\
  forall (n : Vec3 R) d, plane_of n d = mkPlane n d.
Proof. exact (plane_constants q). Qed.
Print Assumptions C57_constants.

(** C57. Local axes and planes of a Mat34: the ray from the image of the origin to the image of the axis, and the plane there orthogonal to it. *)
Theorem C57_local_m34 (m : Mat34 R) :
  (forall c, match coord_vec c with
     | Some e => (exists r, m34_localAxis m c = Ok r /\ ray_of (m34_apply m zero3) (minus3 (m34_apply m e) (m34_apply m zero3)) r) /\
                 (exists p, m34_localPlane m c = Ok p /\ plane_of_normal (m34_apply m zero3) (minus3 (m34_apply m e) (m34_apply m zero3)) p)
     | None => m34_localAxis m c = AssertFail /\ m34_localPlane m c = AssertFail end) /\
  (forall a, match axis_vec a with
     | Some e => exists p, m34_localPlane_axis m a = Ok p /\ plane_of_normal (m34_apply m zero3) (minus3 (m34_apply m e) (m34_apply m zero3)) p
     | None => m34_localPlane_axis m a = AssertFail end).
Proof. exact (local34_spec m). Qed.
Print Assumptions C57_local_m34.

(** C57. The same for a Mat4 that acts on points. *)
Theorem C57_local_m4 (m : Mat4 R) :
  (forall c, match coord_vec c with
     | Some e => (exists r, m4_localAxis m c = Ok r /\ ray_of (m4_apply3 m zero3) (minus3 (m4_apply3 m e) (m4_apply3 m zero3)) r) /\
                 (exists p, m4_localPlane m c = Ok p /\ plane_of_normal (m4_apply3 m zero3) (minus3 (m4_apply3 m e) (m4_apply3 m zero3)) p)
     | None => m4_localAxis m c = AssertFail /\ m4_localPlane m c = AssertFail end) /\
  (forall a, match axis_vec a with
     | Some e => exists p, m4_localPlane_axis m a = Ok p /\ plane_of_normal (m4_apply3 m zero3) (minus3 (m4_apply3 m e) (m4_apply3 m zero3)) p
     | None => m4_localPlane_axis m a = AssertFail end).
Proof. exact (local4_spec m). Qed.
Print Assumptions C57_local_m4.

(** C58. hits(ray) holds exactly when the ray goes against the normal and meets the plane, at the reported point. *)
Theorem C58_hits_ray (p : Plane R) (r : Ray3 R) :
  (plane_hits_ray p r <> None <-> dot3 (pnormal p) (rdir3 r) < 0 /\ meets (inplane p) (inray3 r)) /\
  (forall hit t, plane_hits_ray p r = Some (hit, t) ->
     0 <= t /\ hit = along3 (rstart3 r) (rdir3 r) t /\ inplane p hit /\ (norm3 (rdir3 r) = 1 -> t = dist3 (rstart3 r) hit) /\
     forall q, inplane p q -> inray3 r q -> q = hit).
Proof. exact (hits_ray_spec p r). Qed.
Print Assumptions C58_hits_ray.
Example C58_hits_ray_case : let r := mkRay3 (mkV3 1 2 5) (mkV3 0 0 (-1)) in
  dot3 (pnormal plane_XY) (rdir3 r) < 0 /\ meets (inplane plane_XY) (inray3 r).
Proof. exact ray_plane_case. Qed.

(** C58. intersects(ray), rays not parallel to the plane: exactly when they meet. Missing: rays that lie in the plane, see the refutation. *)
Theorem C58_intersects_ray_partial (p : Plane R) (r : Ray3 R) :
  (dot3 (pnormal p) (rdir3 r) <> 0 -> (plane_intersects_ray p r <> None <-> meets (inplane p) (inray3 r))) /\
  (dot3 (pnormal p) (rdir3 r) = 0 -> plane_intersects_ray p r = None) /\
  (forall hit t, plane_intersects_ray p r = Some (hit, t) ->
     0 <= t /\ hit = along3 (rstart3 r) (rdir3 r) t /\ inplane p hit /\ (norm3 (rdir3 r) = 1 -> t = dist3 (rstart3 r) hit) /\
     forall q, inplane p q -> inray3 r q -> q = hit).
Proof. exact (intersects_ray_spec p r). Qed.
Print Assumptions C58_intersects_ray_partial.

(** C58. hits(line) and hits(line, radius): exactly when the segment goes from one side, or radius away from it, to beyond; the reported point is the first one at that distance. *)
Theorem C58_hits_line (p : Plane R) (l : Line3 R) (rad : R) :
  (plane_hits_line_radius p l rad <> None <-> rad <= plane_distance p (lstart3 l) /\ plane_distance p (lend3 l) < rad) /\
  (forall hit t, plane_hits_line_radius p l rad = Some (hit, t) ->
     0 <= t < 1 /\ hit = along3 (lstart3 l) (dir3 l) t /\ plane_distance p hit = rad /\
     forall u, 0 <= u < t -> rad < plane_distance p (along3 (lstart3 l) (dir3 l) u)) /\
  plane_hits_line p l = plane_hits_line_radius p l 0.
Proof. exact (hits_line_spec p l rad). Qed.
Print Assumptions C58_hits_line.
Example C58_hits_line_case : let l := mkLine3 (mkV3 1 2 5) (mkV3 1 2 (-5)) in
  dot3 (pnormal plane_XY) (dir3 l) <> 0 /\ meets (inplane plane_XY) (insegment3 l) /\
  (0 <= plane_distance plane_XY (lstart3 l) /\ plane_distance plane_XY (lend3 l) < 0).
Proof. exact line_plane_case. Qed.

(** C58. intersects(line), segments not parallel to the plane: exactly when they meet. Missing: segments that lie in the plane. *)
Theorem C58_intersects_line_partial (p : Plane R) (l : Line3 R) :
  (dot3 (pnormal p) (dir3 l) <> 0 -> (plane_intersects_line p l <> None <-> meets (inplane p) (insegment3 l))) /\
  (dot3 (pnormal p) (dir3 l) = 0 -> plane_intersects_line p l = None) /\
  (forall hit t, plane_intersects_line p l = Some (hit, t) ->
     0 <= t <= 1 /\ hit = along3 (lstart3 l) (dir3 l) t /\ inplane p hit /\ forall q, inplane p q -> insegment3 l q -> q = hit).
Proof. exact (intersects_line_spec p l). Qed.
Print Assumptions C58_intersects_line_partial.

(** C58. Rays and segments that lie in the plane are reported as not meeting it. *)
Theorem C58_flat_refuted : exists (p : Plane R) (r : Ray3 R) (l : Line3 R), unitplane p /\ norm3 (rdir3 r) = 1 /\ lstart3 l <> lend3 l /\
  included (inray3 r) (inplane p) /\ included (insegment3 l) (inplane p) /\
  plane_intersects_ray p r = None /\ plane_intersects_line p l = None.
Proof. exact plane_flat_refuted. Qed.
Print Assumptions C58_flat_refuted.

(** C58. intersects(sphere) holds exactly when the ball and the plane meet; hits(sphere) wants the center on the positive side too; depth is how far the ball goes beyond the plane. *)
Theorem C58_sphere (p : Plane R) (s : Sphere R) : unitplane p -> 0 <= sradius s ->
  (plane_intersects_sphere p s <> None <-> meets (inplane p) (inball s)) /\
  (plane_hits_sphere p s <> None <-> meets (inplane p) (inball s) /\ 0 <= plane_distance p (scenter s)) /\
  (forall depth, plane_intersects_sphere p s = Some depth \/ plane_hits_sphere p s = Some depth ->
     depth = sradius s - plane_distance p (scenter s)).
Proof. exact (sphere_plane_spec p s). Qed.
Print Assumptions C58_sphere.

(** C58. Three planes whose normals have a determinant of at least 1e-4 meet at the reported point only; otherwise zero and false are given. Missing: determinants below 1e-4, see the refutation. *)
Theorem C58_single_point_partial (p0 p1 p2 : Plane R) :
  let det := triple (pnormal p0) (pnormal p1) (pnormal p2) in
  (1 / 10000 <= Rabs det -> exists q, plane_single_point p0 p1 p2 = Ok (q, true) /\
     (inplane p0 q /\ inplane p1 q /\ inplane p2 q) /\
     forall r, inplane p0 r -> inplane p1 r -> inplane p2 r -> r = q) /\
  (Rabs det < 1 / 10000 -> plane_single_point p0 p1 p2 = Ok (zero3, false)).
Proof. exact (single_point_spec p0 p1 p2). Qed.
Print Assumptions C58_single_point_partial.
Example C58_single_point_case :
  1 / 10000 <= Rabs (triple (pnormal plane_XY) (pnormal (mkPlane (mkV3 (3/5) 0 (4/5)) 2)) (mkV3 0 1 0)).
Proof. exact three_planes_case. Qed.

(** C58. Three planes that meet at a single point, reported as not doing so. *)
Theorem C58_single_point_refuted : exists (p0 p1 p2 : Plane R) q, unitplane p0 /\ unitplane p1 /\ unitplane p2 /\
  (inplane p0 q /\ inplane p1 q /\ inplane p2 q) /\
  (forall r, inplane p0 r -> inplane p1 r -> inplane p2 r -> r = q) /\
  plane_single_point p0 p1 p2 = Ok (zero3, false) /\ q <> zero3.
Proof. exact single_point_refuted. Qed.
Print Assumptions C58_single_point_refuted.

