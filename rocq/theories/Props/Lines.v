(** Properties C60, C61 and C73: lines, rays and triangles (line2.h, line3.h,
    ray2.h, ray3.h, tri2.h), over R. [nearest dist S q d]: d is the distance
    from q to the set S. *)
From Coq Require Import Reals ZArith.
From Verif.Base Require Import Outcome Scalar ScalarR.
From Verif.Model Require Import Types Vec Shapes.
From Verif.Spec Require Import VecSpec GeomSpec ShapeSpec LineSpec.
From Verif.Proof Require Import Lines.
Local Open Scope R_scope.

(** C60. Line2::distance: to the whole line, also when start and end are the same point. *)
Theorem C60_line2 (l : Line2 R) q : nearest dist2 (straight2 (lstart2 l) (dir2 l)) q (line2_distance l q).
Proof. exact (line2_distance_spec l q). Qed.
Print Assumptions C60_line2.

(** C60. Line3::distance, for points off the line: to the whole line. Missing: for a point of the line it gives the distance to the start, see the refutation. *)
Theorem C60_line3_partial (l : Line3 R) q :
  (~ straight3 (lstart3 l) (dir3 l) q \/ lstart3 l = lend3 l -> nearest dist3 (straight3 (lstart3 l) (dir3 l)) q (line3_distance l q)) /\
  (straight3 (lstart3 l) (dir3 l) q -> line3_distance l q = dist3 (lstart3 l) q).
Proof. exact (line3_distance_spec l q). Qed.
Print Assumptions C60_line3_partial.
Example C60_line3_case : ~ straight3 zero3 (dir3 (mkLine3 zero3 (mkV3 2 0 0))) (mkV3 1 3 0).
Proof. intros (t & H). apply (f_equal y3) in H. revert H. cbn. Lra.lra. Qed.

(** C60. A point of a segment at distance 1 from it, according to Line3::distance. *)
Theorem C60_line3_refuted : exists (l : Line3 R) q, lstart3 l <> lend3 l /\ insegment3 l q /\ line3_distance l q = 1.
Proof. exact line3_distance_refuted. Qed.
Print Assumptions C60_line3_refuted.

(** C60. Ray2::distance: to the whole line, and to the ray for the points in front of the start. *)
Theorem C60_ray2 (r : Ray2 R) q : norm2 (rdir2 r) = 1 ->
  nearest dist2 (straight2 (rstart2 r) (rdir2 r)) q (ray2_distance r q) /\
  (0 <= dot2 (rdir2 r) (minus2 q (rstart2 r)) -> nearest dist2 (halfline2 (rstart2 r) (rdir2 r)) q (ray2_distance r q)).
Proof. exact (ray2_distance_spec r q). Qed.
Print Assumptions C60_ray2.

(** C60. Ray3::distance, for points off the line. Missing: points of the line. *)
Theorem C60_ray3_partial (r : Ray3 R) q : norm3 (rdir3 r) = 1 ->
  (~ straight3 (rstart3 r) (rdir3 r) q ->
     nearest dist3 (straight3 (rstart3 r) (rdir3 r)) q (ray3_distance r q) /\
     (0 <= dot3 (rdir3 r) (minus3 q (rstart3 r)) -> nearest dist3 (halfline3 (rstart3 r) (rdir3 r)) q (ray3_distance r q))) /\
  (straight3 (rstart3 r) (rdir3 r) q -> ray3_distance r q = dist3 (rstart3 r) q).
Proof. exact (ray3_distance_spec r q). Qed.
Print Assumptions C60_ray3_partial.

(** C60. Behind the start Ray2::distance is not the distance to the ray, and Ray3::distance is not 0 for a point of the ray. *)
Theorem C60_ray_refuted : exists (r2 : Ray2 R) q2 (r3 : Ray3 R) q3, norm2 (rdir2 r2) = 1 /\ norm3 (rdir3 r3) = 1 /\
  ray2_distance r2 q2 = 0 /\ (forall r, halfline2 (rstart2 r2) (rdir2 r2) r -> 1 <= dist2 q2 r) /\
  ray3_distance r3 q3 = 1 /\ halfline3 (rstart3 r3) (rdir3 r3) q3.
Proof. exact ray_behind_refuted. Qed.
Print Assumptions C60_ray_refuted.

(** C61. contains(point) holds exactly in the full triangle, if it is not flat. Missing: flat triangles, see below. *)
Theorem C61_contains_partial (t : Tri2 R) p : det2 (minus2 (tb2 t) (ta2 t)) (minus2 (tc2 t) (ta2 t)) <> 0 ->
  tri2_contains t p = true <-> inhull2 (ta2 t) (tb2 t) (tc2 t) p.
Proof. exact (tri2_contains_spec t p). Qed.
Print Assumptions C61_contains_partial.
Example C61_contains_case : det2 (minus2 (mkV2 1 0) (mkV2 0 0)) (minus2 (mkV2 0 1) (mkV2 0 0)) <> 0.
Proof. cbv. Lra.lra. Qed.

(** C61. The order of the corners does not matter (the two exchanges generate all orders). *)
Theorem C61_orientation (a b c p : Vec2 R) :
  tri2_contains (mkTri2 a b c) p = tri2_contains (mkTri2 b c a) p /\ tri2_contains (mkTri2 a b c) p = tri2_contains (mkTri2 b a c) p.
Proof. exact (tri2_orientation a b c p). Qed.
Print Assumptions C61_orientation.

(** C61. A flat triangle contains the whole line through its corners, and everything if they are the same point. *)
Theorem C61_flat (t : Tri2 R) p : det2 (minus2 (tb2 t) (ta2 t)) (minus2 (tc2 t) (ta2 t)) = 0 ->
  (ta2 t = tb2 t /\ tb2 t = tc2 t -> tri2_contains t p = true) /\
  (ta2 t <> tb2 t -> (tri2_contains t p = true <-> straight2 (ta2 t) (minus2 (tb2 t) (ta2 t)) p)) /\
  (tb2 t <> tc2 t -> (tri2_contains t p = true <-> straight2 (tb2 t) (minus2 (tc2 t) (tb2 t)) p)) /\
  (tc2 t <> ta2 t -> (tri2_contains t p = true <-> straight2 (tc2 t) (minus2 (ta2 t) (tc2 t)) p)).
Proof. exact (tri2_flat_spec t p). Qed.
Print Assumptions C61_flat.

(** C61. A flat triangle contains a point that is not between its corners. *)
Theorem C61_flat_refuted : exists (t : Tri2 R) p, tri2_contains t p = true /\ ~ inhull2 (ta2 t) (tb2 t) (tc2 t) p.
Proof. exact tri2_flat_refuted. Qed.
Print Assumptions C61_flat_refuted.

(** C73. Line2: fields, length, null lines and points. *)
Theorem C73_line2 (l : Line2 R) (s e : Vec2 R) (t : R) :
  line2_from s e = mkLine2 s e /\
  line2_length l = dist2 (lstart2 l) (lend2 l) /\ line2_lengthSqr l = dist2 (lstart2 l) (lend2 l) * dist2 (lstart2 l) (lend2 l) /\
  (line2_isNull l = true <-> lstart2 l = lend2 l) /\
  line2_pointAt l t = along2 (lstart2 l) (dir2 l) t /\
  line2_pointAt l 0 = lstart2 l /\ line2_pointAt l 1 = lend2 l.
Proof. exact (line2_basic l s e t). Qed.
Print Assumptions C73_line2.

(** C73. Line3: fields, length, null lines and points. *)
Theorem C73_line3 (l : Line3 R) (s e : Vec3 R) (t : R) :
  line3_from s e = mkLine3 s e /\
  line3_length l = dist3 (lstart3 l) (lend3 l) /\ line3_lengthSqr l = dist3 (lstart3 l) (lend3 l) * dist3 (lstart3 l) (lend3 l) /\
  (line3_isNull l = true <-> lstart3 l = lend3 l) /\
  line3_pointAt l t = along3 (lstart3 l) (dir3 l) t /\
  line3_pointAt l 0 = lstart3 l /\ line3_pointAt l 1 = lend3 l.
Proof. exact (line3_basic l s e t). Qed.
Print Assumptions C73_line3.

(** C73. Rays: the direction is normalized, pointAt goes along it and its argument is the distance to the start. *)
Theorem C73_rays (o2 d2 : Vec2 R) (o3 d3 : Vec3 R) (r2 : Ray2 R) (r3 : Ray3 R) (t : R) :
  ray_of o3 d3 (ray3_from o3 d3) /\
  rstart2 (ray2_from o2 d2) = o2 /\ (d2 = zero2 -> rdir2 (ray2_from o2 d2) = zero2) /\
  (d2 <> zero2 -> norm2 (rdir2 (ray2_from o2 d2)) = 1 /\ exists k, 0 < k /\ d2 = smul2 k (rdir2 (ray2_from o2 d2))) /\
  ray2_pointAt r2 t = along2 (rstart2 r2) (rdir2 r2) t /\ ray3_pointAt r3 t = along3 (rstart3 r3) (rdir3 r3) t /\
  (norm2 (rdir2 r2) = 1 -> dist2 (rstart2 r2) (ray2_pointAt r2 t) = Rabs t) /\
  (norm3 (rdir3 r3) = 1 -> dist3 (rstart3 r3) (ray3_pointAt r3 t) = Rabs t).
Proof. exact (ray_basic o2 d2 o3 d3 r2 r3 t). Qed.
Print Assumptions C73_rays.

(** C73. == and != of lines, rays and triangles. *)
Theorem C73_equality :
  (forall a b : Line2 R, (line2_eqb a b = true <-> a = b) /\ line2_neqb a b = negb (line2_eqb a b)) /\
  (forall a b : Line3 R, (line3_eqb a b = true <-> a = b) /\ line3_neqb a b = negb (line3_eqb a b)) /\
  (forall a b : Ray2 R, (ray2_eqb a b = true <-> a = b) /\ ray2_neqb a b = negb (ray2_eqb a b)) /\
  (forall a b : Ray3 R, (ray3_eqb a b = true <-> a = b) /\ ray3_neqb a b = negb (ray3_eqb a b)) /\
  (forall a b : Tri2 R, (tri2_eqb a b = true <-> a = b) /\ tri2_neqb a b = negb (tri2_eqb a b)) /\
  (forall a b c : Vec2 R, tri2_from a b c = mkTri2 a b c).
Proof. exact shapes_equality. Qed.
Print Assumptions C73_equality.

