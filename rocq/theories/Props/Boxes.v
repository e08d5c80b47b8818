(** Properties C50-C54 and C72: axis-aligned boxes (aabb2.h, aabb3.h, caabb2.h,
    caabb3.h), over R. [inbox3 b] is the set of points of the closed box b. *)
From Coq Require Import Reals ZArith.
From Verif.Base Require Import Outcome Array Scalar ScalarR.
From Verif.Model Require Import Types Vec Shapes Box.
From Verif.Spec Require Import VecSpec GeomSpec.
From Verif.Proof Require Import Boxes BoxMore BoxRays BoxHits BoxCases.
Local Open Scope R_scope.

(** C50. The box of count points, contiguous or at a stride, is the smallest box
    that contains them. A count that is not positive is caught. *)
Theorem C50_points_plane (a : arr (Vec2 R)) (count : Z) (s : nat) (f : nat -> Vec2 R) :
  ((0 < count)%Z -> points_of a (Z.to_nat count) s f ->
     exists b, aabb2_set_points_stride count a s = Ok b /\ nonempty (inbox2 b) /\
       bounding2 (listed (Z.to_nat count) f) b) /\
  ((0 < count)%Z -> points_of a (Z.to_nat count) 1 f ->
     exists b, aabb2_set_points count a = Ok b /\ nonempty (inbox2 b) /\
       bounding2 (listed (Z.to_nat count) f) b) /\
  ((count <= 0)%Z -> aabb2_set_points_stride count a s = AssertFail /\ aabb2_set_points count a = AssertFail).
Proof. exact (points2 a count s f). Qed.
Print Assumptions C50_points_plane.
Theorem C50_points_space (a : arr (Vec3 R)) (count : Z) (s : nat) (f : nat -> Vec3 R) :
  ((0 < count)%Z -> points_of a (Z.to_nat count) s f ->
     exists b, aabb3_set_points_stride count a s = Ok b /\ nonempty (inbox3 b) /\
       bounding3 (listed (Z.to_nat count) f) b) /\
  ((0 < count)%Z -> points_of a (Z.to_nat count) 1 f ->
     exists b, aabb3_set_points count a = Ok b /\ nonempty (inbox3 b) /\
       bounding3 (listed (Z.to_nat count) f) b) /\
  ((count <= 0)%Z -> aabb3_set_points_stride count a s = AssertFail /\ aabb3_set_points count a = AssertFail).
Proof. exact (points3 a count s f). Qed.
Print Assumptions C50_points_space.
(** C50. Adding a point; joining two boxes. *)
Theorem C50_add_plane (b : AABB2 R) (p : Vec2 R) : nonempty (inbox2 b) ->
  bounding2 (fun q => inbox2 b q \/ q = p) (aabb2_add b p).
Proof. exact (add2 b p). Qed.
Print Assumptions C50_add_plane.
Theorem C50_add_space (b : AABB3 R) (p : Vec3 R) : nonempty (inbox3 b) ->
  bounding3 (fun q => inbox3 b q \/ q = p) (aabb3_add b p).
Proof. exact (add3 b p). Qed.
Print Assumptions C50_add_space.
Theorem C50_union_plane (a b : AABB2 R) : nonempty (inbox2 a) -> nonempty (inbox2 b) ->
  bounding2 (fun q => inbox2 a q \/ inbox2 b q) (aabb2_fromUnion a b).
Proof. exact (union2 a b). Qed.
Print Assumptions C50_union_plane.
Theorem C50_union_space (a b : AABB3 R) : nonempty (inbox3 a) -> nonempty (inbox3 b) ->
  bounding3 (fun q => inbox3 a q \/ inbox3 b q) (aabb3_fromUnion a b).
Proof. exact (union3 a b). Qed.
Print Assumptions C50_union_space.
(** C50. The intersection holds exactly the common points when there are any.
    Partial: without common points the answer is the box of the origin alone,
    which is not empty (refuted below). *)
Theorem C50_intersection_plane_partial (a b : AABB2 R) :
  (forall p, meets (inbox2 a) (inbox2 b) ->
     (inbox2 (aabb2_fromIntersection a b) p <-> inbox2 a p /\ inbox2 b p)) /\
  (nonempty (inbox2 a) -> nonempty (inbox2 b) -> ~ meets (inbox2 a) (inbox2 b) ->
     aabb2_fromIntersection a b = mkAABB2 zero2 zero2).
Proof. exact (intersection2 a b). Qed.
Print Assumptions C50_intersection_plane_partial.
Theorem C50_intersection_space_partial (a b : AABB3 R) :
  (forall p, meets (inbox3 a) (inbox3 b) ->
     (inbox3 (aabb3_fromIntersection a b) p <-> inbox3 a p /\ inbox3 b p)) /\
  (nonempty (inbox3 a) -> nonempty (inbox3 b) -> ~ meets (inbox3 a) (inbox3 b) ->
     aabb3_fromIntersection a b = mkAABB3 zero3 zero3).
Proof. exact (intersection3 a b). Qed.
Print Assumptions C50_intersection_space_partial.
Theorem C50_intersection_plane_refuted : exists (a b : AABB2 R) p, nonempty (inbox2 a) /\ nonempty (inbox2 b) /\
  inbox2 (aabb2_fromIntersection a b) p /\ ~ inbox2 a p /\ ~ inbox2 b p.
Proof. exact intersection2_refuted. Qed.
Print Assumptions C50_intersection_plane_refuted.
Theorem C50_intersection_space_refuted : exists (a b : AABB3 R) p, nonempty (inbox3 a) /\ nonempty (inbox3 b) /\
  inbox3 (aabb3_fromIntersection a b) p /\ ~ inbox3 a p /\ ~ inbox3 b p.
Proof. exact intersection_refuted. Qed.
Print Assumptions C50_intersection_space_refuted.
(** C50. Boxes of one point, of two corners, and the constants. *)
Theorem C50_makers_plane (p q c : Vec2 R) :
  (forall r, inbox2 (aabb2_of_point p) r <-> r = p) /\ aabb2_of p q = mkAABB2 p q /\
  (forall r, inbox2 aabb2_zero r <-> r = zero2) /\ aabb2_center aabb2_one = zero2 /\
  aabb2_size aabb2_one = mkV2 1 1.
Proof. exact (box_makers2 p q c). Qed.
Print Assumptions C50_makers_plane.
Theorem C50_makers_space (p q c : Vec3 R) :
  (forall r, inbox3 (aabb3_of_point p) r <-> r = p) /\ aabb3_of p q = mkAABB3 p q /\
  (forall r, inbox3 aabb3_zero r <-> r = zero3) /\ aabb3_center aabb3_one = zero3 /\
  aabb3_size aabb3_one = mkV3 1 1 1.
Proof. exact (box_makers3 p q c). Qed.
Print Assumptions C50_makers_space.
(** C50. box + t and box - t. *)
Theorem C50_translation_plane (b : AABB2 R) (t p : Vec2 R) :
  (inbox2 (aabb2_plus b t) p <-> inbox2 b (minus2 p t)) /\
  (inbox2 (aabb2_minus b t) p <-> inbox2 b (plus2 p t)).
Proof. exact (move2 b t p). Qed.
Print Assumptions C50_translation_plane.
Theorem C50_translation_space (b : AABB3 R) (t p : Vec3 R) :
  (inbox3 (aabb3_plus b t) p <-> inbox3 b (minus3 p t)) /\
  (inbox3 (aabb3_minus b t) p <-> inbox3 b (plus3 p t)).
Proof. exact (move3 b t p). Qed.
Print Assumptions C50_translation_space.
(** C50. Center, size, half size, area and volume. *)
Theorem C50_size_plane (b : AABB2 R) :
  aabb2_center b = smul2 (/ 2) (plus2 (inf2 b) (sup2 b)) /\ aabb2_size b = minus2 (sup2 b) (inf2 b) /\
  plus2 (aabb2_extents b) (aabb2_extents b) = aabb2_size b /\
  aabb2_area b = x2 (aabb2_size b) * y2 (aabb2_size b).
Proof. exact (middle2 b). Qed.
Print Assumptions C50_size_plane.
Theorem C50_size_space (b : AABB3 R) :
  aabb3_center b = smul3 (/ 2) (plus3 (inf3 b) (sup3 b)) /\ aabb3_size b = minus3 (sup3 b) (inf3 b) /\
  plus3 (aabb3_extents b) (aabb3_extents b) = aabb3_size b /\
  aabb3_volume b = x3 (aabb3_size b) * y3 (aabb3_size b) * z3 (aabb3_size b).
Proof. exact (middle3 b). Qed.
Print Assumptions C50_size_space.
(** C50. Scaling about the center; box / k undoes box * k. *)
Theorem C50_scale_plane (b : AABB2 R) (k : R) :
  (aabb2_center (aabb2_scaleCentered b k) = aabb2_center b /\
   aabb2_size (aabb2_scaleCentered b k) = smul2 k (aabb2_size b)) /\
  aabb2_times b k = aabb2_scaleCentered b k /\
  (k <> 0 -> exists c, aabb2_div b k = Ok c /\ aabb2_times c k = b /\ aabb2_center c = aabb2_center b) /\
  (k = 0 -> aabb2_div b k = AssertFail).
Proof. exact (scale2 b k). Qed.
Print Assumptions C50_scale_plane.
Theorem C50_scale_space (b : AABB3 R) (k : R) :
  (aabb3_center (aabb3_scaleCentered b k) = aabb3_center b /\
   aabb3_size (aabb3_scaleCentered b k) = smul3 k (aabb3_size b)) /\
  aabb3_times b k = aabb3_scaleCentered b k /\
  (k <> 0 -> exists c, aabb3_div b k = Ok c /\ aabb3_times c k = b /\ aabb3_center c = aabb3_center b) /\
  (k = 0 -> aabb3_div b k = AssertFail).
Proof. exact (scale3 b k). Qed.
Print Assumptions C50_scale_space.
(** C50. pointAt goes through the whole box, and only the box, as its argument goes
    through the unit square or cube. *)
Theorem C50_point_at_plane (b : AABB2 R) :
  aabb2_pointAt b (mkV2 0 0) = inf2 b /\ aabb2_pointAt b (mkV2 1 1) = sup2 b /\
  (forall t, aabb2_pointAt b t = mkV2 (x2 (inf2 b) + x2 t * (x2 (sup2 b) - x2 (inf2 b)))
     (y2 (inf2 b) + y2 t * (y2 (sup2 b) - y2 (inf2 b)))) /\
  (nonempty (inbox2 b) -> forall p,
     inbox2 b p <-> exists t, within2 (mkV2 0 0) (mkV2 1 1) t /\ aabb2_pointAt b t = p).
Proof. exact (point_at2 b). Qed.
Print Assumptions C50_point_at_plane.
Theorem C50_point_at_space (b : AABB3 R) :
  aabb3_pointAt b (mkV3 0 0 0) = inf3 b /\ aabb3_pointAt b (mkV3 1 1 1) = sup3 b /\
  (forall t, aabb3_pointAt b t = mkV3 (x3 (inf3 b) + x3 t * (x3 (sup3 b) - x3 (inf3 b)))
     (y3 (inf3 b) + y3 t * (y3 (sup3 b) - y3 (inf3 b))) (z3 (inf3 b) + z3 t * (z3 (sup3 b) - z3 (inf3 b)))) /\
  (nonempty (inbox3 b) -> forall p,
     inbox3 b p <-> exists t, within3 (mkV3 0 0 0) (mkV3 1 1 1) t /\ aabb3_pointAt b t = p).
Proof. exact (point_at3 b). Qed.
Print Assumptions C50_point_at_space.
(** C50. Equality and nullity. *)
Theorem C50_equality_plane (a b : AABB2 R) : (aabb2_eqb a b = true <-> a = b) /\
  aabb2_neqb a b = negb (aabb2_eqb a b) /\ (aabb2_isNull a = true <-> inf2 a = sup2 a).
Proof. exact (box_eqb2 a b). Qed.
Print Assumptions C50_equality_plane.
Theorem C50_equality_space (a b : AABB3 R) : (aabb3_eqb a b = true <-> a = b) /\
  aabb3_neqb a b = negb (aabb3_eqb a b) /\ (aabb3_isNull a = true <-> inf3 a = sup3 a).
Proof. exact (box_eqb3 a b). Qed.
Print Assumptions C50_equality_space.
(** Three points at a stride of two in an array of five; two boxes that meet. *)
Example C50_case : (exists (a : arr (Vec2 R)) f, points_of a 3 2 f /\ f 0%nat <> f 2%nat) /\
  (exists a b : AABB3 R, meets (inbox3 a) (inbox3 b) /\ ~ included (inbox3 a) (inbox3 b) /\ ~ included (inbox3 b) (inbox3 a)).
Proof. exact boxes_case. Qed.

(** C51. Membership, inclusion and overlap. *)
Theorem C51_contains_point_plane (b : AABB2 R) (p : Vec2 R) : aabb2_contains b p = true <-> inbox2 b p.
Proof. exact (contains2 b p). Qed.
Print Assumptions C51_contains_point_plane.
Theorem C51_contains_point_space (b : AABB3 R) (p : Vec3 R) : aabb3_contains b p = true <-> inbox3 b p.
Proof. exact (contains3 b p). Qed.
Print Assumptions C51_contains_point_space.
Theorem C51_contains_box_plane (b c : AABB2 R) : nonempty (inbox2 c) ->
  (aabb2_contains_box b c = true <-> included (inbox2 c) (inbox2 b)).
Proof. exact (contains_box2 b c). Qed.
Print Assumptions C51_contains_box_plane.
Theorem C51_contains_box_space (b c : AABB3 R) : nonempty (inbox3 c) ->
  (aabb3_contains_box b c = true <-> included (inbox3 c) (inbox3 b)).
Proof. exact (contains_box3 b c). Qed.
Print Assumptions C51_contains_box_space.
Theorem C51_intersects_plane (b c : AABB2 R) : nonempty (inbox2 b) -> nonempty (inbox2 c) ->
  (aabb2_intersects b c = true <-> meets (inbox2 b) (inbox2 c)).
Proof. exact (intersects2 b c). Qed.
Print Assumptions C51_intersects_plane.
Theorem C51_intersects_space (b c : AABB3 R) : nonempty (inbox3 b) -> nonempty (inbox3 c) ->
  (aabb3_intersects b c = true <-> meets (inbox3 b) (inbox3 c)).
Proof. exact (intersects3 b c). Qed.
Print Assumptions C51_intersects_space.
Theorem C51_contains_sphere (b : AABB3 R) (s : Sphere R) : 0 <= sradius s ->
  (aabb3_contains_sphere b s = true <-> included (inball s) (inbox3 b)).
Proof. exact (contains_sphere3 b s). Qed.
Print Assumptions C51_contains_sphere.
Example C51_case : exists (b c : AABB3 R) s, nonempty (inbox3 b) /\ nonempty (inbox3 c) /\ 0 < sradius s /\
  included (inball s) (inbox3 b) /\ ~ included (inbox3 c) (inbox3 b) /\ meets (inbox3 b) (inbox3 c).
Proof. exact containment_case. Qed.

(** C52. A ray with a direction of length one, for coordinates below an eighth of
    the largest number of the type. *)
Theorem C52_ray_plane (b : AABB2 R) (p d : Vec2 R) (ok : bool) (t1 t2 : R) : nonempty (inbox2 b) ->
  norm2 d = 1 -> small2 p -> small2 (inf2 b) -> small2 (sup2 b) ->
  aabb2_intersects_ray b (mkRay2 p d) = (ok, t1, t2) ->
  (ok = true <-> exists t, 0 <= t /\ inbox2 b (along2 p d t)) /\
  (ok = true -> 0 <= t1 <= t2 /\ forall t, 0 <= t -> (inbox2 b (along2 p d t) <-> t1 <= t <= t2)).
Proof. exact (ray2_unit b p d ok t1 t2). Qed.
Print Assumptions C52_ray_plane.
Theorem C52_ray_space (b : AABB3 R) (p d : Vec3 R) (ok : bool) (t1 t2 : R) : nonempty (inbox3 b) ->
  norm3 d = 1 -> small3 p -> small3 (inf3 b) -> small3 (sup3 b) ->
  aabb3_intersects_ray b (mkRay3 p d) = (ok, t1, t2) ->
  (ok = true <-> exists t, 0 <= t /\ inbox3 b (along3 p d t)) /\
  (ok = true -> 0 <= t1 <= t2 /\ forall t, 0 <= t -> (inbox3 b (along3 p d t) <-> t1 <= t <= t2)).
Proof. exact (ray3_unit b p d ok t1 t2). Qed.
Print Assumptions C52_ray_space.
(** C52. Any ray, for parameters up to the largest number of the type. *)
Theorem C52_ray_bounded_plane (b : AABB2 R) (p d : Vec2 R) (ok : bool) (t1 t2 : R) : nonempty (inbox2 b) ->
  aabb2_intersects_ray b (mkRay2 p d) = (ok, t1, t2) ->
  (ok = true <-> exists t, 0 <= t <= Rmaxval /\ inbox2 b (along2 p d t)) /\
  (ok = true -> 0 <= t1 <= t2 /\ t2 <= Rmaxval /\
     forall t, 0 <= t <= Rmaxval -> (inbox2 b (along2 p d t) <-> t1 <= t <= t2)).
Proof. exact (ray2_bounded b p d ok t1 t2). Qed.
Print Assumptions C52_ray_bounded_plane.
Theorem C52_ray_bounded_space (b : AABB3 R) (p d : Vec3 R) (ok : bool) (t1 t2 : R) : nonempty (inbox3 b) ->
  aabb3_intersects_ray b (mkRay3 p d) = (ok, t1, t2) ->
  (ok = true <-> exists t, 0 <= t <= Rmaxval /\ inbox3 b (along3 p d t)) /\
  (ok = true -> 0 <= t1 <= t2 /\ t2 <= Rmaxval /\
     forall t, 0 <= t <= Rmaxval -> (inbox3 b (along3 p d t) <-> t1 <= t <= t2)).
Proof. exact (ray3_bounded b p d ok t1 t2). Qed.
Print Assumptions C52_ray_bounded_space.
(** C52. Segments. *)
Theorem C52_segment_plane (b : AABB2 R) (p q : Vec2 R) (ok : bool) (t1 t2 : R) : nonempty (inbox2 b) ->
  aabb2_intersects_line b (mkLine2 p q) = (ok, t1, t2) ->
  (ok = true <-> exists t, 0 <= t <= 1 /\ inbox2 b (along2 p (minus2 q p) t)) /\
  (ok = true -> 0 <= t1 <= t2 /\ t2 <= 1 /\
     forall t, 0 <= t <= 1 -> (inbox2 b (along2 p (minus2 q p) t) <-> t1 <= t <= t2)).
Proof. exact (line2_bounded b p q ok t1 t2). Qed.
Print Assumptions C52_segment_plane.
Theorem C52_segment_space (b : AABB3 R) (p q : Vec3 R) (ok : bool) (t1 t2 : R) : nonempty (inbox3 b) ->
  aabb3_intersects_line b (mkLine3 p q) = (ok, t1, t2) ->
  (ok = true <-> exists t, 0 <= t <= 1 /\ inbox3 b (along3 p (minus3 q p) t)) /\
  (ok = true -> 0 <= t1 <= t2 /\ t2 <= 1 /\
     forall t, 0 <= t <= 1 -> (inbox3 b (along3 p (minus3 q p) t) <-> t1 <= t <= t2)).
Proof. exact (line3_bounded b p q ok t1 t2). Qed.
Print Assumptions C52_segment_space.
Example C52_case : exists (b : AABB3 R) p d, nonempty (inbox3 b) /\ norm3 d = 1 /\ small3 p /\ small3 (inf3 b) /\ small3 (sup3 b) /\
  ~ inbox3 b p /\ exists t, 0 <= t /\ inbox3 b (along3 p d t).
Proof. exact rays_case. Qed.

(** C53. What hits decides: on every axis the start has not passed the side it
    moves to ([facing]). When that holds and the ray meets the box, the reported
    parameter is the first one in the box. Partial: [facing] is not the same as
    meeting the box from outside, see the refutations. *)
Theorem C53_hit_ray_plane_partial (b : AABB2 R) (p d : Vec2 R) (ok : bool) (t : R) : nonempty (inbox2 b) ->
  aabb2_hits_ray b (mkRay2 p d) = (ok, t) ->
  (ok = true <-> facing2 b p d) /\
  (ok = true -> 0 <= t /\
     forall u, 0 <= u -> inbox2 b (along2 p d u) -> t <= u /\ inbox2 b (along2 p d t)).
Proof. exact (ray2_hit b p d ok t). Qed.
Print Assumptions C53_hit_ray_plane_partial.
Theorem C53_hit_ray_space_partial (b : AABB3 R) (p d : Vec3 R) (ok : bool) (t : R) : nonempty (inbox3 b) ->
  aabb3_hits_ray b (mkRay3 p d) = (ok, t) ->
  (ok = true <-> facing3 b p d) /\
  (ok = true -> 0 <= t /\
     forall u, 0 <= u -> inbox3 b (along3 p d u) -> t <= u /\ inbox3 b (along3 p d t)).
Proof. exact (ray3_hit b p d ok t). Qed.
Print Assumptions C53_hit_ray_space_partial.
Theorem C53_hit_segment_plane_partial (b : AABB2 R) (p q : Vec2 R) (ok : bool) (t : R) : nonempty (inbox2 b) ->
  aabb2_hits_line b (mkLine2 p q) = (ok, t) ->
  (ok = true -> facing2 b p (minus2 q p) /\ 0 <= t <= 1 /\
     forall u, 0 <= u <= 1 -> inbox2 b (along2 p (minus2 q p) u) ->
       t <= u /\ inbox2 b (along2 p (minus2 q p) t)) /\
  (facing2 b p (minus2 q p) ->
     (exists u, 0 <= u <= 1 /\ inbox2 b (along2 p (minus2 q p) u)) -> ok = true).
Proof. exact (line2_hit b p q ok t). Qed.
Print Assumptions C53_hit_segment_plane_partial.
Theorem C53_hit_segment_space_partial (b : AABB3 R) (p q : Vec3 R) (ok : bool) (t : R) : nonempty (inbox3 b) ->
  aabb3_hits_line b (mkLine3 p q) = (ok, t) ->
  (ok = true -> facing3 b p (minus3 q p) /\ 0 <= t <= 1 /\
     forall u, 0 <= u <= 1 -> inbox3 b (along3 p (minus3 q p) u) ->
       t <= u /\ inbox3 b (along3 p (minus3 q p) t)) /\
  (facing3 b p (minus3 q p) ->
     (exists u, 0 <= u <= 1 /\ inbox3 b (along3 p (minus3 q p) u)) -> ok = true).
Proof. exact (line3_hit b p q ok t). Qed.
Print Assumptions C53_hit_segment_space_partial.
(** Findings: rays and segments that enter the box and are not reported, and
    others that never meet it and are. *)
Theorem C53_missed_ray_refuted : exists (b : AABB3 R) p d u t, nonempty (inbox3 b) /\ ~ inbox3 b p /\
  0 <= u /\ inbox3 b (along3 p d u) /\ aabb3_hits_ray b (mkRay3 p d) = (false, t).
Proof. exact ray_missed. Qed.
Print Assumptions C53_missed_ray_refuted.
Theorem C53_invented_ray_refuted : exists (b : AABB3 R) p d t, nonempty (inbox3 b) /\
  (forall u, ~ inbox3 b (along3 p d u)) /\ aabb3_hits_ray b (mkRay3 p d) = (true, t).
Proof. exact ray_invented. Qed.
Print Assumptions C53_invented_ray_refuted.
Theorem C53_missed_segment_refuted : exists (b : AABB2 R) p q u t, nonempty (inbox2 b) /\ ~ inbox2 b p /\
  0 <= u <= 1 /\ inbox2 b (along2 p (minus2 q p) u) /\ aabb2_hits_line b (mkLine2 p q) = (false, t).
Proof. exact line_missed. Qed.
Print Assumptions C53_missed_segment_refuted.
Theorem C53_invented_segment_refuted : exists (b : AABB2 R) p q t, nonempty (inbox2 b) /\
  (forall u, ~ inbox2 b (along2 p (minus2 q p) u)) /\ aabb2_hits_line b (mkLine2 p q) = (true, t).
Proof. exact line_invented. Qed.
Print Assumptions C53_invented_segment_refuted.
Example C53_case : exists (b : AABB3 R) p d u, nonempty (inbox3 b) /\ facing3 b p d /\ ~ inbox3 b p /\
  0 <= u /\ inbox3 b (along3 p d u).
Proof. exact hits_case. Qed.

(** C54. [corners3 b] is the corner box with corners center - extents and
    center + extents. Conversions both ways lose nothing. *)
Theorem C54_conversions_plane (b : CAABB2 R) (a : AABB2 R) (c s p : Vec2 R) :
  corners2 (caabb2_of_aabb a) = a /\ caabb2_of_aabb (corners2 b) = b /\
  caabb2_inf b = inf2 (corners2 b) /\ caabb2_sup b = sup2 (corners2 b) /\
  caabb2_size b = aabb2_size (corners2 b) /\ aabb2_of_caabb b = corners2 b /\
  cbcenter2 b = aabb2_center (corners2 b) /\ cbextents2 b = aabb2_extents (corners2 b) /\
  aabb2_center (corners2 (caabb2_of c s)) = c /\ aabb2_size (corners2 (caabb2_of c s)) = s /\
  corners2 (caabb2_of_point p) = aabb2_of_point p /\ corners2 caabb2_one = aabb2_one.
Proof. exact (centered_conv2 b a c s p). Qed.
Print Assumptions C54_conversions_plane.
Theorem C54_conversions_space (b : CAABB3 R) (a : AABB3 R) (c s p : Vec3 R) :
  corners3 (caabb3_of_aabb a) = a /\ caabb3_of_aabb (corners3 b) = b /\
  caabb3_inf b = inf3 (corners3 b) /\ caabb3_sup b = sup3 (corners3 b) /\
  caabb3_size b = aabb3_size (corners3 b) /\ aabb3_of_caabb b = corners3 b /\
  cbcenter3 b = aabb3_center (corners3 b) /\ cbextents3 b = aabb3_extents (corners3 b) /\
  aabb3_center (corners3 (caabb3_of c s)) = c /\ aabb3_size (corners3 (caabb3_of c s)) = s /\
  corners3 (caabb3_of_point p) = aabb3_of_point p /\ corners3 caabb3_one = aabb3_one.
Proof. exact (centered_conv3 b a c s p). Qed.
Print Assumptions C54_conversions_space.
(** C54. Boxes of points, adding a point, and the operators. *)
Theorem C54_points_plane (a : arr (Vec2 R)) (count : Z) (s : nat) (f : nat -> Vec2 R) : (0 < count)%Z ->
  (points_of a (Z.to_nat count) s f -> exists b, caabb2_set_points_stride count a s = Ok b /\
     nonempty (incbox2 b) /\ bounding2 (listed (Z.to_nat count) f) (corners2 b)) /\
  (points_of a (Z.to_nat count) 1 f -> exists b, caabb2_set_points count a = Ok b /\
     nonempty (incbox2 b) /\ bounding2 (listed (Z.to_nat count) f) (corners2 b)).
Proof. exact (centered_points2 a count s f). Qed.
Print Assumptions C54_points_plane.
Theorem C54_points_space (a : arr (Vec3 R)) (count : Z) (s : nat) (f : nat -> Vec3 R) : (0 < count)%Z ->
  (points_of a (Z.to_nat count) s f -> exists b, caabb3_set_points_stride count a s = Ok b /\
     nonempty (incbox3 b) /\ bounding3 (listed (Z.to_nat count) f) (corners3 b)) /\
  (points_of a (Z.to_nat count) 1 f -> exists b, caabb3_set_points count a = Ok b /\
     nonempty (incbox3 b) /\ bounding3 (listed (Z.to_nat count) f) (corners3 b)).
Proof. exact (centered_points3 a count s f). Qed.
Print Assumptions C54_points_space.
Theorem C54_add_plane (b : CAABB2 R) (p : Vec2 R) : corners2 (caabb2_add b p) = aabb2_add (corners2 b) p.
Proof. exact (centered_add2 b p). Qed.
Print Assumptions C54_add_plane.
Theorem C54_add_space (b : CAABB3 R) (p : Vec3 R) : corners3 (caabb3_add b p) = aabb3_add (corners3 b) p.
Proof. exact (centered_add3 b p). Qed.
Print Assumptions C54_add_space.
Theorem C54_algebra_plane (b : CAABB2 R) (t : Vec2 R) (k : R) :
  corners2 (caabb2_plus b t) = aabb2_plus (corners2 b) t /\
  corners2 (caabb2_minus b t) = aabb2_minus (corners2 b) t /\
  corners2 (caabb2_times b k) = aabb2_times (corners2 b) k /\
  (k <> 0 -> exists c, caabb2_div b k = Ok c /\ aabb2_div (corners2 b) k = Ok (corners2 c)) /\
  (k = 0 -> caabb2_div b k = AssertFail).
Proof. exact (centered_algebra2 b t k). Qed.
Print Assumptions C54_algebra_plane.
Theorem C54_algebra_space (b : CAABB3 R) (t : Vec3 R) (k : R) :
  corners3 (caabb3_plus b t) = aabb3_plus (corners3 b) t /\
  corners3 (caabb3_minus b t) = aabb3_minus (corners3 b) t /\
  corners3 (caabb3_times b k) = aabb3_times (corners3 b) k /\
  (k <> 0 -> exists c, caabb3_div b k = Ok c /\ aabb3_div (corners3 b) k = Ok (corners3 c)) /\
  (k = 0 -> caabb3_div b k = AssertFail).
Proof. exact (centered_algebra3 b t k). Qed.
Print Assumptions C54_algebra_space.
(** C54. Membership, inclusion and overlap. *)
Theorem C54_queries_plane (b c : CAABB2 R) (p : Vec2 R) :
  (caabb2_contains b p = true <-> incbox2 b p) /\
  (nonempty (incbox2 c) -> (caabb2_contains_box b c = true <-> included (incbox2 c) (incbox2 b))) /\
  (nonempty (incbox2 b) -> nonempty (incbox2 c) -> (caabb2_intersects b c = true <-> meets (incbox2 b) (incbox2 c))).
Proof. exact (centered_queries2 b c p). Qed.
Print Assumptions C54_queries_plane.
Theorem C54_queries_space (b c : CAABB3 R) (p : Vec3 R) (s : Sphere R) :
  (caabb3_contains b p = true <-> incbox3 b p) /\
  (nonempty (incbox3 c) -> (caabb3_contains_box b c = true <-> included (incbox3 c) (incbox3 b))) /\
  (0 <= sradius s -> (caabb3_contains_sphere b s = true <-> included (inball s) (incbox3 b))) /\
  (nonempty (incbox3 b) -> nonempty (incbox3 c) -> (caabb3_intersects b c = true <-> meets (incbox3 b) (incbox3 c))).
Proof. exact (centered_queries3 b c p s). Qed.
Print Assumptions C54_queries_space.
(** C54. Area, volume, inner and outer balls, equality. pointAt takes its
    argument in [-1,1] where the corner box takes it in [0,1]. *)
Theorem C54_rest_plane (b c : CAABB2 R) (t : Vec2 R) :
  caabb2_area b = aabb2_area (corners2 b) /\ caabb2_innerCircle b = aabb2_innerCircle (corners2 b) /\
  caabb2_outerCircle b = aabb2_outerCircle (corners2 b) /\ caabb2_isNull b = aabb2_isNull (corners2 b) /\
  caabb2_eqb b c = aabb2_eqb (corners2 b) (corners2 c) /\ caabb2_neqb b c = negb (caabb2_eqb b c) /\
  caabb2_pointAt b t = aabb2_pointAt (corners2 b) (smul2 (/ 2) (plus2 t (mkV2 1 1))).
Proof. exact (centered_rest2 b c t). Qed.
Print Assumptions C54_rest_plane.
Theorem C54_rest_space (b c : CAABB3 R) (t : Vec3 R) :
  caabb3_volume b = aabb3_volume (corners3 b) /\ caabb3_innerSphere b = aabb3_innerSphere (corners3 b) /\
  caabb3_outerSphere b = aabb3_outerSphere (corners3 b) /\ caabb3_isNull b = aabb3_isNull (corners3 b) /\
  caabb3_eqb b c = aabb3_eqb (corners3 b) (corners3 c) /\ caabb3_neqb b c = negb (caabb3_eqb b c) /\
  caabb3_pointAt b t = aabb3_pointAt (corners3 b) (smul3 (/ 2) (plus3 t (mkV3 1 1 1))).
Proof. exact (centered_rest3 b c t). Qed.
Print Assumptions C54_rest_space.
Example C54_case : exists b c : CAABB3 R, nonempty (incbox3 b) /\ nonempty (incbox3 c) /\ b <> c /\ meets (incbox3 b) (incbox3 c).
Proof. exact centered_case. Qed.

(** C72. The inner ball is in the box and no ball in the box is larger; the outer
    ball includes the box and no ball that does is smaller. *)
Theorem C72_inner_plane (b : AABB2 R) : nonempty (inbox2 b) ->
  exists s, aabb2_innerCircle b = Ok s /\ 0 <= cradius s /\ ccenter s = aabb2_center b /\
    included (indisc s) (inbox2 b) /\
    forall s', 0 <= cradius s' -> included (indisc s') (inbox2 b) -> cradius s' <= cradius s.
Proof. exact (inner2 b). Qed.
Print Assumptions C72_inner_plane.
Theorem C72_inner_space (b : AABB3 R) : nonempty (inbox3 b) ->
  exists s, aabb3_innerSphere b = Ok s /\ 0 <= sradius s /\ scenter s = aabb3_center b /\
    included (inball s) (inbox3 b) /\
    forall s', 0 <= sradius s' -> included (inball s') (inbox3 b) -> sradius s' <= sradius s.
Proof. exact (inner3 b). Qed.
Print Assumptions C72_inner_space.
Theorem C72_outer_plane (b : AABB2 R) : nonempty (inbox2 b) ->
  let s := aabb2_outerCircle b in
  0 <= cradius s /\ ccenter s = aabb2_center b /\ included (inbox2 b) (indisc s) /\
  forall s', included (inbox2 b) (indisc s') -> cradius s <= cradius s'.
Proof. exact (outer2 b). Qed.
Print Assumptions C72_outer_plane.
Theorem C72_outer_space (b : AABB3 R) : nonempty (inbox3 b) ->
  let s := aabb3_outerSphere b in
  0 <= sradius s /\ scenter s = aabb3_center b /\ included (inbox3 b) (inball s) /\
  forall s', included (inbox3 b) (inball s') -> sradius s <= sradius s'.
Proof. exact (outer3 b). Qed.
Print Assumptions C72_outer_space.
Example C72_case : exists b : AABB3 R, nonempty (inbox3 b) /\ aabb3_size b = mkV3 2 4 6.
Proof. exact balls_case. Qed.
