(** Properties C55 and C56: circles and spheres (circle.h, sphere.h), over R.
    [indisc c] and [inball s] are the sets of points of the closed balls. *)
From Coq Require Import Reals ZArith.
From Verif.Base Require Import Outcome Array Scalar ScalarR.
From Verif.Model Require Import Types Vec Shapes Box Ball.
From Verif.Spec Require Import VecSpec GeomSpec ShapeSpec.
From Verif.Proof Require Import Balls BallLine.
Local Open Scope R_scope.

(** C55. contains(point) is membership. *)
Theorem C55_contains_circle (s : Circle R) (p : Vec2 R) : circle_contains s p = true <-> indisc s p.
Proof. exact (circle_contains_spec s p). Qed.
Print Assumptions C55_contains_circle.
(** C55. contains(circle) is inclusion. *)
Theorem C55_includes_circle (s o : Circle R) : 0 <= cradius o ->
  circle_contains_circle s o = true <-> included (indisc o) (indisc s).
Proof. exact (circle_contains_circle_spec s o). Qed.
Print Assumptions C55_includes_circle.
(** C55. intersects(circle) is having a common point. *)
Theorem C55_intersects_circle (s o : Circle R) : 0 <= cradius s -> 0 <= cradius o ->
  circle_intersects s o = true <-> meets (indisc s) (indisc o).
Proof. exact (circle_intersects_spec s o). Qed.
Print Assumptions C55_intersects_circle.
(** C55. intersects(hit, t, circle): the same decision; t is how deep the balls
    overlap; hit is the point of the other surface towards the center of this
    one, and is in this ball unless its center is deep inside the other. *)
Theorem C55_hit_circle (s o : Circle R) : 0 <= cradius s -> 0 <= cradius o ->
  (circle_intersects_at s o <> None <-> meets (indisc s) (indisc o)) /\
  (forall hit t, circle_intersects_at s o = Some (hit, t) ->
     t = cradius s + cradius o - dist2 (ccenter s) (ccenter o) /\ 0 <= t /\
     (ccenter s = ccenter o -> hit = ccenter o) /\
     (ccenter s <> ccenter o -> dist2 (ccenter o) hit = cradius o /\
        exists k, 0 <= k /\ hit = along2 (ccenter o) (minus2 (ccenter s) (ccenter o)) k) /\
     (cradius o <= dist2 (ccenter s) (ccenter o) -> indisc s hit)).
Proof. exact (circle_intersects_at_spec s o). Qed.
Print Assumptions C55_hit_circle.
Example C55_hit_circle_case : exists p, circle_intersects_at (mkCircle (mkV2 2 0) 2) (mkCircle (zero2) 1) = Some (p, 1).
Proof. exact circle_hit_case. Qed.
(** C55. The circle of count points, contiguous or at a stride. *)
Theorem C55_points_circle (a : arr (Vec2 R)) (count : Z) (s : nat) (f : nat -> Vec2 R) :
  ((0 < count)%Z -> (0 < s)%nat -> points_of a (Z.to_nat count) s f ->
     exists b, circle_set_points_stride count a s = Ok b /\ around2 (Z.to_nat count) f b) /\
  ((0 < count)%Z -> points_of a (Z.to_nat count) 1 f ->
     exists b, circle_set_points count a = Ok b /\ around2 (Z.to_nat count) f b) /\
  ((count <= 0)%Z -> circle_set_points_stride count a s = AssertFail /\ circle_set_points count a = AssertFail) /\
  circle_set_points_stride count a 0 = AssertFail.
Proof. exact (circle_points_spec a count s f). Qed.
Print Assumptions C55_points_circle.
Example C55_points_circle_case : points_of (arr_of 3 (fun i => mkV2 (INR i) (2 * INR i))) 3 1 (fun i => mkV2 (INR i) (2 * INR i)).
Proof. intros i H. rewrite PeanoNat.Nat.mul_1_r. split; [exact H|reflexivity]. Qed.
(** C55. Operators move the center and scale the radius. A negative radius is
    caught by the operators that make a new circle, not by the assignments. *)
Theorem C55_operators_circle (s : Circle R) (t : Vec2 R) (k : R) : 0 <= cradius s ->
  circle_plus s t = Ok (mkCircle (plus2 (ccenter s) t) (cradius s)) /\ circle_minus s t = Ok (mkCircle (minus2 (ccenter s) t) (cradius s)) /\
  circle_addAssign s t = mkCircle (plus2 (ccenter s) t) (cradius s) /\ circle_subAssign s t = mkCircle (minus2 (ccenter s) t) (cradius s) /\
  circle_mulAssign s k = mkCircle (ccenter s) (k * cradius s) /\
  (0 <= k -> circle_times s k = Ok (mkCircle (ccenter s) (k * cradius s))) /\
  (k < 0 -> 0 < cradius s -> circle_times s k = AssertFail) /\
  (k <> 0 -> circle_divAssign s k = Ok (mkCircle (ccenter s) (cradius s / k))) /\
  (0 < k -> circle_div s k = Ok (mkCircle (ccenter s) (cradius s / k))) /\
  (k < 0 -> 0 < cradius s -> circle_div s k = AssertFail) /\
  (k = 0 -> circle_div s k = AssertFail /\ circle_divAssign s k = AssertFail).
Proof. exact (circle_ops_spec s t k). Qed.
Print Assumptions C55_operators_circle.
Theorem C55_equality_circle (a b : Circle R) : (circle_eqb a b = true <-> a = b) /\ circle_neqb a b = negb (circle_eqb a b).
Proof. exact (circle_eqb_spec a b). Qed.
Print Assumptions C55_equality_circle.
(** C55. Making a circle with a negative radius is caught; One is the unit circle. *)
Theorem C55_makers_circle (p : Vec2 R) (r : R) :
  (0 <= r -> circle_of p r = Ok (mkCircle p r)) /\ (r < 0 -> circle_of p r = AssertFail) /\
  (forall q, indisc circle_one q <-> norm2 q <= 1).
Proof. exact (circle_makers p r). Qed.
Print Assumptions C55_makers_circle.
(** C55. contains(point) is membership. *)
Theorem C55_contains_sphere (s : Sphere R) (p : Vec3 R) : sphere_contains s p = true <-> inball s p.
Proof. exact (sphere_contains_spec s p). Qed.
Print Assumptions C55_contains_sphere.
(** C55. contains(sphere) is inclusion. *)
Theorem C55_includes_sphere (s o : Sphere R) : 0 <= sradius o ->
  sphere_contains_sphere s o = true <-> included (inball o) (inball s).
Proof. exact (sphere_contains_sphere_spec s o). Qed.
Print Assumptions C55_includes_sphere.
(** C55. intersects(sphere) is having a common point. *)
Theorem C55_intersects_sphere (s o : Sphere R) : 0 <= sradius s -> 0 <= sradius o ->
  sphere_intersects s o = true <-> meets (inball s) (inball o).
Proof. exact (sphere_intersects_spec s o). Qed.
Print Assumptions C55_intersects_sphere.
(** C55. intersects(hit, t, sphere): the same decision; t is how deep the balls
    overlap; hit is the point of the other surface towards the center of this
    one, and is in this ball unless its center is deep inside the other. *)
Theorem C55_hit_sphere (s o : Sphere R) : 0 <= sradius s -> 0 <= sradius o ->
  (sphere_intersects_at s o <> None <-> meets (inball s) (inball o)) /\
  (forall hit t, sphere_intersects_at s o = Some (hit, t) ->
     t = sradius s + sradius o - dist3 (scenter s) (scenter o) /\ 0 <= t /\
     (scenter s = scenter o -> hit = scenter o) /\
     (scenter s <> scenter o -> dist3 (scenter o) hit = sradius o /\
        exists k, 0 <= k /\ hit = along3 (scenter o) (minus3 (scenter s) (scenter o)) k) /\
     (sradius o <= dist3 (scenter s) (scenter o) -> inball s hit)).
Proof. exact (sphere_intersects_at_spec s o). Qed.
Print Assumptions C55_hit_sphere.
Example C55_hit_sphere_case : exists p, sphere_intersects_at (mkSphere (mkV3 2 0 0) 2) (mkSphere (zero3) 1) = Some (p, 1).
Proof. exact sphere_hit_case. Qed.
(** C55. The sphere of count points, contiguous or at a stride. *)
Theorem C55_points_sphere (a : arr (Vec3 R)) (count : Z) (s : nat) (f : nat -> Vec3 R) :
  ((0 < count)%Z -> (0 < s)%nat -> points_of a (Z.to_nat count) s f ->
     exists b, sphere_set_points_stride count a s = Ok b /\ around3 (Z.to_nat count) f b) /\
  ((0 < count)%Z -> points_of a (Z.to_nat count) 1 f ->
     exists b, sphere_set_points count a = Ok b /\ around3 (Z.to_nat count) f b) /\
  ((count <= 0)%Z -> sphere_set_points_stride count a s = AssertFail /\ sphere_set_points count a = AssertFail) /\
  sphere_set_points_stride count a 0 = AssertFail.
Proof. exact (sphere_points_spec a count s f). Qed.
Print Assumptions C55_points_sphere.
Example C55_points_sphere_case : points_of (arr_of 3 (fun i => mkV3 (INR i) (2 * INR i) 1)) 3 1 (fun i => mkV3 (INR i) (2 * INR i) 1).
Proof. intros i H. rewrite PeanoNat.Nat.mul_1_r. split; [exact H|reflexivity]. Qed.
(** C55. Operators move the center and scale the radius. A negative radius is
    caught by the operators that make a new sphere, not by the assignments. *)
Theorem C55_operators_sphere (s : Sphere R) (t : Vec3 R) (k : R) : 0 <= sradius s ->
  sphere_plus s t = Ok (mkSphere (plus3 (scenter s) t) (sradius s)) /\ sphere_minus s t = Ok (mkSphere (minus3 (scenter s) t) (sradius s)) /\
  sphere_addAssign s t = mkSphere (plus3 (scenter s) t) (sradius s) /\ sphere_subAssign s t = mkSphere (minus3 (scenter s) t) (sradius s) /\
  sphere_mulAssign s k = mkSphere (scenter s) (k * sradius s) /\
  (0 <= k -> sphere_times s k = Ok (mkSphere (scenter s) (k * sradius s))) /\
  (k < 0 -> 0 < sradius s -> sphere_times s k = AssertFail) /\
  (k <> 0 -> sphere_divAssign s k = Ok (mkSphere (scenter s) (sradius s / k))) /\
  (0 < k -> sphere_div s k = Ok (mkSphere (scenter s) (sradius s / k))) /\
  (k < 0 -> 0 < sradius s -> sphere_div s k = AssertFail) /\
  (k = 0 -> sphere_div s k = AssertFail /\ sphere_divAssign s k = AssertFail).
Proof. exact (sphere_ops_spec s t k). Qed.
Print Assumptions C55_operators_sphere.
Theorem C55_equality_sphere (a b : Sphere R) : (sphere_eqb a b = true <-> a = b) /\ sphere_neqb a b = negb (sphere_eqb a b).
Proof. exact (sphere_eqb_spec a b). Qed.
Print Assumptions C55_equality_sphere.
(** C55. Making a sphere with a negative radius is caught; One is the unit sphere. *)
Theorem C55_makers_sphere (p : Vec3 R) (r : R) :
  (0 <= r -> sphere_of p r = Ok (mkSphere p r)) /\ (r < 0 -> sphere_of p r = AssertFail) /\
  (forall q, inball sphere_one q <-> norm3 q <= 1).
Proof. exact (sphere_makers p r). Qed.
Print Assumptions C55_makers_sphere.

(** C56. A segment that starts strictly outside: intersects(line) is true exactly
    when the segment meets the ball. Partial: a segment that starts inside, or
    whose ends are equal, or that starts on the sphere and leaves it, is
    reported not to intersect (below). *)
Theorem C56_decides_partial (s : Sphere R) (l : Line3 R) : 0 <= sradius s -> sradius s < dist3 (scenter s) (lstart3 l) ->
  sphere_intersects_line s l = true <-> exists p, insegment3 l p /\ inball s p.
Proof. exact (segment_decides s l). Qed.
Print Assumptions C56_decides_partial.
(** C56. A reported point is on the segment and on the sphere, t is its
    parameter, and no point of the line before it is in the ball. *)
Theorem C56_hit (s : Sphere R) (l : Line3 R) (hit : Vec3 R) (t : R) : 0 <= sradius s ->
  sphere_intersects_line_at s l = Some (hit, t) ->
  hit = along3 (lstart3 l) (dir3 l) t /\ 0 <= t <= 1 /\ dist3 (scenter s) hit = sradius s /\
  (forall u, inball s (along3 (lstart3 l) (dir3 l) u) -> t <= u).
Proof. exact (segment_hit s l hit t). Qed.
Print Assumptions C56_hit.
(** C56. The three functions agree. *)
Theorem C56_agree (s : Sphere R) (l : Line3 R) :
  sphere_intersects_line s l = (match sphere_intersects_line_at s l with Some _ => true | None => false end) /\
  sphere_hits_line s l = sphere_intersects_line_at s l.
Proof. exact (intersects_line_same s l). Qed.
Print Assumptions C56_agree.
(** C56. Starting strictly inside, and equal ends. *)
Theorem C56_inside (s : Sphere R) (l : Line3 R) : 0 <= sradius s -> dist3 (scenter s) (lstart3 l) < sradius s ->
  sphere_intersects_line s l = false.
Proof. exact (segment_inside s l). Qed.
Print Assumptions C56_inside.
Theorem C56_null (s : Sphere R) (p : Vec3 R) : sphere_intersects_line s (mkLine3 p p) = false.
Proof. exact (segment_null s p). Qed.
Print Assumptions C56_null.
(** C56. Starting on the sphere: reported, at t = 0, exactly when it does not
    go away from the center at first. *)
Theorem C56_on (s : Sphere R) (l : Line3 R) : dist3 (scenter s) (lstart3 l) = sradius s -> lstart3 l <> lend3 l ->
  (sphere_intersects_line s l = true <-> dot3 (dir3 l) (minus3 (lstart3 l) (scenter s)) <= 0) /\
  (forall hit t, sphere_intersects_line_at s l = Some (hit, t) -> t = 0 /\ hit = lstart3 l).
Proof. exact (segment_on s l). Qed.
Print Assumptions C56_on.
Theorem C56_refuted : exists (s : Sphere R) (l : Line3 R) p, 0 < sradius s /\ insegment3 l p /\
  dist3 (scenter s) p = sradius s /\ sphere_intersects_line s l = false.
Proof. exact segment_refuted. Qed.
Print Assumptions C56_refuted.
Example C56_case : exists hit, sphere_intersects_line_at (mkSphere zero3 1) (mkLine3 (mkV3 (-2) 0 0) (mkV3 2 0 0)) = Some (hit, 1/4).
Proof. exact segment_case. Qed.
