(** Geometric tests in IEEE-754 binary numbers of any format (C92): they are
    right for figures and points away from the boundary, and the theorems say
    how far away is enough. The figures [num_...] are the exact figures whose
    coordinates are the given numbers; the margins are in Spec/MarginSpec.v. *)
From Coq Require Import Reals ZArith List Lra Lia Bool.
From Flocq Require Import Core.Core IEEE754.BinarySingleNaN.
From Verif.Base Require Import Outcome Array Scalar ScalarR ScalarF ScalarF32.
From Verif.Model Require Import Types Functions Vec Shapes Box Ball Plane.
From Verif.Spec Require Import VecSpec GeomSpec LineSpec IeeeSpec WholeSpec MarginSpec.
From Verif.Proof Require Import Ieee IeeeWitness IeeeTests IeeeSides IeeeTestCases.
Import ListNotations.
Local Open Scope R_scope.

(** C92. CenteredAABB2: a point, box or meeting box of exact geometry is
    always reported, for all finite values. *)
Theorem C92_boxes_complete2 {p e : Z} {Hp : Prec_gt_0 p} {He : Prec_lt_emax p e} (O : RealOps (binary_float p e)) (I : ieee O)
  (b c : CAABB2 (binary_float p e)) q : finite_cbox2 b -> finite_cbox2 c -> finite2 q ->
  (incbox2 (num_cbox2 b) (num2 q) -> caabb2_contains b q = true) /\
  (nonempty (incbox2 (num_cbox2 c)) -> included (incbox2 (num_cbox2 c)) (incbox2 (num_cbox2 b)) -> caabb2_contains_box b c = true) /\
  (meets (incbox2 (num_cbox2 b)) (incbox2 (num_cbox2 c)) -> caabb2_intersects b c = true).
Proof. exact (boxes_complete2 O I b c q). Qed.
Print Assumptions C92_boxes_complete2.
(** C92. CenteredAABB2: an answer yes is right up to one rounding of the
    compared bounds. *)
Theorem C92_boxes_sound2 {p e : Z} {Hp : Prec_gt_0 p} {He : Prec_lt_emax p e} (O : RealOps (binary_float p e)) (I : ieee O)
  (b c : CAABB2 (binary_float p e)) q : finite_cbox2 b -> finite_cbox2 c -> finite2 q ->
  (caabb2_contains b q = true -> almost_within2 p (inf2 (corners2 (num_cbox2 b))) (sup2 (corners2 (num_cbox2 b))) (num2 q)) /\
  (corners_below2 (huge e) (corners2 (num_cbox2 b)) ->
   (caabb2_contains_box b c = true -> almost_sub2 p (corners2 (num_cbox2 c)) (corners2 (num_cbox2 b))) /\
   (caabb2_intersects b c = true -> almost_meet2 p (corners2 (num_cbox2 b)) (corners2 (num_cbox2 c)))).
Proof. exact (boxes_sound2 O I b c q). Qed.
Print Assumptions C92_boxes_sound2.
Example C92_boxes2_case {p e : Z} {Hp : Prec_gt_0 p} {He : Prec_lt_emax p e} (O : RealOps (binary_float p e)) (I : ieee O)
  : let b := cbox2_ O 0 0 4 in let c := cbox2_ O 1 1 1 in let q := pt2 O 2 1 in
  (finite_cbox2 b /\ finite_cbox2 c /\ finite2 q) /\ incbox2 (num_cbox2 b) (num2 q) /\ nonempty (incbox2 (num_cbox2 c)) /\
  included (incbox2 (num_cbox2 c)) (incbox2 (num_cbox2 b)) /\ meets (incbox2 (num_cbox2 b)) (incbox2 (num_cbox2 c)) /\ corners_below2 (huge e) (corners2 (num_cbox2 b)).
Proof. exact (boxes2_case O I). Qed.

(** C92. CenteredAABB3, and the sphere test of AABB3. *)
Theorem C92_boxes_complete3 {p e : Z} {Hp : Prec_gt_0 p} {He : Prec_lt_emax p e} (O : RealOps (binary_float p e)) (I : ieee O)
  (b c : CAABB3 (binary_float p e)) (d : AABB3 (binary_float p e)) q s : finite_cbox3 b -> finite_cbox3 c -> finite_box3 d -> finite3 q -> finite_sphere s ->
  (incbox3 (num_cbox3 b) (num3 q) -> caabb3_contains b q = true) /\
  (nonempty (incbox3 (num_cbox3 c)) -> included (incbox3 (num_cbox3 c)) (incbox3 (num_cbox3 b)) -> caabb3_contains_box b c = true) /\
  (meets (incbox3 (num_cbox3 b)) (incbox3 (num_cbox3 c)) -> caabb3_intersects b c = true) /\
  (0 <= num (sradius s) -> included (inball (num_sphere s)) (incbox3 (num_cbox3 b)) -> caabb3_contains_sphere b s = true) /\
  (0 <= num (sradius s) -> included (inball (num_sphere s)) (inbox3 (num_box3 d)) -> aabb3_contains_sphere d s = true).
Proof. exact (boxes_complete3 O I b c d q s). Qed.
Print Assumptions C92_boxes_complete3.
(** C92. CenteredAABB3, and the sphere test of AABB3: yes is right up to rounding. *)
Theorem C92_boxes_sound3 {p e : Z} {Hp : Prec_gt_0 p} {He : Prec_lt_emax p e} (O : RealOps (binary_float p e)) (I : ieee O)
  (b c : CAABB3 (binary_float p e)) (d : AABB3 (binary_float p e)) q s : finite_cbox3 b -> finite_cbox3 c -> finite_box3 d -> finite3 q -> finite_sphere s ->
  (caabb3_contains b q = true -> almost_within3 p (inf3 (corners3 (num_cbox3 b))) (sup3 (corners3 (num_cbox3 b))) (num3 q)) /\
  (aabb3_contains_sphere d s = true -> almost_sub3 p (box_of_ball (num_sphere s)) (num_box3 d)) /\
  (corners_below3 (huge e) (corners3 (num_cbox3 b)) ->
   (caabb3_contains_box b c = true -> almost_sub3 p (corners3 (num_cbox3 c)) (corners3 (num_cbox3 b))) /\
   (caabb3_contains_sphere b s = true -> almost_sub3 p (box_of_ball (num_sphere s)) (corners3 (num_cbox3 b))) /\
   (caabb3_intersects b c = true -> almost_meet3 p (corners3 (num_cbox3 b)) (corners3 (num_cbox3 c)))).
Proof. exact (boxes_sound3 O I b c d q s). Qed.
Print Assumptions C92_boxes_sound3.
Example C92_boxes3_case {p e : Z} {Hp : Prec_gt_0 p} {He : Prec_lt_emax p e} (O : RealOps (binary_float p e)) (I : ieee O)
  : let b := cbox3_ O 0 0 0 4 in let c := cbox3_ O 1 1 1 1 in let d := mkAABB3 (pt3 O 0 0 0) (pt3 O 2 2 2) in let q := pt3 O 1 2 3 in let s := ball O 1 1 1 1 in
  (finite_cbox3 b /\ finite_cbox3 c /\ finite_box3 d /\ finite3 q /\ finite_sphere s) /\ incbox3 (num_cbox3 b) (num3 q) /\ nonempty (incbox3 (num_cbox3 c)) /\
  included (incbox3 (num_cbox3 c)) (incbox3 (num_cbox3 b)) /\ meets (incbox3 (num_cbox3 b)) (incbox3 (num_cbox3 c)) /\
  0 <= num (sradius s) /\ included (inball (num_sphere s)) (incbox3 (num_cbox3 b)) /\ included (inball (num_sphere s)) (inbox3 (num_box3 d)) /\ corners_below3 (huge e) (corners3 (num_cbox3 b)).
Proof. exact (boxes3_case O I). Qed.

(** C92. distance of points, for all finite coordinates whose distance squared
    does not overflow. *)
Theorem C92_distance {p e : Z} {Hp : Prec_gt_0 p} {He : Prec_lt_emax p e} (O : RealOps (binary_float p e)) (I : ieee O)
  :
  (forall a b : Vec2 (binary_float p e), finite2 a -> finite2 b -> let d := dist2 (num2 a) (num2 b) in far_ok e d ->
     finite (distance2 a b) /\ Rabs (num (distance2 a b) - d) <= far_slack p e d) /\
  (forall a b : Vec3 (binary_float p e), finite3 a -> finite3 b -> let d := dist3 (num3 a) (num3 b) in far_ok e d ->
     finite (distance3 a b) /\ Rabs (num (distance3 a b) - d) <= far_slack p e d).
Proof. exact (distance_any O I). Qed.
Print Assumptions C92_distance.
(** C92. A point in the circle shrunk by the margin is reported, and a reported
    point is in the circle grown by it. *)
Theorem C92_point_in_circle {p e : Z} {Hp : Prec_gt_0 p} {He : Prec_lt_emax p e} (O : RealOps (binary_float p e)) (I : ieee O)
  (s : Circle (binary_float p e)) q : finite_circle s -> finite2 q -> let d := dist2 (num2 (ccenter s)) (num2 q) in far_ok e d ->
  (indisc (grow2 (num_circle s) (- far_slack p e d)) (num2 q) -> circle_contains s q = true) /\
  (circle_contains s q = true -> indisc (grow2 (num_circle s) (far_slack p e d)) (num2 q)).
Proof. exact (contains_disc O I s q). Qed.
Print Assumptions C92_point_in_circle.
(** C92. A circle in a circle. *)
Theorem C92_circle_in_circle {p e : Z} {Hp : Prec_gt_0 p} {He : Prec_lt_emax p e} (O : RealOps (binary_float p e)) (I : ieee O)
  (s o : Circle (binary_float p e)) : finite_circle s -> finite_circle o -> 0 <= num (cradius o) ->
  let d := dist2 (num2 (ccenter s)) (num2 (ccenter o)) in let m := far_slack p e d + unit p * Rabs (num (cradius s) - num (cradius o)) in far_ok e d ->
  (included (indisc (grow2 (num_circle o) m)) (indisc (num_circle s)) -> circle_contains_circle s o = true) /\
  (circle_contains_circle s o = true -> included (indisc (num_circle o)) (indisc (grow2 (num_circle s) m))).
Proof. exact (disc_in_disc O I s o). Qed.
Print Assumptions C92_circle_in_circle.
(** C92. Circles that meet. *)
Theorem C92_circles_meet {p e : Z} {Hp : Prec_gt_0 p} {He : Prec_lt_emax p e} (O : RealOps (binary_float p e)) (I : ieee O)
  (s o : Circle (binary_float p e)) : finite_circle s -> finite_circle o -> 0 <= num (cradius s) -> 0 <= num (cradius o) ->
  let d := dist2 (num2 (ccenter s)) (num2 (ccenter o)) in let r := num (cradius s) + num (cradius o) in let m := meet_slack p e r in far_ok e d -> far_ok e r ->
  (meets (indisc (grow2 (num_circle s) (- m))) (indisc (num_circle o)) -> circle_intersects s o = true) /\
  (circle_intersects s o = true -> meets (indisc (grow2 (num_circle s) m)) (indisc (num_circle o))).
Proof. exact (discs_meet O I s o). Qed.
Print Assumptions C92_circles_meet.
Example C92_circles_case {p e : Z} {Hp : Prec_gt_0 p} {He : Prec_lt_emax p e} (O : RealOps (binary_float p e)) (I : ieee O)
  : let s := disc O 0 0 3 in let o := disc O 1 1 1 in let q := pt2 O 1 1 in
  let d := dist2 (num2 (ccenter s)) (num2 q) in let m := far_slack p e d + unit p * Rabs (num (cradius s) - num (cradius o)) in let r := num (cradius s) + num (cradius o) in
  (finite_circle s /\ finite_circle o /\ finite2 q /\ ccenter o = q /\ num (cradius s) = 3 /\ num (cradius o) = 1) /\ (far_ok e d /\ far_ok e r) /\
  indisc (grow2 (num_circle s) (- far_slack p e d)) (num2 q) /\ included (indisc (grow2 (num_circle o) m)) (indisc (num_circle s)) /\
  meets (indisc (grow2 (num_circle s) (- meet_slack p e r))) (indisc (num_circle o)).
Proof. exact (discs_case O I). Qed.

(** C92. A point in a sphere. *)
Theorem C92_point_in_sphere {p e : Z} {Hp : Prec_gt_0 p} {He : Prec_lt_emax p e} (O : RealOps (binary_float p e)) (I : ieee O)
  (s : Sphere (binary_float p e)) q : finite_sphere s -> finite3 q -> let d := dist3 (num3 (scenter s)) (num3 q) in far_ok e d ->
  (inball (grow3 (num_sphere s) (- far_slack p e d)) (num3 q) -> sphere_contains s q = true) /\
  (sphere_contains s q = true -> inball (grow3 (num_sphere s) (far_slack p e d)) (num3 q)).
Proof. exact (contains_ball O I s q). Qed.
Print Assumptions C92_point_in_sphere.
(** C92. A sphere in a sphere. *)
Theorem C92_sphere_in_sphere {p e : Z} {Hp : Prec_gt_0 p} {He : Prec_lt_emax p e} (O : RealOps (binary_float p e)) (I : ieee O)
  (s o : Sphere (binary_float p e)) : finite_sphere s -> finite_sphere o -> 0 <= num (sradius o) ->
  let d := dist3 (num3 (scenter s)) (num3 (scenter o)) in let m := far_slack p e d + unit p * Rabs (num (sradius s) - num (sradius o)) in far_ok e d ->
  (included (inball (grow3 (num_sphere o) m)) (inball (num_sphere s)) -> sphere_contains_sphere s o = true) /\
  (sphere_contains_sphere s o = true -> included (inball (num_sphere o)) (inball (grow3 (num_sphere s) m))).
Proof. exact (ball_in_ball O I s o). Qed.
Print Assumptions C92_sphere_in_sphere.
(** C92. Spheres that meet. *)
Theorem C92_spheres_meet {p e : Z} {Hp : Prec_gt_0 p} {He : Prec_lt_emax p e} (O : RealOps (binary_float p e)) (I : ieee O)
  (s o : Sphere (binary_float p e)) : finite_sphere s -> finite_sphere o -> 0 <= num (sradius s) -> 0 <= num (sradius o) ->
  let d := dist3 (num3 (scenter s)) (num3 (scenter o)) in let r := num (sradius s) + num (sradius o) in let m := meet_slack p e r in far_ok e d -> far_ok e r ->
  (meets (inball (grow3 (num_sphere s) (- m))) (inball (num_sphere o)) -> sphere_intersects s o = true) /\
  (sphere_intersects s o = true -> meets (inball (grow3 (num_sphere s) m)) (inball (num_sphere o))).
Proof. exact (balls_meet O I s o). Qed.
Print Assumptions C92_spheres_meet.
Example C92_spheres_case {p e : Z} {Hp : Prec_gt_0 p} {He : Prec_lt_emax p e} (O : RealOps (binary_float p e)) (I : ieee O)
  : let s := ball O 0 0 0 3 in let o := ball O 1 1 1 1 in let q := pt3 O 1 1 1 in
  let d := dist3 (num3 (scenter s)) (num3 q) in let m := far_slack p e d + unit p * Rabs (num (sradius s) - num (sradius o)) in let r := num (sradius s) + num (sradius o) in
  (finite_sphere s /\ finite_sphere o /\ finite3 q /\ scenter o = q /\ num (sradius s) = 3 /\ num (sradius o) = 1) /\ (far_ok e d /\ far_ok e r) /\
  inball (grow3 (num_sphere s) (- far_slack p e d)) (num3 q) /\ included (inball (grow3 (num_sphere o) m)) (inball (num_sphere s)) /\
  meets (inball (grow3 (num_sphere s) (- meet_slack p e r))) (inball (num_sphere o)).
Proof. exact (balls_case O I). Qed.

(** C92. distance of a point to a plane, its sign, and contains with a tolerance. *)
Theorem C92_plane_side {p e : Z} {Hp : Prec_gt_0 p} {He : Prec_lt_emax p e} (O : RealOps (binary_float p e)) (I : ieee O)
  (s : Plane (binary_float p e)) q (tol : (binary_float p e)) : finite_plane s -> finite3 q -> finite tol -> side_size e (num_plane s) (num3 q) <= huge e ->
  let d := side (num_plane s) (num3 q) in let m := side_slack p e (num_plane s) (num3 q) in
  (finite (plane_distance s q) /\ Rabs (num (plane_distance s q) - d) <= m) /\
  (m < d -> 0 < num (plane_distance s q)) /\ (d < - m -> num (plane_distance s q) < 0) /\
  (Rabs d + m <= num tol -> plane_contains s q tol = true) /\ (plane_contains s q tol = true -> Rabs d <= num tol + m).
Proof. exact (plane_side O I s q tol). Qed.
Print Assumptions C92_plane_side.
(** C92. A segment and a plane: [hits] asks for a crossing from the front to the
    back, [intersects] for a crossing either way. *)
Theorem C92_plane_line {p e : Z} {Hp : Prec_gt_0 p} {He : Prec_lt_emax p e} (O : RealOps (binary_float p e)) (I : ieee O)
  (s : Plane (binary_float p e)) (l : Line3 (binary_float p e)) : finite_plane s -> finite3 (lstart3 l) -> finite3 (lend3 l) ->
  side_size e (num_plane s) (num3 (lstart3 l)) <= huge e -> side_size e (num_plane s) (num3 (lend3 l)) <= huge e ->
  let a := side (num_plane s) (num3 (lstart3 l)) in let b := side (num_plane s) (num3 (lend3 l)) in
  let ma := side_slack p e (num_plane s) (num3 (lstart3 l)) in let mb := side_slack p e (num_plane s) (num3 (lend3 l)) in
  (ma <= a -> b < - mb -> plane_hits_line s l <> None) /\ (plane_hits_line s l <> None -> - ma <= a /\ b < mb) /\
  (ma < a -> b < - mb -> plane_intersects_line s l <> None) /\ (a < - ma -> mb < b -> plane_intersects_line s l <> None) /\
  (ma < a -> mb < b -> plane_intersects_line s l = None) /\ (a < - ma -> b < - mb -> plane_intersects_line s l = None).
Proof. exact (plane_line O I s l). Qed.
Print Assumptions C92_plane_line.
(** C92. A sphere and a plane. *)
Theorem C92_plane_sphere {p e : Z} {Hp : Prec_gt_0 p} {He : Prec_lt_emax p e} (O : RealOps (binary_float p e)) (I : ieee O)
  (s : Plane (binary_float p e)) (c : Sphere (binary_float p e)) : finite_plane s -> finite_sphere c -> side_size e (num_plane s) (num3 (scenter c)) <= huge e ->
  let d := side (num_plane s) (num3 (scenter c)) in let m := side_slack p e (num_plane s) (num3 (scenter c)) in let r := num (sradius c) in
  (Rabs d + m <= r -> plane_intersects_sphere s c <> None) /\ (plane_intersects_sphere s c <> None -> Rabs d <= r + m) /\
  (m <= d -> d + m <= r -> plane_hits_sphere s c <> None) /\ (plane_hits_sphere s c <> None -> - m <= d <= r + m).
Proof. exact (plane_ball O I s c). Qed.
Print Assumptions C92_plane_sphere.
Example C92_planes_case {p e : Z} {Hp : Prec_gt_0 p} {He : Prec_lt_emax p e} (O : RealOps (binary_float p e)) (I : ieee O)
  : let q := pt3 O 5 7 3 in let l := mkLine3 q (pt3 O 5 7 (-2)) in let c := mkSphere q (fofZ 4) in
  let d := side (num_plane (floor1 O)) (num3 q) in let b := side (num_plane (floor1 O)) (num3 (lend3 l)) in let m := side_slack p e (num_plane (floor1 O)) (num3 q) in let mb := side_slack p e (num_plane (floor1 O)) (num3 (lend3 l)) in
  (finite_plane (floor1 O) /\ finite3 q /\ finite3 (lend3 l) /\ finite_sphere c) /\ side_size e (num_plane (floor1 O)) (num3 q) <= huge e /\ side_size e (num_plane (floor1 O)) (num3 (lend3 l)) <= huge e /\
  m < d /\ b < - mb /\ d + m <= num (sradius c).
Proof. exact (planes_case O I). Qed.

(** C92. A point in a triangle, when it is not too near to the lines of the
    sides. A yes is never far wrong. *)
Theorem C92_triangle {p e : Z} {Hp : Prec_gt_0 p} {He : Prec_lt_emax p e} (O : RealOps (binary_float p e)) (I : ieee O)
  (t : Tri2 (binary_float p e)) q : finite_tri t -> finite2 q ->
  let a := num2 (ta2 t) in let b := num2 (tb2 t) in let c := num2 (tc2 t) in let x := num2 q in
  turn_ok e a b x -> turn_ok e b c x -> turn_ok e c a x ->
  (turn_slack p e a b x < Rabs (turn a b x) -> turn_slack p e b c x < Rabs (turn b c x) -> turn_slack p e c a x < Rabs (turn c a x) ->
   (tri2_contains t q = true <-> inhull2 a b c x)) /\
  (tri2_contains t q = true ->
   (- turn_slack p e a b x <= turn a b x /\ - turn_slack p e b c x <= turn b c x /\ - turn_slack p e c a x <= turn c a x) \/
   (turn a b x <= turn_slack p e a b x /\ turn b c x <= turn_slack p e b c x /\ turn c a x <= turn_slack p e c a x)).
Proof. exact (triangle_test O I t q). Qed.
Print Assumptions C92_triangle.
Example C92_triangle_case {p e : Z} {Hp : Prec_gt_0 p} {He : Prec_lt_emax p e} (O : RealOps (binary_float p e)) (I : ieee O)
  : let t := mkTri2 (pt2 O 0 0) (pt2 O 4 0) (pt2 O 0 4) in let q := pt2 O 1 1 in
  let a := num2 (ta2 t) in let b := num2 (tb2 t) in let c := num2 (tc2 t) in let x := num2 q in
  finite_tri t /\ finite2 q /\ (turn_ok e a b x /\ turn_ok e b c x /\ turn_ok e c a x) /\
  turn_slack p e a b x < Rabs (turn a b x) /\ turn_slack p e b c x < Rabs (turn b c x) /\ turn_slack p e c a x < Rabs (turn c a x) /\ inhull2 a b c x.
Proof. exact (triangle_case O I). Qed.

