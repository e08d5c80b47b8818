(** C107: boxes, centered boxes and their balls in binary numbers of any
    format. *)
From Coq Require Import Reals ZArith List Lra Lia Bool.
From Flocq Require Import Core.Core IEEE754.BinarySingleNaN.
From Verif.Base Require Import Outcome Array Scalar ScalarR ScalarF ScalarF32.
From Verif.Model Require Import Types Functions Vec Shapes Box Ball.
From Verif.Spec Require Import VecSpec GeomSpec FloatSpec IeeeSpec MarginSpec WholeSpec QuatErrorSpec MeetErrorSpec HitErrorSpec PlaneErrorSpec.
From Verif.Proof Require Import Ieee IeeeVec IeeeWitness IeeeTestCases IeeeBoxes IeeeBoxBalls BoxErrorWitness.
Import ListNotations.
From Verif.Spec Require Import BoxErrorSpec.
Local Open Scope R_scope.

(** C107. size, center, extents and pointAt of AABB2, each within a few
    roundings. *)
Theorem C107_measures2 {p e : Z} {Hp : Prec_gt_0 p} {He : Prec_lt_emax p e} (O : RealOps (binary_float p e)) (I : ieee O)
  K (b : AABB2 (binary_float p e)) : finite_box2 b -> corners_below2 K (num_box2 b) -> 4 * K + 4 * tiny e <= huge e ->
  let lo := num2 (inf2 b) in let hi := num2 (sup2 b) in
  by_at_most2 (2 * unit p * K) (aabb2_size b) (minus2 hi lo) /\ by_at_most2 (gamma p 2 * (K + tiny e)) (aabb2_center b) (middle2 (num_box2 b)) /\ by_at_most2 (gamma p 2 * (K + tiny e)) (aabb2_extents b) (reach2 (num_box2 b)) /\
  (forall s, finite2 s -> up_to2 1 (num2 s) -> by_at_most2 (gamma p 3 * (3 * K + tiny e)) (aabb2_pointAt b s) (mkV2 (x2 lo + (x2 hi - x2 lo) * num (x2 s)) (y2 lo + (y2 hi - y2 lo) * num (y2 s)))).
Proof. exact (measures2 O I K b). Qed.
Print Assumptions C107_measures2.
(** C107. size, center, extents and pointAt of AABB3, each within a few
    roundings. *)
Theorem C107_measures3 {p e : Z} {Hp : Prec_gt_0 p} {He : Prec_lt_emax p e} (O : RealOps (binary_float p e)) (I : ieee O)
  K (b : AABB3 (binary_float p e)) : finite_box3 b -> corners_below3 K (num_box3 b) -> 4 * K + 4 * tiny e <= huge e ->
  let lo := num3 (inf3 b) in let hi := num3 (sup3 b) in
  by_at_most3 (2 * unit p * K) (aabb3_size b) (minus3 hi lo) /\ by_at_most3 (gamma p 2 * (K + tiny e)) (aabb3_center b) (middle3 (num_box3 b)) /\ by_at_most3 (gamma p 2 * (K + tiny e)) (aabb3_extents b) (reach3 (num_box3 b)) /\
  (forall s, finite3 s -> up_to3 1 (num3 s) -> by_at_most3 (gamma p 3 * (3 * K + tiny e)) (aabb3_pointAt b s) (mkV3 (x3 lo + (x3 hi - x3 lo) * num (x3 s)) (y3 lo + (y3 hi - y3 lo) * num (y3 s)) (z3 lo + (z3 hi - z3 lo) * num (z3 s)))).
Proof. exact (measures3 O I K b). Qed.
Print Assumptions C107_measures3.
(** C107. area of AABB2. *)
Theorem C107_area {p e : Z} {Hp : Prec_gt_0 p} {He : Prec_lt_emax p e} (O : RealOps (binary_float p e)) (I : ieee O)
  K (b : AABB2 (binary_float p e)) : finite_box2 b -> corners_below2 K (num_box2 b) -> 4 * K + 4 * tiny e <= huge e ->
  let S := minus2 (num2 (sup2 b)) (num2 (inf2 b)) in let m := Rabs (x2 S) * Rabs (y2 S) + tiny e in m <= huge e ->
  by_at_most (gamma p 3 * m) (aabb2_area b) (x2 S * y2 S).
Proof. exact (area_near O I K b). Qed.
Print Assumptions C107_area.
(** C107. volume of AABB3. *)
Theorem C107_volume {p e : Z} {Hp : Prec_gt_0 p} {He : Prec_lt_emax p e} (O : RealOps (binary_float p e)) (I : ieee O)
  K (b : AABB3 (binary_float p e)) : finite_box3 b -> corners_below3 K (num_box3 b) -> 4 * K + 4 * tiny e <= huge e ->
  let S := minus3 (num3 (sup3 b)) (num3 (inf3 b)) in let m := Rabs (x3 S) * Rabs (y3 S) + tiny e in m <= huge e -> m * Rabs (z3 S) + tiny e <= huge e ->
  by_at_most (gamma p 5 * (m * Rabs (z3 S) + tiny e)) (aabb3_volume b) (x3 S * y3 S * z3 S).
Proof. exact (volume_near O I K b). Qed.
Print Assumptions C107_volume.
(** C107. The center is in the box, exactly. *)
Theorem C107_center_inside2 {p e : Z} {Hp : Prec_gt_0 p} {He : Prec_lt_emax p e} (O : RealOps (binary_float p e)) (I : ieee O)
  K (b : AABB2 (binary_float p e)) : finite_box2 b -> corners_below2 K (num_box2 b) -> 4 * K + 4 * tiny e <= huge e -> proper2 (num_box2 b) ->
  aabb2_contains b (aabb2_center b) = true.
Proof. exact (center_inside2 O I K b). Qed.
Print Assumptions C107_center_inside2.
(** C107. A point in a box stays in it when both are moved, exactly. *)
Theorem C107_moved_inside2 {p e : Z} {Hp : Prec_gt_0 p} {He : Prec_lt_emax p e} (O : RealOps (binary_float p e)) (I : ieee O)
  (b : AABB2 (binary_float p e)) (q s : Vec2 (binary_float p e)) : finite_box2 b -> finite2 q -> finite2 s -> aabb2_contains b q = true ->
  aabb2_contains (aabb2_plus b s) (v2_add q s) = true /\ aabb2_contains (aabb2_minus b s) (v2_sub q s) = true.
Proof. exact (moved_inside2 O I b q s). Qed.
Print Assumptions C107_moved_inside2.
(** C107. AABB2 times a number. *)
Theorem C107_scaled2 {p e : Z} {Hp : Prec_gt_0 p} {He : Prec_lt_emax p e} (O : RealOps (binary_float p e)) (I : ieee O)
  K (b : AABB2 (binary_float p e)) (k : (binary_float p e)) : finite_box2 b -> corners_below2 K (num_box2 b) -> 4 * K + 4 * tiny e <= huge e -> finite k -> let M := (K + 2 * tiny e) * (1 + Rabs (num k)) in M <= huge e ->
  finite_box2 (aabb2_times b k) /\ faces_by2 (gamma p 4 * M) (num_box2 (aabb2_times b k)) (stretched2 (num k) (num_box2 b)).
Proof. exact (scaled2 O I K b k). Qed.
Print Assumptions C107_scaled2.
(** C107. outerCircle: near the smallest ball around the box, and, grown a little,
    it holds the whole box. *)
Theorem C107_outer2 {p e : Z} {Hp : Prec_gt_0 p} {He : Prec_lt_emax p e} (O : RealOps (binary_float p e)) (I : ieee O)
  (K : R) (HK : 16 * ((K + 1) * (K + 1)) <= huge e) (b : AABB2 (binary_float p e)) : finite_box2 b -> corners_below2 K (num_box2 b) -> let s := aabb2_outerCircle b in
  by_at_most2 (gamma p 2 * (K + tiny e)) (ccenter s) (middle2 (num_box2 b)) /\ by_at_most (11 * unit p * (K + tiny e) + 2 * sqrt (tiny e)) (cradius s) (norm2 (reach2 (num_box2 b))) /\
  forall q, inbox2 (num_box2 b) q -> indisc (grow2 (num_circle s) (15 * unit p * (K + tiny e) + 2 * sqrt (tiny e))) q.
Proof. exact (outer2 O I K HK b). Qed.
Print Assumptions C107_outer2.
(** C107. innerCircle: never an assertion failure, near the largest ball in the
    box, and, shrunk a little, it is in the box. *)
Theorem C107_inner2 {p e : Z} {Hp : Prec_gt_0 p} {He : Prec_lt_emax p e} (O : RealOps (binary_float p e)) (I : ieee O)
  (K : R) (HK : 4 * K + 4 * tiny e <= huge e) (b : AABB2 (binary_float p e)) : finite_box2 b -> corners_below2 K (num_box2 b) -> proper2 (num_box2 b) -> exists s, aabb2_innerCircle b = Ok s /\
  by_at_most2 (gamma p 2 * (K + tiny e)) (ccenter s) (middle2 (num_box2 b)) /\ (let r := reach2 (num_box2 b) in by_at_most (gamma p 2 * (K + tiny e)) (cradius s) (Rmin (x2 r) (y2 r))) /\
  forall q, indisc (grow2 (num_circle s) (- (2 * (gamma p 2 * (K + tiny e))))) q -> inbox2 (num_box2 b) q.
Proof. exact (inner2 O I K HK b). Qed.
Print Assumptions C107_inner2.
(** C107. The center is in the box, exactly. *)
Theorem C107_center_inside3 {p e : Z} {Hp : Prec_gt_0 p} {He : Prec_lt_emax p e} (O : RealOps (binary_float p e)) (I : ieee O)
  K (b : AABB3 (binary_float p e)) : finite_box3 b -> corners_below3 K (num_box3 b) -> 4 * K + 4 * tiny e <= huge e -> proper3 (num_box3 b) ->
  aabb3_contains b (aabb3_center b) = true.
Proof. exact (center_inside3 O I K b). Qed.
Print Assumptions C107_center_inside3.
(** C107. A point in a box stays in it when both are moved, exactly. *)
Theorem C107_moved_inside3 {p e : Z} {Hp : Prec_gt_0 p} {He : Prec_lt_emax p e} (O : RealOps (binary_float p e)) (I : ieee O)
  (b : AABB3 (binary_float p e)) (q s : Vec3 (binary_float p e)) : finite_box3 b -> finite3 q -> finite3 s -> aabb3_contains b q = true ->
  aabb3_contains (aabb3_plus b s) (v3_add q s) = true /\ aabb3_contains (aabb3_minus b s) (v3_sub q s) = true.
Proof. exact (moved_inside3 O I b q s). Qed.
Print Assumptions C107_moved_inside3.
(** C107. AABB3 times a number. *)
Theorem C107_scaled3 {p e : Z} {Hp : Prec_gt_0 p} {He : Prec_lt_emax p e} (O : RealOps (binary_float p e)) (I : ieee O)
  K (b : AABB3 (binary_float p e)) (k : (binary_float p e)) : finite_box3 b -> corners_below3 K (num_box3 b) -> 4 * K + 4 * tiny e <= huge e -> finite k -> let M := (K + 2 * tiny e) * (1 + Rabs (num k)) in M <= huge e ->
  finite_box3 (aabb3_times b k) /\ faces_by3 (gamma p 4 * M) (num_box3 (aabb3_times b k)) (stretched3 (num k) (num_box3 b)).
Proof. exact (scaled3 O I K b k). Qed.
Print Assumptions C107_scaled3.
(** C107. outerSphere: near the smallest ball around the box, and, grown a little,
    it holds the whole box. *)
Theorem C107_outer3 {p e : Z} {Hp : Prec_gt_0 p} {He : Prec_lt_emax p e} (O : RealOps (binary_float p e)) (I : ieee O)
  (K : R) (HK : 16 * ((K + 1) * (K + 1)) <= huge e) (b : AABB3 (binary_float p e)) : finite_box3 b -> corners_below3 K (num_box3 b) -> let s := aabb3_outerSphere b in
  by_at_most3 (gamma p 2 * (K + tiny e)) (scenter s) (middle3 (num_box3 b)) /\ by_at_most (19 * unit p * (K + tiny e) + 2 * sqrt (tiny e)) (sradius s) (norm3 (reach3 (num_box3 b))) /\
  forall q, inbox3 (num_box3 b) q -> inball (grow3 (num_sphere s) (25 * unit p * (K + tiny e) + 2 * sqrt (tiny e))) q.
Proof. exact (outer3 O I K HK b). Qed.
Print Assumptions C107_outer3.
(** C107. innerSphere: never an assertion failure, near the largest ball in the
    box, and, shrunk a little, it is in the box. *)
Theorem C107_inner3 {p e : Z} {Hp : Prec_gt_0 p} {He : Prec_lt_emax p e} (O : RealOps (binary_float p e)) (I : ieee O)
  (K : R) (HK : 4 * K + 4 * tiny e <= huge e) (b : AABB3 (binary_float p e)) : finite_box3 b -> corners_below3 K (num_box3 b) -> proper3 (num_box3 b) -> exists s, aabb3_innerSphere b = Ok s /\
  by_at_most3 (gamma p 2 * (K + tiny e)) (scenter s) (middle3 (num_box3 b)) /\ (let r := reach3 (num_box3 b) in by_at_most (gamma p 2 * (K + tiny e)) (sradius s) (Rmin (Rmin (x3 r) (y3 r)) (z3 r))) /\
  forall q, inball (grow3 (num_sphere s) (- (2 * (gamma p 2 * (K + tiny e))))) q -> inbox3 (num_box3 b) q.
Proof. exact (inner3 O I K HK b). Qed.
Print Assumptions C107_inner3.
(** Non-vacuity. *)
Example C107_box_case2 (L : Libm) : let b := mkAABB2 (int2 (O := F_ops L) 1 (-2)) (int2 (O := F_ops L) 4 8) in
  finite_box2 b /\ corners_below2 8 (num_box2 b) /\ proper2 (num_box2 b) /\ 4 * 8 + 4 * tiny 1024 <= huge 1024 /\ 16 * ((8 + 1) * (8 + 1)) <= huge 1024 /\
  (8 + 2 * tiny 1024) * (1 + Rabs (num (@fofZ F64 (F_ops L) 2))) <= huge 1024 /\ aabb2_contains (O := F_ops L) b (int2 (O := F_ops L) 2 5) = true /\ inbox2 (num_box2 b) (mkV2 4 8).
Proof. exact (box_case2 L). Qed.
(** Non-vacuity. *)
Example C107_box_case3 (L : Libm) : let b := mkAABB3 (int3 (O := F_ops L) 1 (-2) (-3)) (int3 (O := F_ops L) 4 8 7) in
  finite_box3 b /\ corners_below3 8 (num_box3 b) /\ proper3 (num_box3 b) /\ 4 * 8 + 4 * tiny 1024 <= huge 1024 /\ 16 * ((8 + 1) * (8 + 1)) <= huge 1024 /\
  (8 + 2 * tiny 1024) * (1 + Rabs (num (@fofZ F64 (F_ops L) 2))) <= huge 1024 /\ aabb3_contains (O := F_ops L) b (int3 (O := F_ops L) 2 5 0) = true /\ inbox3 (num_box3 b) (mkV3 4 8 (-3)).
Proof. exact (box_case3 L). Qed.
(** C107. CAABB2 of an AABB2. *)
Theorem C107_centered2 {p e : Z} {Hp : Prec_gt_0 p} {He : Prec_lt_emax p e} (O : RealOps (binary_float p e)) (I : ieee O)
  K (b : AABB2 (binary_float p e)) : finite_box2 b -> corners_below2 K (num_box2 b) -> 4 * K + 4 * tiny e <= huge e ->
  finite_cbox2 (caabb2_of_aabb b) /\ faces_by2 (2 * gamma p 2 * (K + tiny e)) (corners2 (num_cbox2 (caabb2_of_aabb b))) (num_box2 b).
Proof. exact (centered2 O I K b). Qed.
Print Assumptions C107_centered2.
(** C107. AABB2 of a CAABB2. *)
Theorem C107_cornered2 {p e : Z} {Hp : Prec_gt_0 p} {He : Prec_lt_emax p e} (O : RealOps (binary_float p e)) (I : ieee O)
  K (b : CAABB2 (binary_float p e)) : finite_cbox2 b -> spread_below2 K (num_cbox2 b) -> K <= huge e ->
  finite_box2 (aabb2_of_caabb b) /\ faces_by2 (unit p * K) (num_box2 (aabb2_of_caabb b)) (corners2 (num_cbox2 b)).
Proof. exact (cornered2 O I K b). Qed.
Print Assumptions C107_cornered2.
(** C107. Adding a point to a CAABB2 gives the smallest box that has both, up
    to 6 roundings. *)
Theorem C107_added2 {p e : Z} {Hp : Prec_gt_0 p} {He : Prec_lt_emax p e} (O : RealOps (binary_float p e)) (I : ieee O)
  (K : R) (HK : 8 * K + 4 * tiny e <= huge e) (b : CAABB2 (binary_float p e)) (q : Vec2 (binary_float p e)) : finite_cbox2 b -> spread_below2 K (num_cbox2 b) -> 0 <= num (x2 (cbextents2 b)) -> 0 <= num (y2 (cbextents2 b)) -> finite2 q -> up_to2 K (num2 q) ->
  finite_cbox2 (caabb2_add b q) /\ almost_bounding2 (6 * unit p * (K + tiny e)) (fun r => incbox2 (num_cbox2 b) r \/ r = num2 q) (corners2 (num_cbox2 (caabb2_add b q))).
Proof. exact (added2 O I K HK b q). Qed.
Print Assumptions C107_added2.
(** C107. outerCircle of CAABB2. *)
Theorem C107_centered_outer2 {p e : Z} {Hp : Prec_gt_0 p} {He : Prec_lt_emax p e} (O : RealOps (binary_float p e)) (I : ieee O)
  (b : CAABB2 (binary_float p e)) : finite_cbox2 b -> dot2 (num2 (cbextents2 b)) (num2 (cbextents2 b)) + 2 * tiny e <= huge e ->
  let s := caabb2_outerCircle b in let n := norm2 (num2 (cbextents2 b)) in let d := gamma p 3 * n + 2 * sqrt (tiny e) in
  ccenter s = cbcenter2 b /\ by_at_most d (cradius s) n /\ forall q, incbox2 (num_cbox2 b) q -> indisc (grow2 (num_circle s) d) q.
Proof. exact (centered_outer2 O I b). Qed.
Print Assumptions C107_centered_outer2.
(** C107. innerCircle of CAABB2, exactly. *)
Theorem C107_centered_inner2 {p e : Z} {Hp : Prec_gt_0 p} {He : Prec_lt_emax p e} (O : RealOps (binary_float p e)) (I : ieee O)
  (b : CAABB2 (binary_float p e)) : finite_cbox2 b -> 0 <= num (x2 (cbextents2 b)) -> 0 <= num (y2 (cbextents2 b)) -> exists s, caabb2_innerCircle b = Ok s /\
  ccenter s = cbcenter2 b /\ num (cradius s) = Rmin (num (x2 (cbextents2 b))) (num (y2 (cbextents2 b))) /\
  forall q, indisc (num_circle s) q -> incbox2 (num_cbox2 b) q.
Proof. exact (centered_inner2 O I b). Qed.
Print Assumptions C107_centered_inner2.
(** C107. pointAt of CAABB2. *)
Theorem C107_centered_point2 {p e : Z} {Hp : Prec_gt_0 p} {He : Prec_lt_emax p e} (O : RealOps (binary_float p e)) (I : ieee O)
  K (b : CAABB2 (binary_float p e)) (s : Vec2 (binary_float p e)) : finite_cbox2 b -> spread_below2 K (num_cbox2 b) -> K + tiny e <= huge e -> finite2 s -> up_to2 1 (num2 s) ->
  let c := num2 (cbcenter2 b) in let x := num2 (cbextents2 b) in by_at_most2 (gamma p 2 * (K + tiny e)) (caabb2_pointAt b s) (mkV2 (x2 c + x2 x * num (x2 s)) (y2 c + y2 x * num (y2 s))).
Proof. exact (centered_point2 O I K b s). Qed.
Print Assumptions C107_centered_point2.
(** C107. CAABB3 of an AABB3. *)
Theorem C107_centered3 {p e : Z} {Hp : Prec_gt_0 p} {He : Prec_lt_emax p e} (O : RealOps (binary_float p e)) (I : ieee O)
  K (b : AABB3 (binary_float p e)) : finite_box3 b -> corners_below3 K (num_box3 b) -> 4 * K + 4 * tiny e <= huge e ->
  finite_cbox3 (caabb3_of_aabb b) /\ faces_by3 (2 * gamma p 2 * (K + tiny e)) (corners3 (num_cbox3 (caabb3_of_aabb b))) (num_box3 b).
Proof. exact (centered3 O I K b). Qed.
Print Assumptions C107_centered3.
(** C107. AABB3 of a CAABB3. *)
Theorem C107_cornered3 {p e : Z} {Hp : Prec_gt_0 p} {He : Prec_lt_emax p e} (O : RealOps (binary_float p e)) (I : ieee O)
  K (b : CAABB3 (binary_float p e)) : finite_cbox3 b -> spread_below3 K (num_cbox3 b) -> K <= huge e ->
  finite_box3 (aabb3_of_caabb b) /\ faces_by3 (unit p * K) (num_box3 (aabb3_of_caabb b)) (corners3 (num_cbox3 b)).
Proof. exact (cornered3 O I K b). Qed.
Print Assumptions C107_cornered3.
(** C107. Adding a point to a CAABB3 gives the smallest box that has both, up
    to 6 roundings. *)
Theorem C107_added3 {p e : Z} {Hp : Prec_gt_0 p} {He : Prec_lt_emax p e} (O : RealOps (binary_float p e)) (I : ieee O)
  (K : R) (HK : 8 * K + 4 * tiny e <= huge e) (b : CAABB3 (binary_float p e)) (q : Vec3 (binary_float p e)) : finite_cbox3 b -> spread_below3 K (num_cbox3 b) -> 0 <= num (x3 (cbextents3 b)) -> 0 <= num (y3 (cbextents3 b)) -> 0 <= num (z3 (cbextents3 b)) -> finite3 q -> up_to3 K (num3 q) ->
  finite_cbox3 (caabb3_add b q) /\ almost_bounding3 (6 * unit p * (K + tiny e)) (fun r => incbox3 (num_cbox3 b) r \/ r = num3 q) (corners3 (num_cbox3 (caabb3_add b q))).
Proof. exact (added3 O I K HK b q). Qed.
Print Assumptions C107_added3.
(** C107. outerSphere of CAABB3. *)
Theorem C107_centered_outer3 {p e : Z} {Hp : Prec_gt_0 p} {He : Prec_lt_emax p e} (O : RealOps (binary_float p e)) (I : ieee O)
  (b : CAABB3 (binary_float p e)) : finite_cbox3 b -> dot3 (num3 (cbextents3 b)) (num3 (cbextents3 b)) + 3 * tiny e <= huge e ->
  let s := caabb3_outerSphere b in let n := norm3 (num3 (cbextents3 b)) in let d := gamma p 4 * n + 2 * sqrt (tiny e) in
  scenter s = cbcenter3 b /\ by_at_most d (sradius s) n /\ forall q, incbox3 (num_cbox3 b) q -> inball (grow3 (num_sphere s) d) q.
Proof. exact (centered_outer3 O I b). Qed.
Print Assumptions C107_centered_outer3.
(** C107. innerSphere of CAABB3, exactly. *)
Theorem C107_centered_inner3 {p e : Z} {Hp : Prec_gt_0 p} {He : Prec_lt_emax p e} (O : RealOps (binary_float p e)) (I : ieee O)
  (b : CAABB3 (binary_float p e)) : finite_cbox3 b -> 0 <= num (x3 (cbextents3 b)) -> 0 <= num (y3 (cbextents3 b)) -> 0 <= num (z3 (cbextents3 b)) -> exists s, caabb3_innerSphere b = Ok s /\
  scenter s = cbcenter3 b /\ num (sradius s) = Rmin (Rmin (num (x3 (cbextents3 b))) (num (y3 (cbextents3 b)))) (num (z3 (cbextents3 b))) /\
  forall q, inball (num_sphere s) q -> incbox3 (num_cbox3 b) q.
Proof. exact (centered_inner3 O I b). Qed.
Print Assumptions C107_centered_inner3.
(** C107. pointAt of CAABB3. *)
Theorem C107_centered_point3 {p e : Z} {Hp : Prec_gt_0 p} {He : Prec_lt_emax p e} (O : RealOps (binary_float p e)) (I : ieee O)
  K (b : CAABB3 (binary_float p e)) (s : Vec3 (binary_float p e)) : finite_cbox3 b -> spread_below3 K (num_cbox3 b) -> K + tiny e <= huge e -> finite3 s -> up_to3 1 (num3 s) ->
  let c := num3 (cbcenter3 b) in let x := num3 (cbextents3 b) in by_at_most3 (gamma p 2 * (K + tiny e)) (caabb3_pointAt b s) (mkV3 (x3 c + x3 x * num (x3 s)) (y3 c + y3 x * num (y3 s)) (z3 c + z3 x * num (z3 s))).
Proof. exact (centered_point3 O I K b s). Qed.
Print Assumptions C107_centered_point3.
(** C107. area of CAABB2. *)
Theorem C107_centered_area {p e : Z} {Hp : Prec_gt_0 p} {He : Prec_lt_emax p e} (O : RealOps (binary_float p e)) (I : ieee O)
  (b : CAABB2 (binary_float p e)) : finite_cbox2 b -> let X := num2 (cbextents2 b) in let m := (Rabs (x2 X) * Rabs (y2 X) + tiny e) * 4 + tiny e in m <= huge e ->
  by_at_most (gamma p 2 * m) (caabb2_area b) (4 * (x2 X * y2 X)).
Proof. exact (centered_area O I b). Qed.
Print Assumptions C107_centered_area.
(** C107. volume of CAABB3. *)
Theorem C107_centered_volume {p e : Z} {Hp : Prec_gt_0 p} {He : Prec_lt_emax p e} (O : RealOps (binary_float p e)) (I : ieee O)
  (b : CAABB3 (binary_float p e)) : finite_cbox3 b -> let X := num3 (cbextents3 b) in let a := Rabs (x3 X) * Rabs (y3 X) + tiny e in let m := (a * Rabs (z3 X) + tiny e) * 8 + tiny e in a <= huge e -> m <= huge e ->
  by_at_most (gamma p 3 * m) (caabb3_volume b) (8 * (x3 X * y3 X * z3 X)).
Proof. exact (centered_volume O I b). Qed.
Print Assumptions C107_centered_volume.
(** Non-vacuity. *)
Example C107_centered_case2 (L : Libm) : let b := mkCAABB2 (int2 (O := F_ops L) 1 (-2)) (int2 (O := F_ops L) 4 5) in
  finite_cbox2 b /\ spread_below2 9 (num_cbox2 b) /\ (0 <= num (x2 (cbextents2 b)) /\ 0 <= num (y2 (cbextents2 b))) /\ up_to2 9 (num2 (int2 (O := F_ops L) 9 0)) /\ 8 * 9 + 4 * tiny 1024 <= huge 1024 /\
  dot2 (num2 (cbextents2 b)) (num2 (cbextents2 b)) + 2 * tiny 1024 <= huge 1024 /\ (4 * 5 + tiny 1024) * 4 + tiny 1024 <= huge 1024 /\ caabb2_contains (O := F_ops L) b (int2 (O := F_ops L) 9 0) = false.
Proof. exact (centered_case2 L). Qed.
(** Non-vacuity. *)
Example C107_centered_case3 (L : Libm) : let b := mkCAABB3 (int3 (O := F_ops L) 1 (-2) 3) (int3 (O := F_ops L) 4 5 6) in
  finite_cbox3 b /\ spread_below3 9 (num_cbox3 b) /\ (0 <= num (x3 (cbextents3 b)) /\ 0 <= num (y3 (cbextents3 b)) /\ 0 <= num (z3 (cbextents3 b))) /\ up_to3 9 (num3 (int3 (O := F_ops L) 9 0 (-5))) /\ 8 * 9 + 4 * tiny 1024 <= huge 1024 /\
  dot3 (num3 (cbextents3 b)) (num3 (cbextents3 b)) + 3 * tiny 1024 <= huge 1024 /\ ((4 * 5 + tiny 1024) * 6 + tiny 1024) * 8 + tiny 1024 <= huge 1024 /\ caabb3_contains (O := F_ops L) b (int3 (O := F_ops L) 9 0 (-5)) = false.
Proof. exact (centered_case3 L). Qed.
(** C107. In doubles a point of a box may be outside its outer ball. *)
Theorem C107_outer_refuted (L : Libm) : (exists (b : AABB3 F64) (q : Vec3 F64), finite_box3 (p := 53) (e := 1024) b /\ aabb3_contains (O := F_ops L) b q = true /\ sphere_contains (O := F_ops L) (aabb3_outerSphere (O := F_ops L) b) q = false) /\
  (exists (b : AABB2 F64) (q : Vec2 F64), finite_box2 (p := 53) (e := 1024) b /\ aabb2_contains (O := F_ops L) b q = true /\ circle_contains (O := F_ops L) (aabb2_outerCircle (O := F_ops L) b) q = false).
Proof. exact (outer_refuted L). Qed.
Print Assumptions C107_outer_refuted.
(** C107. In doubles a point of a box may be outside its centered form. *)
Theorem C107_centered_refuted (L : Libm) : (exists (b : AABB3 F64) (q : Vec3 F64), finite_box3 (p := 53) (e := 1024) b /\ aabb3_contains (O := F_ops L) b q = true /\ caabb3_contains (O := F_ops L) (caabb3_of_aabb (O := F_ops L) b) q = false) /\
  (exists (b : AABB2 F64) (q : Vec2 F64), finite_box2 (p := 53) (e := 1024) b /\ aabb2_contains (O := F_ops L) b q = true /\ caabb2_contains (O := F_ops L) (caabb2_of_aabb (O := F_ops L) b) q = false).
Proof. exact (centered_refuted L). Qed.
Print Assumptions C107_centered_refuted.
(** C107. In doubles a point added to a centered box may be outside it. *)
Theorem C107_added_refuted (L : Libm) : (exists (b : CAABB3 F64) (q : Vec3 F64), finite_cbox3 (p := 53) (e := 1024) b /\ finite3 (p := 53) (e := 1024) q /\ caabb3_contains (O := F_ops L) (caabb3_add (O := F_ops L) b q) q = false) /\
  (exists (b : CAABB2 F64) (q : Vec2 F64), finite_cbox2 (p := 53) (e := 1024) b /\ finite2 (p := 53) (e := 1024) q /\ caabb2_contains (O := F_ops L) (caabb2_add (O := F_ops L) b q) q = false).
Proof. exact (added_refuted L). Qed.
Print Assumptions C107_added_refuted.
(** C107. In doubles pointAt with shares 1 may be outside the box. *)
Theorem C107_point_refuted (L : Libm) : (exists b : AABB3 F64, finite_box3 (p := 53) (e := 1024) b /\ aabb3_contains (O := F_ops L) b (aabb3_pointAt (O := F_ops L) b (int3 (O := F_ops L) 1 1 1)) = false) /\
  (exists b : AABB2 F64, finite_box2 (p := 53) (e := 1024) b /\ aabb2_contains (O := F_ops L) b (aabb2_pointAt (O := F_ops L) b (int2 (O := F_ops L) 1 1)) = false).
Proof. exact (point_refuted L). Qed.
Print Assumptions C107_point_refuted.
