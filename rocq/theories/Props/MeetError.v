(** C105: meeting points and distances in binary numbers of any format. *)
From Coq Require Import Reals ZArith List Lra Lia Bool.
From Flocq Require Import Core.Core IEEE754.BinarySingleNaN.
From Verif.Base Require Import Outcome Array Scalar ScalarR ScalarF ScalarF32.
From Verif.Model Require Import Types Functions Vec Shapes Plane.
From Verif.Spec Require Import VecSpec GeomSpec FloatSpec IeeeSpec MarginSpec TrigSpec ShapeSpec QuatErrorSpec PlaneErrorSpec MeetErrorSpec.
From Verif.Proof Require Import Ieee IeeeVec IeeeWitness IeeeMeet IeeeDistance MeetErrorWitness.
Import ListNotations.
From Verif.Spec Require Import LineSpec.
Local Open Scope R_scope.

(** C105. Vec2 intersection of two lines: both shares, and the point they name. *)
Theorem C105_lines {p e : Z} {Hp : Prec_gt_0 p} {He : Prec_lt_emax p e} (O : RealOps (binary_float p e)) (I : ieee O)
  (k : R) (f g a b : Vec2 (binary_float p e)) : finite2 f -> finite2 g -> finite2 a -> finite2 b -> up_to2 k (num2 f) -> up_to2 k (num2 g) -> up_to2 k (num2 a) -> up_to2 k (num2 b) -> 8 * (k * k) + 8 * k + 2 * tiny e <= huge e ->
  let v := minus2 (num2 g) (num2 f) in let w := minus2 (num2 b) (num2 a) in let c := minus2 (num2 a) (num2 f) in
  let D := det2 v w in let m := det_size e v w in
  0 < Rabs D -> 25 * unit p * m <= Rabs D -> ratio_size (det_size e c w) (det2 c w) m D <= huge e -> ratio_size (det_size e c v) (det2 c v) m D <= huge e ->
  exists l h, v2_intersection f g a b = (1%Z, l, h) /\
    by_at_most (ratio_slack p e (det_size e c w) (det2 c w) m D) l (det2 c w / D) /\ by_at_most (ratio_slack p e (det_size e c v) (det2 c v) m D) h (det2 c v / D) /\
    along2 (num2 f) v (det2 c w / D) = along2 (num2 a) w (det2 c v / D).
Proof. exact (lines_meet O I k f g a b). Qed.
Print Assumptions C105_lines.
(** C105. Plane::hits and intersects for a line: the share and the point. *)
Theorem C105_plane_line {p e : Z} {Hp : Prec_gt_0 p} {He : Prec_lt_emax p e} (O : RealOps (binary_float p e)) (I : ieee O)
  (s : Plane (binary_float p e)) (l : Line3 (binary_float p e)) K : finite_plane s -> finite3 (lstart3 l) -> finite3 (lend3 l) -> up_to3 K (num3 (lstart3 l)) -> up_to3 K (num3 (lend3 l)) -> 16 * K + 2 * tiny e <= huge e ->
  let a := side (num_plane s) (num3 (lstart3 l)) in let b := side (num_plane s) (num3 (lend3 l)) in
  let m := side_size e (num_plane s) (num3 (lstart3 l)) in let k := side_size e (num_plane s) (num3 (lend3 l)) in
  m + k <= huge e -> 0 < Rabs (a - b) -> 25 * unit p * (m + k) <= Rabs (a - b) -> let ep := ratio_slack p e m a (m + k) (a - b) in ep <= 1 ->
  forall q w, plane_hits_line s l = Some (q, w) \/ plane_intersects_line s l = Some (q, w) ->
  by_at_most ep w (a / (a - b)) /\ by_at_most3 (2 * (K * ep) + 12 * unit p * (K + tiny e)) q (along3 (num3 (lstart3 l)) (dir3 (num_line3 l)) (a / (a - b))).
Proof. exact (fun FS F1 F2 U1 U2 HK => line_hit_near O I s l K FS F1 F2 U1 U2 HK). Qed.
Print Assumptions C105_plane_line.
(** C105. Plane::hits for a line with a radius. *)
Theorem C105_plane_line_radius {p e : Z} {Hp : Prec_gt_0 p} {He : Prec_lt_emax p e} (O : RealOps (binary_float p e)) (I : ieee O)
  (s : Plane (binary_float p e)) (l : Line3 (binary_float p e)) K (r : (binary_float p e)) : finite_plane s -> finite3 (lstart3 l) -> finite3 (lend3 l) -> up_to3 K (num3 (lstart3 l)) -> up_to3 K (num3 (lend3 l)) -> 16 * K + 2 * tiny e <= huge e ->
  let a := side (num_plane s) (num3 (lstart3 l)) in let b := side (num_plane s) (num3 (lend3 l)) in
  let m := side_size e (num_plane s) (num3 (lstart3 l)) in let k := side_size e (num_plane s) (num3 (lend3 l)) in
  finite r -> let h := Rabs (num r) in m + k + 2 * h <= huge e -> 0 < Rabs (a - b) -> 25 * unit p * (m + k + 2 * h) <= Rabs (a - b) ->
  let ep := ratio_slack p e (m + h) (a - num r) (m + k + 2 * h) (a - b) in ep <= 1 ->
  forall q w, plane_hits_line_radius s l r = Some (q, w) ->
  by_at_most ep w ((a - num r) / (a - b)) /\ by_at_most3 (2 * (K * ep) + 12 * unit p * (K + tiny e)) q (along3 (num3 (lstart3 l)) (dir3 (num_line3 l)) ((a - num r) / (a - b))).
Proof. exact (fun FS F1 F2 U1 U2 HK => line_radius_near O I s l K FS F1 F2 U1 U2 HK r). Qed.
Print Assumptions C105_plane_line_radius.
(** C105. Plane::hits and intersects for a ray: the answer, the length and the point. *)
Theorem C105_plane_ray {p e : Z} {Hp : Prec_gt_0 p} {He : Prec_lt_emax p e} (O : RealOps (binary_float p e)) (I : ieee O)
  (s : Plane (binary_float p e)) (r : Ray3 (binary_float p e)) K D : finite_plane s -> finite3 (rstart3 r) -> finite3 (rdir3 r) -> up_to3 K (num3 (rstart3 r)) -> up_to3 2 (num3 (rdir3 r)) ->
  let a := side (num_plane s) (num3 (rstart3 r)) in let m := side_size e (num_plane s) (num3 (rstart3 r)) in
  let c := dot3 (num3 (pnormal s)) (num3 (rdir3 r)) in let k := absdot3 (num3 (pnormal s)) (num3 (rdir3 r)) + 3 * tiny e in
  m <= huge e -> k <= huge e -> 0 < Rabs c -> 25 * unit p * k <= Rabs c -> ratio_size m a k c <= huge e -> let ep := ratio_slack p e m a k c in Rabs (a / c) + ep <= D -> K + 8 * D + 2 * tiny e <= huge e ->
  (c < 0 -> 7 * unit p * m <= a -> plane_hits_ray s r <> None) /\ (plane_hits_ray s r <> None -> c < 0 /\ - (7 * unit p * m + 2 * tiny e * Rabs c) <= a) /\
  forall q w, plane_hits_ray s r = Some (q, w) \/ plane_intersects_ray s r = Some (q, w) ->
  by_at_most ep w (- a / c) /\ by_at_most3 (2 * ep + 5 * unit p * (K + D + tiny e)) q (along3 (num3 (rstart3 r)) (num3 (rdir3 r)) (- a / c)).
Proof. exact (ray_hit_near O I s r K D). Qed.
Print Assumptions C105_plane_ray.
(** C105. The point of three planes. *)
Theorem C105_three_planes {p e : Z} {Hp : Prec_gt_0 p} {He : Prec_lt_emax p e} (O : RealOps (binary_float p e)) (I : ieee O)
  D (s0 s1 s2 : Plane (binary_float p e)) : small_lit O -> 2000000 * unit p <= 1 -> 200000 * (D + 1) <= huge e -> finite_plane s0 -> finite_plane s1 -> finite_plane s2 ->
  up_to3 (65 / 64) (num3 (pnormal s0)) -> up_to3 (65 / 64) (num3 (pnormal s1)) -> up_to3 (65 / 64) (num3 (pnormal s2)) -> Rabs (num (pd s0)) <= D -> Rabs (num (pd s1)) <= D -> Rabs (num (pd s2)) <= D ->
  let det := triple (num3 (pnormal s0)) (num3 (pnormal s1)) (num3 (pnormal s2)) in
  exists q b, plane_single_point s0 s1 s2 = Ok (q, b) /\ (1 / 10000 + 33 * unit p <= Rabs det -> b = true) /\ (Rabs det < 1 / 10000 - 33 * unit p -> b = false) /\
    (b = true -> exists P, inplane (num_plane s0) P /\ inplane (num_plane s1) P /\ inplane (num_plane s2) P /\ by_at_most3 (50 * unit p * (D + size1 P + tiny e) / Rabs det) q P).
Proof. exact (single_point_near O I D s0 s1 s2). Qed.
Print Assumptions C105_three_planes.
(** C105. Ray2::distance. *)
Theorem C105_ray2_distance {p e : Z} {Hp : Prec_gt_0 p} {He : Prec_lt_emax p e} (O : RealOps (binary_float p e)) (I : ieee O)
  (a v q : Vec2 (binary_float p e)) : finite2 a -> finite2 v -> finite2 q -> let L := norm2 (num2 v) in 4 * tiny e <= L * L -> 2 * (L * L) + 2 * tiny e <= huge e -> dist2 (num2 q) (num2 a) <= huge e / 8 ->
  exists D, nearest dist2 (straight2 (num2 a) (num2 v)) (num2 q) D /\ (0 <= dot2 (num2 v) (minus2 (num2 q) (num2 a)) -> nearest dist2 (halfline2 (num2 a) (num2 v)) (num2 q) D) /\
    by_at_most (26 * unit p * (dist2 (num2 q) (num2 a) + tiny e)) (ray2_distance (ray2_from a v) q) D.
Proof. exact (ray2_distance_near O I a v q). Qed.
Print Assumptions C105_ray2_distance.
(** C105. Line2::distance. *)
Theorem C105_line2_distance {p e : Z} {Hp : Prec_gt_0 p} {He : Prec_lt_emax p e} (O : RealOps (binary_float p e)) (I : ieee O)
  (l : Line2 (binary_float p e)) (q : Vec2 (binary_float p e)) : finite2 (lstart2 l) -> finite2 (lend2 l) -> finite2 q -> let V := minus2 (num2 (lend2 l)) (num2 (lstart2 l)) in let L := norm2 V in 4 * tiny e <= L * L -> 2 * (L * L) + 2 * tiny e <= huge e -> dist2 (num2 q) (num2 (lstart2 l)) <= huge e / 8 ->
  exists D, nearest dist2 (straight2 (num2 (lstart2 l)) V) (num2 q) D /\ by_at_most (34 * unit p * (dist2 (num2 q) (num2 (lstart2 l)) + tiny e)) (line2_distance l q) D.
Proof. exact (line2_distance_near O I l q). Qed.
Print Assumptions C105_line2_distance.
(** C105. Ray3::distance of a point well off the ray. *)
Theorem C105_ray3_distance {p e : Z} {Hp : Prec_gt_0 p} {He : Prec_lt_emax p e} (O : RealOps (binary_float p e)) (I : ieee O)
  k (a v q : Vec3 (binary_float p e)) : finite3 a -> finite3 v -> finite3 q -> let L := norm3 (num3 v) in 3 * tiny e <= L * L -> L * L + 3 * tiny e <= huge e ->
  let D := direction3 (num3 v) in let V := minus3 (num3 q) (num3 a) in clear_of e k D V -> 1088 * unit p * k <= 1 ->
  exists r, nearest dist3 (straight3 (num3 a) (num3 v)) (num3 q) r /\ (0 <= dot3 (num3 v) V -> nearest dist3 (halfline3 (num3 a) (num3 v)) (num3 q) r) /\
    by_at_most (996 * unit p * k * (norm3 V + tiny e)) (ray3_distance (ray3_from a v) q) r.
Proof. exact (ray3_distance_near O I k a v q). Qed.
Print Assumptions C105_ray3_distance.
(** C105. Line3::distance of a point well off the line. *)
Theorem C105_line3_distance {p e : Z} {Hp : Prec_gt_0 p} {He : Prec_lt_emax p e} (O : RealOps (binary_float p e)) (I : ieee O)
  k (l : Line3 (binary_float p e)) (q : Vec3 (binary_float p e)) : finite3 (lstart3 l) -> finite3 (lend3 l) -> finite3 q ->
  let D := minus3 (num3 (lend3 l)) (num3 (lstart3 l)) in let V := minus3 (num3 q) (num3 (lstart3 l)) in clear_of e k D V -> 200 * unit p * k <= 1 ->
  exists r, nearest dist3 (straight3 (num3 (lstart3 l)) D) (num3 q) r /\ by_at_most (213 * unit p * k * (norm3 V + tiny e)) (line3_distance l q) r.
Proof. exact (line3_distance_near O I k l q). Qed.
Print Assumptions C105_line3_distance.
(** C105. The literal 1e-4 in doubles. *)
Theorem C105_literal_double (L : Libm) : small_lit (F_ops L).
Proof. exact (small_lit_64 L). Qed.
Print Assumptions C105_literal_double.
(** C105. The literal 1e-4 in floats. *)
Theorem C105_literal_float (K : Libm32) : small_lit (F32_ops K).
Proof. exact (small_lit_32 K). Qed.
Print Assumptions C105_literal_float.
(** Non-vacuity: two segments that cross at their middles. *)
Example C105_lines_case (L : Libm) : exists l h, v2_intersection (O := F_ops L) (int2 (O := F_ops L) 0 0) (int2 (O := F_ops L) 2 0) (int2 (O := F_ops L) 1 (-1)) (int2 (O := F_ops L) 1 1) = (1%Z, l, h) /\ by_at_most (1 / 10000) l (1 / 2) /\ by_at_most (1 / 10000) h (1 / 2).
Proof. exact (lines_case L). Qed.
(** Non-vacuity: a segment that crosses the plane z = 0. *)
Example C105_plane_line_case (L : Libm) : exists q w, plane_hits_line (O := F_ops L) (mkPlane (int3 (O := F_ops L) 0 0 1) (@fofZ F64 (F_ops L) 0)) (mkLine3 (int3 (O := F_ops L) 5 0 2) (int3 (O := F_ops L) 5 0 (-2))) = Some (q, w) /\ by_at_most (1 / 10000) w (1 / 2) /\ by_at_most3 (1 / 1000) q (mkV3 5 0 0).
Proof. exact (plane_line_case L). Qed.
(** Non-vacuity: a ray that hits it. *)
Example C105_plane_ray_case (L : Libm) : exists q w, plane_hits_ray (O := F_ops L) (mkPlane (int3 (O := F_ops L) 0 0 1) (@fofZ F64 (F_ops L) 0)) (mkRay3 (int3 (O := F_ops L) 5 0 2) (int3 (O := F_ops L) 0 0 (-1))) = Some (q, w) /\ by_at_most (1 / 10000) w 2 /\ by_at_most3 (1 / 1000) q (mkV3 5 0 0).
Proof. exact (plane_ray_case L). Qed.
(** Non-vacuity: the planes x = 1, y = 2 and z = 3. *)
Example C105_three_planes_case (L : Libm) : exists q, plane_single_point (O := F_ops L) (mkPlane (int3 (O := F_ops L) 1 0 0) (@fofZ F64 (F_ops L) 1)) (mkPlane (int3 (O := F_ops L) 0 1 0) (@fofZ F64 (F_ops L) 2)) (mkPlane (int3 (O := F_ops L) 0 0 1) (@fofZ F64 (F_ops L) 3)) = Ok (q, true) /\ by_at_most3 (1 / 1000) q (mkV3 1 2 3).
Proof. exact (three_planes_case L). Qed.
(** Non-vacuity: a point 2 away from the x axis. *)
Example C105_distance_case (L : Libm) : by_at_most (1 / 100) (line3_distance (O := F_ops L) (mkLine3 (int3 (O := F_ops L) 0 0 0) (int3 (O := F_ops L) 1 0 0)) (int3 (O := F_ops L) 1 2 0)) 2 /\ by_at_most (1 / 100) (ray3_distance (O := F_ops L) (ray3_from (O := F_ops L) (int3 (O := F_ops L) 0 0 0) (int3 (O := F_ops L) 1 0 0)) (int3 (O := F_ops L) 1 2 0)) 2.
Proof. exact (distance_case L). Qed.
