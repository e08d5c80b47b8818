(** C104: planes and view frustums in binary numbers of any format. *)
From Coq Require Import Reals ZArith List Lra Lia Bool.
From Flocq Require Import Core.Core IEEE754.BinarySingleNaN.
From Verif.Base Require Import Outcome Array ArrayFacts Scalar ScalarR ScalarF ScalarF32.
From Verif.Model Require Import Types Functions Vec Mat3 Mat34 Mat4 Shapes Plane Frustum.
From Verif.Spec Require Import VecSpec GeomSpec FloatSpec IeeeSpec MarginSpec TrigSpec ShapeSpec QuatErrorSpec PlaneErrorSpec.
From Verif.Proof Require Import Ieee IeeeVec IeeeWitness IeeePlane IeeeFrustum PlaneErrorWitness.
Import ListNotations.
Local Open Scope R_scope.

(** C104. The plane through a point with a normal. *)
Theorem C104_from_point {p e : Z} {Hp : Prec_gt_0 p} {He : Prec_lt_emax p e} (O : RealOps (binary_float p e)) (I : ieee O)
  (a n : Vec3 (binary_float p e)) : finite3 a -> finite3 n -> let L := norm3 (num3 n) in 3 * tiny e <= L * L -> L * L + 3 * tiny e <= huge e -> size1 (num3 a) <= huge e / 4 ->
  passes (17 * unit p) (4 * unit p * (size1 (num3 a) + 3 * tiny e)) (plane_from_point a n) (direction3 (num3 n)) (num3 a).
Proof. exact (plane_from_point_near O I a n). Qed.
Print Assumptions C104_from_point.
(** C104. The plane through a point along two directions. *)
Theorem C104_from_tangents {p e : Z} {Hp : Prec_gt_0 p} {He : Prec_lt_emax p e} (O : RealOps (binary_float p e)) (I : ieee O)
  k (a v w : Vec3 (binary_float p e)) : finite3 a -> finite3 v -> finite3 w -> size1 (num3 a) <= huge e / 4 -> wide e k zero3 (num3 v) (num3 w) -> 64 * unit p * k <= 1 ->
  passes (34 * unit p * k) (4 * unit p * (size1 (num3 a) + 3 * tiny e)) (plane_from_tangents a v w) (normal_of zero3 (num3 v) (num3 w)) (num3 a).
Proof. exact (plane_from_tangents_near O I k a v w). Qed.
Print Assumptions C104_from_tangents.
(** C104. The plane through three points. *)
Theorem C104_from_points {p e : Z} {Hp : Prec_gt_0 p} {He : Prec_lt_emax p e} (O : RealOps (binary_float p e)) (I : ieee O)
  k (a b c : Vec3 (binary_float p e)) : finite3 a -> finite3 b -> finite3 c -> size1 (num3 a) <= huge e / 4 -> size1 (num3 b) <= huge e / 4 -> size1 (num3 c) <= huge e / 4 ->
  wide e k (num3 a) (num3 b) (num3 c) -> 64 * unit p * k <= 1 ->
  passes (34 * unit p * k) (4 * unit p * (size1 (num3 a) + 3 * tiny e)) (plane_from_points a b c) (normal_of (num3 a) (num3 b) (num3 c)) (num3 a).
Proof. exact (plane_from_points_near O I k a b c). Qed.
Print Assumptions C104_from_points.
(** C104. Plane::distance: the computed distance to such a plane. *)
Theorem C104_distance {p e : Z} {Hp : Prec_gt_0 p} {He : Prec_lt_emax p e} (O : RealOps (binary_float p e)) (I : ieee O)
  d m (s : Plane (binary_float p e)) n a q S : passes d m s n a -> norm3 n = 1 -> d <= 1 / 3 -> m <= 1 / 100 * (S + 3 * tiny e) -> size1 a <= S -> finite3 q -> S + size1 (num3 q) <= huge e / 4 ->
  by_at_most (d * (S + size1 (num3 q)) + m + 6 * unit p * (S + size1 (num3 q) + 3 * tiny e)) (plane_distance s q) (dot3 n (minus3 (num3 q) a)).
Proof. exact (distance_near O I d m s n a q S). Qed.
Print Assumptions C104_distance.
(** C104. Plane::project. *)
Theorem C104_project {p e : Z} {Hp : Prec_gt_0 p} {He : Prec_lt_emax p e} (O : RealOps (binary_float p e)) (I : ieee O)
  d m (s : Plane (binary_float p e)) n a q S : passes d m s n a -> norm3 n = 1 -> d <= 1 / 3 -> m <= 1 / 100 * (S + 3 * tiny e) -> size1 a <= S -> finite3 q -> S + size1 (num3 q) + 3 * tiny e <= huge e / 4 ->
  let Z := S + size1 (num3 q) + 3 * tiny e in let D := dot3 n (minus3 (num3 q) a) in
  by_at_most3 (5 / 2 * (d * Z) + m + 13 * (unit p * Z)) (fst (plane_project s q)) (minus3 (num3 q) (smul3 D n)) /\
  by_at_most (d * (S + size1 (num3 q)) + m + 6 * unit p * Z) (snd (plane_project s q)) D.
Proof. exact (project_near O I d m s n a q S). Qed.
Print Assumptions C104_project.
(** C104. Frustum::set: the six planes, contains, and intersects. *)
Theorem C104_frustum {p e : Z} {Hp : Prec_gt_0 p} {He : Prec_lt_emax p e} (O : RealOps (binary_float p e)) (I : ieee O) (M v h : R) (N : narrows O M v h)
  (f : Frustum (binary_float p e)) (corners : arr (Vec3 (binary_float p e))) g k S : room f -> holds corners 8 g ->
  (good_corners k S M g -> exists r, frustum_set f corners = Ok r /\ frustum_made r k S M v h g) /\
  (forall m : Mat34 (binary_float p e), good_corners k S M (fun i => m34_apply m (g i)) -> exists r, frustum_set_m34 f m corners = Ok r /\ frustum_made r k S M v h (fun i => m34_apply m (g i))) /\
  (forall m : Mat4 (binary_float p e), good_corners k S M (fun i => m4_apply3 m (g i)) -> exists r, frustum_set_m4 f m corners = Ok r /\ frustum_made r k S M v h (fun i => m4_apply3 m (g i))).
Proof. exact (frustum_made_ok O I M v h N f corners g k S). Qed.
Print Assumptions C104_frustum.
(** C104. The points not beyond any face are those of the view volume. *)
Theorem C104_region x y z t p q : proper p -> 0 < triple x y z -> frustum_of (fun i => affine x y z t (corner p i)) 0 q <-> region x y z t p q.
Proof. exact (frustum_of_region x y z t p q). Qed.
Print Assumptions C104_region.
(** C104. Distances of doubles are converted to float. *)
Theorem C104_narrow_double (L : Libm) : narrows (F_ops L) (bpow radix2 127) (bpow radix2 (-24)) (bpow radix2 (-150)).
Proof. exact (narrows_double L). Qed.
Print Assumptions C104_narrow_double.
(** C104. Those of floats stay as they are. *)
Theorem C104_narrow_float (K : Libm32) : narrows (F32_ops K) (huge 128) 0 0.
Proof. exact (narrows_float K). Qed.
Print Assumptions C104_narrow_float.
(** Non-vacuity: a cube in doubles. It contains its centre and not a point 4 to the side. *)
Example C104_case (L : Libm) : exists (g : nat -> Vec3 F64) (corners : arr (Vec3 F64)) r, (forall i, num3 (g i) = corner (mkPyramid 1 3 1 1 1 1) i) /\
  good_corners 2 5 (bpow radix2 127) g /\ holds corners 8 g /\ frustum_set (O := F_ops L) frustum_new corners = Ok r /\
  frustum_contains (O := F_ops L) r (mkV3 (@fofZ F64 (F_ops L) (0)%Z) (@fofZ F64 (F_ops L) (0)%Z) (@fofZ F64 (F_ops L) (-2)%Z)) = Ok true /\ frustum_contains (O := F_ops L) r (mkV3 (@fofZ F64 (F_ops L) (5)%Z) (@fofZ F64 (F_ops L) (0)%Z) (@fofZ F64 (F_ops L) (-2)%Z)) = Ok false.
Proof. exact (cube_case L). Qed.
