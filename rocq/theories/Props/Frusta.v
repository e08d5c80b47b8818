(** Property C59: frustum culling (frustum.h), over R. [frustum_built] lists what
    the frustum of the pyramid p under an affine map must answer: contains(point)
    and contains(sphere) decide exactly, intersects(sphere) never misses a sphere
    that meets the frustum and is true exactly when the sphere reaches all six
    half-spaces. *)
From Coq Require Import Reals ZArith.
From Verif.Base Require Import Outcome Array ArrayFacts Scalar ScalarR.
From Verif.Model Require Import Types Vec Mat3 Mat4 Mat34 Shapes Ball Plane Frustum.
From Verif.Spec Require Import VecSpec GeomSpec ShapeSpec FrustumSpec.
From Verif.Proof Require Import Frusta.
Local Open Scope R_scope.

(** C59. set(corners), and the constructor: the frustum of the pyramid itself. *)
Theorem C59_set f corners p : roomy f -> proper p -> holds corners 8 (corner p) ->
  exists r, frustum_set f corners = Ok r /\ frustum_built r (mkV3 1 0 0) (mkV3 0 1 0) (mkV3 0 0 1) zero3 p.
Proof. exact (frustum_set_spec f corners p). Qed.
Print Assumptions C59_set.
Example C59_set_case : roomy frustum_new /\ proper (mkPyramid 1 10 2 1 20 10) /\
  holds (arr_of 8 (corner (mkPyramid 1 10 2 1 20 10))) 8 (corner (mkPyramid 1 10 2 1 20 10)).
Proof. exact frustum_case. Qed.

(** C59. set(ltw, corners) with a Mat34 that keeps orientation: the image of the pyramid. *)
Theorem C59_set_m34 f m corners p : roomy f -> proper p -> holds corners 8 (corner p) ->
  0 < triple (mx3 (rs34 m)) (my3 (rs34 m)) (mz3 (rs34 m)) ->
  exists r, frustum_set_m34 f m corners = Ok r /\ frustum_built r (mx3 (rs34 m)) (my3 (rs34 m)) (mz3 (rs34 m)) (t34 m) p.
Proof. exact (frustum_set_m34_spec f m corners p). Qed.
Print Assumptions C59_set_m34.

(** C59. set(ltw, corners) with a Mat4 that keeps orientation. The bottom row of the matrix is not used. *)
Theorem C59_set_m4 f m corners p : roomy f -> proper p -> holds corners 8 (corner p) ->
  let v w := mkV3 (x4 w) (y4 w) (z4 w) in
  0 < triple (v (mx4 m)) (v (my4 m)) (v (mz4 m)) ->
  exists r, frustum_set_m4 f m corners = Ok r /\ frustum_built r (v (mx4 m)) (v (my4 m)) (v (mz4 m)) (v (mt4 m)) p.
Proof. exact (frustum_set_m4_spec f m corners p). Qed.
Print Assumptions C59_set_m4.

(** C59. With a matrix that mirrors, the frustum contains nothing. *)
Theorem C59_mirrored_refuted f m corners p : roomy f -> proper p -> holds corners 8 (corner p) ->
  triple (mx3 (rs34 m)) (my3 (rs34 m)) (mz3 (rs34 m)) < 0 ->
  exists r, frustum_set_m34 f m corners = Ok r /\
    (forall q, frustum_contains r q = Ok false) /\ (forall s, 0 <= sradius s -> frustum_contains_sphere r s = Ok false).
Proof. exact (frustum_mirrored f m corners p). Qed.
Print Assumptions C59_mirrored_refuted.

(** C59. intersects(sphere) may hold for a sphere that does not meet the frustum. *)
Theorem C59_sphere_refuted : exists (corners : arr (Vec3 R)) p s r, proper p /\ holds corners 8 (corner p) /\ 0 < sradius s /\
  frustum_set frustum_new corners = Ok r /\ frustum_intersects_sphere r s = Ok true /\ ~ meets (inball s) (inpyramid p).
Proof. exact frustum_intersects_refuted. Qed.
Print Assumptions C59_sphere_refuted.

