(** C48, C49: affine transforms, Mat34 and Mat4 acting on points. *)
From Coq Require Import Reals ZArith Arith Bool List.
From Verif.Base Require Import Outcome Array Scalar ScalarR.
From Verif.Model Require Import Types Functions Vec Mat2 Mat3 Quat Mat4 Mat34.
From Verif.Spec Require Import LinAlg VecSpec MatSpec QuatSpec.
From Verif.Proof Require Import MatFlags MatMore Affine.
Local Open Scope R_scope.

(** C48. Applying a Mat34 to a point is the affine map of its 4 by 4 matrix. *)
Theorem C48_apply (m : Mat34 R) (u : Vec3 R) : m34_apply m u = image (ent34 m) u.
Proof. exact (m34_apply_eq m u). Qed.
Print Assumptions C48_apply.
(** (A B) p = A (B p), and the 4 by 4 matrices multiply. *)
Theorem C48_product (a b : Mat34 R) (u : Vec3 R) :
  true_identity 3 (ent3 (rs34 a)) (mf3 (rs34 a)) -> true_identity 3 (ent3 (rs34 b)) (mf3 (rs34 b)) ->
  meq 4 (ent34 (m34_mul a b)) (mmul 4 (ent34 a) (ent34 b)) /\
  m34_apply (m34_mul a b) u = m34_apply a (m34_apply b u).
Proof. exact (fun Ha Hb => conj (m34_mul_ent a b Ha Hb) (m34_mul_image a b u Ha Hb)). Qed.
Print Assumptions C48_product.
(** Whatever tolerance set the identity bits: the linear part is off by the
    tolerance of C37, the translation is exact. *)
Theorem C48_product_error (a b : Mat34 R) :
  sound_flags 3 (ent3 (rs34 a)) (mf3 (rs34 a)) -> sound_flags 3 (ent3 (rs34 b)) (mf3 (rs34 b)) ->
  fro2 3 (msub (ent3 (rs34 (m34_mul a b))) (mmul 3 (ent3 (rs34 a)) (ent3 (rs34 b))))
    <= tol * Rmax (fro2 3 (ent3 (rs34 a))) (fro2 3 (ent3 (rs34 b))) /\
  t34 (m34_mul a b) = m34_apply a (t34 b).
Proof. exact (m34_mul_bound a b). Qed.
Print Assumptions C48_product_error.
(** transform appends, transformPre (and the product with a Mat3) prepends. *)
Theorem C48_transform (a m : Mat34 R) (u : Vec3 R) :
  true_identity 3 (ent3 (rs34 a)) (mf3 (rs34 a)) -> true_identity 3 (ent3 (rs34 m)) (mf3 (rs34 m)) ->
  m34_apply (m34_transform a m) u = m34_apply m (m34_apply a u) /\
  m34_apply (m34_transformPre a m) u = m34_apply a (m34_apply m u).
Proof. exact (fun Ha Hm => conj (m34_transform_image a m u Ha Hm) (m34_transformPre_image a m u Ha Hm)). Qed.
Print Assumptions C48_transform.
Theorem C48_transform_mat3 (a : Mat34 R) (m : Mat3 R) (u : Vec3 R) :
  true_identity 3 (ent3 (rs34 a)) (mf3 (rs34 a)) -> true_identity 3 (ent3 m) (mf3 m) ->
  m34_apply (m34_transform_m3 a m) u = m3_apply m (m34_apply a u) /\
  m34_apply (m34_transformPre_m3 a m) u = m34_apply a (m3_apply m u) /\
  m34_apply (m34_mul_m3 a m) u = m34_apply a (m3_apply m u).
Proof. exact (fun Ha Hm => conj (m34_transform_m3_image a m u Ha Hm) (m34_transformPre_m3_image a m u Ha Hm)). Qed.
Print Assumptions C48_transform_mat3.
(** The inverse undoes the transform, on both sides. *)
Theorem C48_invert (m : Mat34 R) :
  (isOrthonormalF (mf3 (rs34 m)) = true -> orthonormal 3 (ent3 (rs34 m))) ->
  true_identity 3 (ent3 (rs34 m)) (mf3 (rs34 m)) -> det 3 (ent3 (rs34 m)) <> 0 ->
  exists r, m34_invert m = Ok r /\ forall u, m34_apply r (m34_apply m u) = u /\ m34_apply m (m34_apply r u) = u.
Proof. exact (m34_invert_spec m). Qed.
Print Assumptions C48_invert.
(** A singular linear part gives the transform that sends every point to the origin. *)
Theorem C48_invert_singular (m : Mat34 R) :
  (isOrthonormalF (mf3 (rs34 m)) = true -> orthonormal 3 (ent3 (rs34 m))) ->
  true_identity 3 (ent3 (rs34 m)) (mf3 (rs34 m)) -> det 3 (ent3 (rs34 m)) = 0 ->
  exists r, m34_invert m = Ok r /\ forall u, m34_apply r u = zero3.
Proof. exact (m34_invert_singular m). Qed.
Print Assumptions C48_invert_singular.
(** What the constructors do to a point. *)
Theorem C48_constructors (x y z t axis u : Vec3 R) (a : R) (q : Quat R) :
  m34_apply m34_one u = u /\ m34_apply m34_setIdentity u = u /\
  m34_apply (m34_set x y z t) u = plus3 (plus3 (plus3 (smul3 (x3 u) x) (smul3 (y3 u) y)) (smul3 (z3 u) z)) t /\
  (axis <> zero3 -> m34_apply (m34_rotation axis a t) u = plus3 (rodrigues (smul3 (/ norm3 axis) axis) a u) t) /\
  (qnorm2 q = 1 -> m34_apply (m34_of_quat q t) u = plus3 (qturn q u) t) /\
  (axis <> zero3 -> m4_apply3 (m4_rotation axis a) u = rodrigues (smul3 (/ norm3 axis) axis) a u) /\
  (qnorm2 q = 1 -> m4_apply3 (m4_of_quat q t) u = plus3 (qturn q u) t).
Proof. exact (affine_constructors x y z t axis u a q). Qed.
Print Assumptions C48_constructors.
Theorem C48_coordinate_axis (c : Coord) (n t u : Vec3 R) (a : R) : coord_vec c = Some n ->
  (exists r, m34_rotation_coord c a t = Ok r /\ m34_apply r u = plus3 (rodrigues n a u) t) /\
  (exists r, m4_rotation_coord c a = Ok r /\ m4_apply3 r u = rodrigues n a u).
Proof. exact (rotation_coord_image c n t u a). Qed.
Print Assumptions C48_coordinate_axis.
Theorem C48_two_columns (e a : Coord) (ex ap : Vec3 R) (r : Mat34 R) :
  m34_set_two e ex a ap = Ok r <-> exists rs, m3_set_two e ex a ap = Ok rs /\ r = mkM34 rs zero3.
Proof. exact (m34_set_two_eq e ex a ap r). Qed.
Print Assumptions C48_two_columns.
Theorem C48_opposite (m : Mat34 R) (u : Vec3 R) : m34_apply (m34_opp m) u = smul3 (-1) (m34_apply m u).
Proof. exact (m34_opp_image m u). Qed.
Print Assumptions C48_opposite.
(** Equality compares the entries, not the cached bits. *)
Theorem C48_equality (a b : Mat34 R) :
  (m34_eqb a b = true <-> (meq 3 (ent3 (rs34 a)) (ent3 (rs34 b)) /\ t34 a = t34 b)) /\
  m34_neqb a b = negb (m34_eqb a b).
Proof. exact (m34_eqb_spec a b). Qed.
Print Assumptions C48_equality.
(** Finding: transpose leaves the translation in place, slerp drops it. *)
Theorem C48_transpose (m : Mat34 R) :
  t34 (m34_transpose m) = t34 m /\ meq 3 (ent3 (rs34 (m34_transpose m))) (mtrans (ent3 (rs34 m))).
Proof. exact (m34_transpose_keeps m). Qed.
Print Assumptions C48_transpose.
Theorem C48_slerp_translation_refuted : exists (a b r : Mat34 R),
  rotation (ent3 (rs34 a)) /\ rotation (ent3 (rs34 b)) /\ m34_slerp a b 0 = Ok r /\ t34 r <> t34 a.
Proof. exact m34_slerp_refuted. Qed.
Print Assumptions C48_slerp_translation_refuted.
(** Finding: the orthonormal shortcut trusts the bits. A matrix flagged
    orthonormal within the tolerance is not inverted exactly. *)
Theorem C48_invert_tolerance_refuted : exists (m r : Mat34 R) (u : Vec3 R),
  exact_flags 3 (ent3 (rs34 m)) (mf3 (rs34 m)) /\ det 3 (ent3 (rs34 m)) <> 0 /\
  m34_invert m = Ok r /\ m34_apply r (m34_apply m u) <> u.
Proof. exact m34_invert_tolerance. Qed.
Print Assumptions C48_invert_tolerance_refuted.
Example C48_case : exists m : Mat34 R,
  exact_flags 3 (ent3 (rs34 m)) (mf3 (rs34 m)) /\ isOrthonormalF (mf3 (rs34 m)) = false /\
  true_identity 3 (ent3 (rs34 m)) (mf3 (rs34 m)) /\ det 3 (ent3 (rs34 m)) = 6 /\ t34 m = mkV3 1 2 3.
Proof. exact affine_case. Qed.

(** C49. Mat4 on points and directions. *)
Theorem C49_apply (m : Mat4 R) (u : Vec3 R) (v : Vec4 R) :
  m4_apply3 m u = image (ent4 m) u /\ m4_applyVector3 m u = image_dir (ent4 m) u /\
  forall i, (i < 4)%nat -> vent4 (m4_applyVector4 m v) i = mulv 4 (ent4 m) (vent4 (mkV4 (x4 v) (y4 v) (z4 v) 0)) i.
Proof. exact (conj (m4_apply3_eq m u) (conj (m4_applyVector3_eq m u) (m4_applyVector4_eq m v))). Qed.
Print Assumptions C49_apply.
(** Translations: after and before the transform. *)
Theorem C49_translate (m : Mat4 R) (n : Mat34 R) (d u : Vec3 R) :
  m4_apply3 (m4_translate m d) u = plus3 (m4_apply3 m u) d /\
  m4_apply3 (m4_translatePre m d) u = m4_apply3 m (plus3 u d) /\
  m34_apply (m34_translate n d) u = plus3 (m34_apply n u) d /\
  m34_apply (m34_translatePre n d) u = m34_apply n (plus3 u d).
Proof. exact (conj (m4_translate_image m d u) (conj (m4_translatePre_image m d u) (conj (m34_translate_image n d u) (m34_translatePre_image n d u)))). Qed.
Print Assumptions C49_translate.
(** Scaling before the transform. *)
Theorem C49_scalePre (m : Mat4 R) (n : Mat34 R) (k u : Vec3 R) :
  m4_apply3 (m4_scalePre m k) u = m4_apply3 m (stretch k u) /\
  m34_apply (m34_scalePre n k) u = m34_apply n (stretch k u).
Proof. exact (conj (m4_scalePre_image m k u) (m34_scalePre_image n k u)). Qed.
Print Assumptions C49_scalePre.
(** The variants that return a copy give the same matrix. *)
Theorem C49_copies (m : Mat4 R) (d k : Vec3 R) :
  meq 4 (ent4 (m4_translated m d)) (ent4 (m4_translate m d)) /\
  meq 4 (ent4 (m4_translatedPre m d)) (ent4 (m4_translatePre m d)) /\
  meq 4 (ent4 (m4_scaledPre m k)) (ent4 (m4_scalePre m k)) /\
  meq 4 (ent4 (m4_scaled m k)) (ent4 (m4_scale m k)).
Proof. exact (affine_copies m d k). Qed.
Print Assumptions C49_copies.
(** Finding: scale is right exactly when the linear part commutes with the
    factors (a diagonal linear part, or equal factors). *)
Theorem C49_scale_partial (m : Mat4 R) (n : Mat34 R) (k : Vec3 R) :
  ((forall u, m4_apply3 (m4_scale m k) u = stretch k (m4_apply3 m u)) <->
   (forall i j, (i < 3)%nat -> (j < 3)%nat -> ent4 m i j * vent3 k j = vent3 k i * ent4 m i j)) /\
  ((forall u, m34_apply (m34_scale n k) u = stretch k (m34_apply n u)) <->
   (forall i j, (i < 3)%nat -> (j < 3)%nat -> ent3 (rs34 n) i j * vent3 k j = vent3 k i * ent3 (rs34 n) i j)).
Proof. exact (conj (proj1 (m4_scale_iff m k)) (m34_scale_iff n k)). Qed.
Print Assumptions C49_scale_partial.
Theorem C49_mat34_scale_refuted : exists (m : Mat34 R) (k u : Vec3 R),
  exact_flags 3 (ent3 (rs34 m)) (mf3 (rs34 m)) /\ rotation (ent3 (rs34 m)) /\
  m34_apply (m34_scale m k) u <> stretch k (m34_apply m u).
Proof. exact m34_scale_refuted. Qed.
Print Assumptions C49_mat34_scale_refuted.
Theorem C49_mat4_scale_refuted : exists (m : Mat4 R) (k u : Vec3 R), rigid (ent4 m) /\
  m4_apply3 (m4_scale m k) u <> stretch k (m4_apply3 m u).
Proof. exact m4_scale_refuted. Qed.
Print Assumptions C49_mat4_scale_refuted.
(** Products of affine Mat4 compose. *)
Theorem C49_mat4_compose (a b : Mat4 R) (u : Vec3 R) :
  true_identity 4 (ent4 a) (mf4 a) -> true_identity 4 (ent4 b) (mf4 b) ->
  (trs (ent4 b) -> m4_apply3 (m4_mul a b) u = m4_apply3 a (m4_apply3 b u) /\
                   m4_apply3 (m4_transformPre a b) u = m4_apply3 a (m4_apply3 b u)) /\
  (trs (ent4 a) -> m4_apply3 (m4_transform a b) u = m4_apply3 b (m4_apply3 a u)).
Proof. exact (m4_compose a b u). Qed.
Print Assumptions C49_mat4_compose.
(** Rotations, as long as the angle is not too small. *)
Theorem C49_rotate_mat34 (m : Mat34 R) (axis u : Vec3 R) (a : R) :
  axis <> zero3 -> true_identity 3 (ent3 (rs34 m)) (mf3 (rs34 m)) -> tol < 4 * (1 - cos a) ->
  m34_apply (m34_rotate_axis m axis a) u = rodrigues (smul3 (/ norm3 axis) axis) a (m34_apply m u) /\
  m34_apply (m34_rotatePre_axis m axis a) u = m34_apply m (rodrigues (smul3 (/ norm3 axis) axis) a u).
Proof. exact (m34_rotate_axis_big m axis a u). Qed.
Print Assumptions C49_rotate_mat34.
Theorem C49_rotate_mat34_quat (m : Mat34 R) (q : Quat R) (u : Vec3 R) :
  qnorm2 q = 1 -> true_identity 3 (ent3 (rs34 m)) (mf3 (rs34 m)) -> tol < 8 * dot3 (qvec q) (qvec q) ->
  m34_apply (m34_rotate_quat m q) u = qturn q (m34_apply m u) /\
  m34_apply (m34_rotatePre_quat m q) u = m34_apply m (qturn q u).
Proof. exact (m34_rotate_quat_big m q u). Qed.
Print Assumptions C49_rotate_mat34_quat.
Theorem C49_rotate_mat34_coord (m : Mat34 R) (c : Coord) (n u : Vec3 R) (a : R) :
  coord_vec c = Some n -> true_identity 3 (ent3 (rs34 m)) (mf3 (rs34 m)) -> tol < 4 * (1 - cos a) ->
  (exists r, m34_rotate_coord m c a = Ok r /\ m34_apply r u = rodrigues n a (m34_apply m u)) /\
  (exists r, m34_rotatePre_coord m c a = Ok r /\ m34_apply r u = m34_apply m (rodrigues n a u)).
Proof. exact (m34_rotate_coord_big m c n a u). Qed.
Print Assumptions C49_rotate_mat34_coord.
Theorem C49_rotate_mat4 (m : Mat4 R) (axis u : Vec3 R) (a : R) :
  axis <> zero3 -> true_identity 4 (ent4 m) (mf4 m) -> tol < 4 * (1 - cos a) ->
  (trs (ent4 m) -> m4_apply3 (m4_rotate_axis m axis a) u = rodrigues (smul3 (/ norm3 axis) axis) a (m4_apply3 m u)) /\
  m4_apply3 (m4_rotatePre_axis m axis a) u = m4_apply3 m (rodrigues (smul3 (/ norm3 axis) axis) a u).
Proof. exact (m4_rotate_axis_big m axis a u). Qed.
Print Assumptions C49_rotate_mat4.
Theorem C49_rotate_mat4_quat (m : Mat4 R) (q : Quat R) (u : Vec3 R) :
  qnorm2 q = 1 -> true_identity 4 (ent4 m) (mf4 m) -> tol < 8 * dot3 (qvec q) (qvec q) ->
  (trs (ent4 m) -> m4_apply3 (m4_rotate_quat m q) u = qturn q (m4_apply3 m u)) /\
  m4_apply3 (m4_rotatePre_quat m q) u = m4_apply3 m (qturn q u).
Proof. exact (m4_rotate_quat_big m q u). Qed.
Print Assumptions C49_rotate_mat4_quat.
Theorem C49_rotate_mat4_coord (m : Mat4 R) (c : Coord) (n u : Vec3 R) (a : R) :
  coord_vec c = Some n -> true_identity 4 (ent4 m) (mf4 m) -> tol < 4 * (1 - cos a) ->
  (trs (ent4 m) -> exists r, m4_rotate_coord m c a = Ok r /\ m4_apply3 r u = rodrigues n a (m4_apply3 m u)) /\
  (exists r, m4_rotatePre_coord m c a = Ok r /\ m4_apply3 r u = m4_apply3 m (rodrigues n a u)).
Proof. exact (m4_rotate_coord_big m c n a u). Qed.
Print Assumptions C49_rotate_mat4_coord.
(** Finding: smaller rotations (every angle up to a fiftieth of a radian) are
    dropped. Mat34::rotate still turns the translation. *)
Theorem C49_small_angle (a : R) : Rabs a <= 1 / 50 -> 4 * (1 - cos a) <= tol.
Proof. exact (small_angle a). Qed.
Print Assumptions C49_small_angle.
Theorem C49_small_rotation_dropped (m : Mat4 R) (n : Mat34 R) (axis : Vec3 R) (a : R) :
  axis <> zero3 -> 4 * (1 - cos a) <= tol ->
  m4_rotate_axis m axis a = m /\ m4_rotatePre_axis m axis a = m /\
  m34_rotate_axis n axis a = mkM34 (rs34 n) (rodrigues (smul3 (/ norm3 axis) axis) a (t34 n)) /\
  m34_rotatePre_axis n axis a = n /\
  m3_rotated_axis (rs34 n) axis a = rs34 n /\ m3_rotatedPre_axis (rs34 n) axis a = rs34 n.
Proof. exact (small_rotation m n axis a). Qed.
Print Assumptions C49_small_rotation_dropped.
Theorem C49_small_rotation_refuted : exists (m : Mat4 R) (axis : Vec3 R) (a : R) (u : Vec3 R),
  axis <> zero3 /\ meq 4 (ent4 m) ident /\
  m4_apply3 (m4_rotate_axis m axis a) u <> rodrigues (smul3 (/ norm3 axis) axis) a (m4_apply3 m u).
Proof. exact m4_rotate_lost. Qed.
Print Assumptions C49_small_rotation_refuted.
Example C49_case : (mkV3 1 2 3 : Vec3 R) <> zero3 /\ tol < 4 * (1 - cos (PI / 2)) /\
  qnorm2 (mkQ (1/2) (1/2) (1/2) (1/2)) = 1 /\
  tol < 8 * dot3 (qvec (mkQ (1/2) (1/2) (1/2) (1/2))) (qvec (mkQ (1/2) (1/2) (1/2) (1/2))) /\
  (exists m : Mat4 R, trs (ent4 m) /\ true_identity 4 (ent4 m) (mf4 m) /\ fIdentity (mf4 m) = false /\ ent4 m 0%nat 3%nat = 5).
Proof. exact rotate_case. Qed.
