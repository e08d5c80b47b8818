(** C97: angles, interpolation and orthonormalise of rotation matrices. *)
From Coq Require Import Reals ZArith.
From Verif.Base Require Import Outcome Scalar ScalarR.
From Verif.Model Require Import Types Functions Interpolation Vec Mat2 Mat3 Quat Mat4 Mat34.
From Verif.Spec Require Import LinAlg NumSpec VecSpec MatSpec QuatSpec TrigSpec.
From Verif.Proof Require Import MatSlerp.
Local Open Scope R_scope.

(** C97. Mat2::angle is the polar angle of the first column. *)
Theorem C97_mat2_angle (m : Mat2 R) : - PI < m2_angle m <= PI /\
  x2 (mx2 m) = norm2 (mx2 m) * cos (m2_angle m) /\ y2 (mx2 m) = norm2 (mx2 m) * sin (m2_angle m).
Proof. exact (m2_angle_facts m). Qed.
Print Assumptions C97_mat2_angle.
Theorem C97_mat2_angle_of_rotation (a : R) : congruent (2 * PI) (m2_angle (m2_rotation a)) a.
Proof. exact (m2_angle_of_rotation a). Qed.
Print Assumptions C97_mat2_angle_of_rotation.
(** A rotation matrix is the turn by its angle. *)
Theorem C97_mat2_rotation_of_angle (m : Mat2 R) (u : Vec2 R) : rotation2 (ent2 m) -> m2_apply m u = turn2 (m2_angle m) u.
Proof. exact (m2_angle_apply m u). Qed.
Print Assumptions C97_mat2_rotation_of_angle.
(** Mat2::slerp runs along one arc at constant speed.  The arc is the short one
    when the angles do not differ by less than -PI; in the other case see
    C97_mat2_long_way_refuted. *)
Theorem C97_mat2_slerp_partial (a b : Mat2 R) : rotation2 (ent2 a) -> rotation2 (ent2 b) -> exists d,
  (- PI <= m2_angle b - m2_angle a -> Rabs d <= PI) /\
  (forall u, m2_apply b u = turn2 d (m2_apply a u)) /\
  forall w, exists r, m2_slerp a b w = Ok r /\ exact_flags 2 (ent2 r) (mf2 r) /\ forall u, m2_apply r u = turn2 (w * d) (m2_apply a u).
Proof. exact (m2_slerp_path a b). Qed.
Print Assumptions C97_mat2_slerp_partial.
(** Mat2::slerpMaxAngle goes along the same arc as far as the limit allows. *)
Theorem C97_mat2_slerpMaxAngle_partial (a b : Mat2 R) (mx : R) : rotation2 (ent2 a) -> rotation2 (ent2 b) -> 0 <= mx -> exists d e r,
  (- PI <= m2_angle b - m2_angle a -> Rabs d <= PI) /\
  (forall u, m2_apply b u = turn2 d (m2_apply a u)) /\
  m2_slerpMaxAngle a b mx = Ok r /\ exact_flags 2 (ent2 r) (mf2 r) /\
  0 <= e * d /\ Rabs e = Rmin mx (Rabs d) /\ forall u, m2_apply r u = turn2 e (m2_apply a u).
Proof. exact (m2_slerpMax_path a b mx). Qed.
Print Assumptions C97_mat2_slerpMaxAngle_partial.
(** From 3 to -3 radians, half way is the turn by zero, although a turn by
    2 PI - 6 = 0.28 leads from one end to the other. *)
Theorem C97_mat2_long_way_refuted : m2_slerp (m2_rotation 3) (m2_rotation (-3)) (1 / 2) = Ok (m2_rotation 0) /\
  forall u, m2_apply (m2_rotation (-3)) u = turn2 (2 * PI - 6) (m2_apply (m2_rotation 3) u).
Proof. exact m2_slerp_long. Qed.
Print Assumptions C97_mat2_long_way_refuted.
(** Mat3::slerp turns about one axis, by less than a half turn, at constant
    speed; when the two rotations are close (cosine of the half angle 0.95 or
    more) the library interpolates the quaternions linearly, and the images of
    unit vectors are off by 1/15 at most.  The ends are exact. *)
Theorem C97_mat3_slerp (a b : Mat3 R) : rotation (ent3 a) -> rotation (ent3 b) -> exists n d, dot3 n n = 1 /\ 0 <= d <= PI /\
  (forall u, m3_apply b u = rodrigues n d (m3_apply a u)) /\
  forall w, 0 <= w <= 1 -> exists r, m3_slerp a b w = Ok r /\ rotation (ent3 r) /\ exact_flags 3 (ent3 r) (mf3 r) /\
    (w = 0 -> forall u, m3_apply r u = m3_apply a u) /\ (w = 1 -> forall u, m3_apply r u = m3_apply b u) /\
    (cos (d / 2) < 95 / 100 -> forall u, m3_apply r u = rodrigues n (w * d) (m3_apply a u)) /\
    (forall u, norm3 (minus3 (m3_apply r u) (rodrigues n (w * d) (m3_apply a u))) <= 1 / 15 * norm3 u).
Proof. exact (m3_slerp_path a b). Qed.
Print Assumptions C97_mat3_slerp.
(** What Mat3::slerpMaxAngle returns: the start is forgotten, the result is the
    turn that leads from a to b, cut at the limit.  Missing: the result should
    be the start turned that way. *)
Theorem C97_mat3_slerpMaxAngle_partial (a b : Mat3 R) (mx : R) : rotation (ent3 a) -> rotation (ent3 b) -> 0 <= mx ->
  exists r, m3_slerpMaxAngle a b mx = Ok r /\ rotation (ent3 r) /\ exact_flags 3 (ent3 r) (mf3 r) /\
    (id_defect 3 (mmul 3 (mtrans (ent3 a)) (ent3 b)) <= 8 * q_DELTA -> forall u, m3_apply r u = u) /\
    (8 * q_DELTA < id_defect 3 (mmul 3 (mtrans (ent3 a)) (ent3 b)) -> exists n d, norm3 n = 1 /\ 0 <= d <= 2 * PI /\
       (forall u, m3_apply b u = m3_apply a (rodrigues n d u)) /\ forall u, m3_apply r u = rodrigues n (Rmin d mx) u).
Proof. exact (m3_slerpMax_path a b mx). Qed.
Print Assumptions C97_mat3_slerpMaxAngle_partial.
(** Even from the identity, and to a rotation by less than a half turn, a limit
    of a half turn does not lead to the target. *)
Theorem C97_mat3_slerpMaxAngle_refuted : exists (b : Mat3 R) n d r, rotation (ent3 b) /\ norm3 n = 1 /\ 0 < d < PI /\
  (forall u, m3_apply b u = rodrigues n d u) /\ m3_slerpMaxAngle m3_one b PI = Ok r /\ exists u, m3_apply r u <> m3_apply b u.
Proof. exact m3_slerpMax_long. Qed.
Print Assumptions C97_mat3_slerpMaxAngle_refuted.
(** orthonormalise gives a rotation whatever the matrix, and leaves rotations
    as they are; Mat4::orthonormalise also clears the translation. *)
Theorem C97_mat2_orthonormalise (m : Mat2 R) : rotation2 (ent2 (m2_orthonormalise m)) /\ (mx2 m <> zero2 -> mx2 (m2_orthonormalise m) = smul2 (/ norm2 (mx2 m)) (mx2 m)) /\ (rotation2 (ent2 m) -> meq 2 (ent2 (m2_orthonormalise m)) (ent2 m)).
Proof. exact (m2_orthonormalise_spec m). Qed.
Print Assumptions C97_mat2_orthonormalise.
Theorem C97_mat3_orthonormalise (m : Mat3 R) : rotation (ent3 (m3_orthonormalise m)) /\
  (rotation (ent3 m) -> meq 3 (ent3 (m3_orthonormalise m)) (ent3 m)).
Proof. exact (m3_orthonormalise_spec m). Qed.
Print Assumptions C97_mat3_orthonormalise.
Theorem C97_mat4_orthonormalise (m : Mat4 R) : rotation (ent4 (m4_orthonormalise m)) /\ trs (ent4 (m4_orthonormalise m)) /\
  (forall i, (i < 3)%nat -> ent4 (m4_orthonormalise m) i 3%nat = 0) /\
  (rotation (ent4 m) -> meq 3 (ent4 (m4_orthonormalise m)) (ent4 m)).
Proof. exact (m4_orthonormalise_spec m). Qed.
Print Assumptions C97_mat4_orthonormalise.
(** Interpolating affine matrices: the linear part is interpolated as above, the
    translation of both ends is lost (a finding). *)
Theorem C97_mat34_slerp_partial (a b : Mat34 R) (w : R) (r : Mat34 R) : m34_slerp a b w = Ok r -> m3_slerp (rs34 a) (rs34 b) w = Ok (rs34 r) /\ t34 r = zero3.
Proof. exact (m34_slerp_loses a b w r). Qed.
Print Assumptions C97_mat34_slerp_partial.
Theorem C97_mat34_slerpMaxAngle_partial (a b : Mat34 R) (mx : R) (r : Mat34 R) : m34_slerpMaxAngle a b mx = Ok r -> m3_slerpMaxAngle (rs34 a) (rs34 b) mx = Ok (rs34 r) /\ t34 r = zero3.
Proof. exact (m34_slerpMax_loses a b mx r). Qed.
Print Assumptions C97_mat34_slerpMaxAngle_partial.
(** Non-vacuity. *)
Example C97_mat2_example : rotation2 (ent2 (m2_rotation 1)) /\ rotation2 (ent2 (m2_rotation 2)) /\ 0 <= 1 / 2 /\
  mx2 (mkM2 (mkV2 3 4) (mkV2 1 1) flags_uninit) <> zero2.
Proof. exact slerp2_case. Qed.
Example C97_mat3_example : rotation (ent3 (m3_one : Mat3 R)) /\ rotation (ent3 (m3_of_quat bq)) /\ 0 <= 1 / 3 <= 1 /\
  8 * q_DELTA < id_defect 3 (mmul 3 (mtrans (ent3 (m3_one : Mat3 R))) (ent3 (m3_of_quat bq))).
Proof. exact slerp3_case. Qed.
