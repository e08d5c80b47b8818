(** Properties C35, C42-C47: Vec3 slerp and quaternions, over R. *)
From Coq Require Import Reals ZArith Arith Lra Lia.
From Verif.Base Require Import Outcome Scalar ScalarR.
From Verif.Model Require Import Types Functions Vec Mat3 Quat Mat4.
From Verif.Spec Require Import LinAlg VecSpec MatSpec QuatSpec.
From Verif.Proof Require Import QuatProofs QuatArc QuatSlerp QuatMore MatExamples Vec3Slerp QuatExamples.
Local Open Scope R_scope.

(** C35. Ends, then the three regimes: spherical with an angle of at most a
    right angle, flat, and null vectors. 13421773/268435456 is the literal
    0.05f, compared with the sine of the angle. *)
Theorem C35_slerp_ends (u v : Vec3 R) : v3_slerp u v 0 = Ok u /\ v3_slerp u v 1 = Ok v.
Proof. exact (v3_slerp_ends u v). Qed.
Print Assumptions C35_slerp_ends.
Theorem C35_slerp_acute_partial (u v : Vec3 R) t : u <> zero3 -> v <> zero3 -> 0 < t < 1 -> 0 <= dot3 u v ->
  13421773 / 268435456 * (norm3 u * norm3 v) <= norm3 (cross3 u v) ->
  exists w a, v3_slerp u v t = Ok w /\ norm3 w = (1 - t) * norm3 u + t * norm3 v /\
    0 <= a <= PI / 2 /\ dot3 u v = norm3 u * norm3 v * cos a /\
    dot3 u w = norm3 u * norm3 w * cos (t * a) /\ dot3 w v = norm3 w * norm3 v * cos ((1 - t) * a).
Proof. exact (v3_slerp_acute u v t). Qed.
Print Assumptions C35_slerp_acute_partial.
Theorem C35_slerp_flat (u v : Vec3 R) t : u <> zero3 -> v <> zero3 ->
  norm3 (cross3 u v) < 13421773 / 268435456 * (norm3 u * norm3 v) ->
  v3_slerp u v t = Ok (plus3 (smul3 (1 - t) u) (smul3 t v)).
Proof. exact (v3_slerp_flat u v t). Qed.
Print Assumptions C35_slerp_flat.
Theorem C35_slerp_null (u v : Vec3 R) t : u = zero3 \/ v = zero3 ->
  v3_slerp u v t = Ok (plus3 (smul3 (1 - t) u) (smul3 t v)).
Proof. exact (v3_slerp_null u v t). Qed.
Print Assumptions C35_slerp_null.
(** Finding: beyond a right angle the supplementary angle is used, so slerp
    turns too little, by t (PI - a) instead of t a. *)
Theorem C35_slerp_obtuse (u v : Vec3 R) t : u <> zero3 -> v <> zero3 -> 0 < t < 1 -> dot3 u v <= 0 ->
  13421773 / 268435456 * (norm3 u * norm3 v) <= norm3 (cross3 u v) ->
  exists w a, v3_slerp u v t = Ok w /\ norm3 w = (1 - t) * norm3 u + t * norm3 v /\
    PI / 2 <= a <= PI /\ dot3 u v = norm3 u * norm3 v * cos a /\
    dot3 u w = norm3 u * norm3 w * cos (t * (PI - a)).
Proof. exact (v3_slerp_obtuse u v t). Qed.
Print Assumptions C35_slerp_obtuse.
Theorem C35_slerp_obtuse_refuted : exists u v w, norm3 u = 1 /\ norm3 v = 1 /\ v3_slerp u v (1 / 2) = Ok w /\
  dot3 u v = - (3 / 5) /\ norm3 w = 1 /\ dot3 u w * dot3 u w = 4 / 5.
Proof. exact v3_slerp_obtuse_refuted. Qed.
Print Assumptions C35_slerp_obtuse_refuted.
(** slerpMaxAngle turns by at most m, towards v. *)
Theorem C35_slerpMaxAngle_acute_partial (u v : Vec3 R) m : u <> zero3 -> v <> zero3 -> 0 < m -> 0 <= dot3 u v -> cross3 u v <> zero3 ->
  exists w a, v3_slerpMaxAngle u v m = Ok w /\ 0 < a <= PI / 2 /\ dot3 u v = norm3 u * norm3 v * cos a /\
    let b := Rmin a m in
    norm3 w = (1 - b / a) * norm3 u + b / a * norm3 v /\
    dot3 u w = norm3 u * norm3 w * cos b /\ dot3 w v = norm3 w * norm3 v * cos (a - b).
Proof. exact (v3_slerpMaxAngle_acute u v m). Qed.
Print Assumptions C35_slerpMaxAngle_acute_partial.
(** Finding: towards the opposite vector the limit is ignored. *)
Theorem C35_slerpMaxAngle_opposite_refuted m : 0 < m -> v3_slerpMaxAngle (mkV3 1 0 0) (mkV3 (-1) 0 0) m = Ok (mkV3 (-1) 0 0).
Proof. exact (v3_slerpMaxAngle_opposite_refuted m). Qed.
Print Assumptions C35_slerpMaxAngle_opposite_refuted.
Example C35_case : let u := mkV3 1 0 0 in let v := mkV3 0 2 0 in let w := mkV3 (-1) 1 0 in
  u <> zero3 /\ v <> zero3 /\ 0 <= dot3 u v /\ 13421773 / 268435456 * (norm3 u * norm3 v) <= norm3 (cross3 u v) /\
  cross3 u v <> zero3 /\ dot3 u w <= 0.
Proof. exact v3_slerp_case. Qed.

(** C42. *)
Theorem C42_product (p q r : Quat R) :
  q_mul p q = hamilton p q /\ q_mul (q_mul p q) r = q_mul p (q_mul q r) /\
  qnorm2 (q_mul p q) = qnorm2 p * qnorm2 q /\ q_mul q_one q = q /\ q_mul q q_one = q.
Proof. exact (q_mul_laws p q r). Qed.
Print Assumptions C42_product.
Theorem C42_inverse (q : Quat R) : qnorm2 q = 1 ->
  q_mul q (q_inverse q) = q_one /\ q_mul (q_inverse q) q = q_one /\ qnorm2 (q_inverse q) = 1.
Proof. exact (q_inverse_laws q). Qed.
Print Assumptions C42_inverse.
(** The vector is turned by rotated() and by the matrix. *)
Theorem C42_matrix (p q : Quat R) : qnorm2 p = 1 -> qnorm2 q = 1 ->
  meq 3 (ent3 (m3_of_quat (q_mul p q))) (mmul 3 (ent3 (m3_of_quat p)) (ent3 (m3_of_quat q))) /\
  meq 3 (ent3 (m3_of_quat (q_inverse q))) (mtrans (ent3 (m3_of_quat q))) /\
  meq 3 (ent3 (m3_of_quat (q_opp q))) (ent3 (m3_of_quat q)) /\
  (forall v, q_rotated q v = qturn q v /\ m3_apply (m3_of_quat q) v = qturn q v).
Proof. exact (q_matrix_laws p q). Qed.
Print Assumptions C42_matrix.
Theorem C42_rotated_coord (q : Quat R) (c : Coord) : qnorm2 q = 1 ->
  match coord_vec c with
  | Some n => q_rotated_coord q c = Ok (qturn q n)
  | None => q_rotated_coord q c = AssertFail
  end.
Proof. exact (q_rotated_coord_eq q c). Qed.
Print Assumptions C42_rotated_coord.
(** Finding: q * v is only half of the rotation, the vector part of q (v,0). *)
Theorem C42_times_vector (q : Quat R) v : q_mul_v3 q v = qvec (hamilton q (quat v 0)).
Proof. exact (q_mul_v3_eq q v). Qed.
Print Assumptions C42_times_vector.
Theorem C42_times_vector_refuted : exists (q : Quat R) v, qnorm2 q = 1 /\ q_mul_v3 q v <> qturn q v.
Proof. exact q_mul_v3_refuted. Qed.
Print Assumptions C42_times_vector_refuted.
Example C42_case : let p := mkQ (3/5) 0 0 (4/5) in let q := mkQ 0 (5/13) 0 (12/13) in
  qnorm2 p = 1 /\ qnorm2 q = 1 /\ q_mul p q <> q_mul q p.
Proof. exact quat_case. Qed.

(** C43. *)
Theorem C43_round_trip (m : Mat3 R) : rotation (ent3 m) ->
  qnorm2 (q_of_mat3 m) = 1 /\ meq 3 (ent3 (m3_of_quat (q_of_mat3 m))) (ent3 m).
Proof. exact (q_of_mat3_spec m). Qed.
Print Assumptions C43_round_trip.
(** A half turn, where the first branch of the conversion does not apply. *)
Example C43_case : exists m : Mat3 R, rotation (ent3 m) /\ trace 3 (ent3 m) = -1.
Proof. exact mat_quat_case. Qed.

(** C44. Apart from nearly opposite directions; for nearly equal directions
    the identity is returned and the directions differ by less than 0.0045. *)
Theorem C44_between_partial (a b : Vec3 R) : a <> zero3 -> b <> zero3 ->
  - (99999 / 100000) <= dot3 a b / (norm3 a * norm3 b) <= 99999 / 100000 ->
  qnorm2 (q_between a b) = 1 /\ qturn (q_between a b) (smul3 (/ norm3 a) a) = smul3 (/ norm3 b) b.
Proof. exact (q_between_spec a b). Qed.
Print Assumptions C44_between_partial.
Theorem C44_near_partial (a b : Vec3 R) : a <> zero3 -> b <> zero3 -> 99999 / 100000 < dot3 a b / (norm3 a * norm3 b) ->
  q_between a b = qone /\
  dot3 (minus3 (smul3 (/ norm3 a) a) (smul3 (/ norm3 b) b)) (minus3 (smul3 (/ norm3 a) a) (smul3 (/ norm3 b) b)) < 2 / 100000.
Proof. exact (q_between_near a b). Qed.
Print Assumptions C44_near_partial.
(** Finding: for opposite directions the result is the identity rotation. *)
Theorem C44_opposite (a b : Vec3 R) : a <> zero3 -> b <> zero3 -> dot3 a b / (norm3 a * norm3 b) < - (99999 / 100000) ->
  q_between a b = qneg qone /\ forall u, qturn (q_between a b) u = u.
Proof. exact (q_between_opposite a b). Qed.
Print Assumptions C44_opposite.
Theorem C44_opposite_refuted : exists a b, norm3 a = 1 /\ norm3 b = 1 /\ qturn (q_between a b) a = a /\ a <> b.
Proof. exact q_between_refuted. Qed.
Print Assumptions C44_opposite_refuted.
Example C44_case : let a := mkV3 1 0 0 in let b := mkV3 0 1 0 in
  - (99999 / 100000) <= dot3 a b / (norm3 a * norm3 b) <= 99999 / 100000 /\ a <> zero3 /\ b <> zero3.
Proof. exact between_case. Qed.

(** C45. Exact on the spherical branch; on the other branch the result is
    within 1/30 of the exact one. *)
Theorem C45_slerp_arc (p q : Quat R) t : qnorm2 p = 1 -> qnorm2 q = 1 -> 0 <= t <= 1 -> Rabs (qdot p q) < 95 / 100 ->
  exists r q' a, q_slerp p q t = Ok r /\ qnorm2 r = 1 /\ (q' = q \/ q' = qneg q) /\
    0 < a <= PI / 2 /\ qdot p q' = cos a /\ qdot p r = cos (t * a) /\ qdot r q' = cos ((1 - t) * a) /\
    (t = 0 -> r = p) /\ (t = 1 -> r = q').
Proof. exact (q_slerp_arc p q t). Qed.
Print Assumptions C45_slerp_arc.
Theorem C45_slerp_near_partial (p q : Quat R) t : qnorm2 p = 1 -> qnorm2 q = 1 -> 0 <= t <= 1 -> 95 / 100 <= Rabs (qdot p q) ->
  exists r q' s a, q_slerp p q t = Ok r /\ qnorm2 r = 1 /\ (q' = q \/ q' = qneg q) /\
    0 <= a <= PI / 2 /\ qdot p q' = cos a /\ qnorm2 s = 1 /\ qdot p s = cos (t * a) /\ qdot s q' = cos ((1 - t) * a) /\
    qdist2 r s <= 1 / 30 * (1 / 30) /\ (t = 0 -> r = p) /\ (t = 1 -> r = q').
Proof. exact (q_slerp_near p q t). Qed.
Print Assumptions C45_slerp_near_partial.
Theorem C45_slerp_outside (p q : Quat R) t : t < 0 \/ 1 < t -> q_slerp p q t = AssertFail.
Proof. exact (q_slerp_outside p q t). Qed.
Print Assumptions C45_slerp_outside.
(** lerp: the unit quaternion in the direction of (1-t) p + t q. *)
Theorem C45_lerp (p q : Quat R) t : qnorm2 p = 1 -> qnorm2 q = 1 -> 0 <= t <= 1 -> (1 / 2 <> t \/ qdot p q <> -1) ->
  exists r n, q_lerp p q t = Ok r /\ qnorm2 r = 1 /\ 0 < n /\ qcomb n r 0 r = qcomb (1 - t) p t q /\
    n * n = 1 - 2 * t * (1 - t) * (1 - qdot p q) /\ (t = 0 -> r = p) /\ (t = 1 -> r = q).
Proof. exact (q_lerp_spec p q t). Qed.
Print Assumptions C45_lerp.
Theorem C45_slerpNoInvert (p q : Quat R) t : qnorm2 p = 1 -> qnorm2 q = 1 -> 0 <= t <= 1 -> -1 < qdot p q < 15938355 / 16777216 ->
  exists r a, q_slerpNoInvert p q t = Ok r /\ qnorm2 r = 1 /\ 0 < a < PI /\ qdot p q = cos a /\
    qdot p r = cos (t * a) /\ qdot r q = cos ((1 - t) * a).
Proof. exact (q_slerpNoInvert_arc p q t). Qed.
Print Assumptions C45_slerpNoInvert.
Theorem C45_squad_ends (p q a b : Quat R) : qnorm2 p = 1 -> qnorm2 q = 1 -> qnorm2 a = 1 -> qnorm2 b = 1 ->
  -1 < qdot p q -> -1 < qdot a b -> -1 < qdot p a -> -1 < qdot q b ->
  q_squad p q a b 0 = Ok p /\ q_squad p q a b 1 = Ok q.
Proof. exact (q_squad_ends p q a b). Qed.
Print Assumptions C45_squad_ends.
(** slerpMaxAngle is right when it starts from the identity rotation. *)
Theorem C45_slerpMaxAngle_partial (q : Quat R) m : qnorm2 q = 1 -> q_DELTA < dot3 (qvec q) (qvec q) -> 0 <= m ->
  exists axis angle, q = q_of_axis axis angle /\ norm3 axis = 1 /\ 0 <= angle <= 2 * PI /\
    q_slerpMaxAngle q_one q m = Ok (q_of_axis axis (Rmin angle m)).
Proof. exact (q_one_slerpMax q m). Qed.
Print Assumptions C45_slerpMaxAngle_partial.
(** Finding: from any other start the start is forgotten. *)
Theorem C45_slerpMaxAngle_refuted : exists p : Quat R, qnorm2 p = 1 /\ forall m, 0 <= m ->
  q_slerpMaxAngle p p m = Ok qone /\ p <> qone /\ p <> qneg qone.
Proof. exact q_slerpMaxAngle_refuted. Qed.
Print Assumptions C45_slerpMaxAngle_refuted.
Example C45_case : let p := mkQ (3/5) 0 0 (4/5) in let q := mkQ 0 (5/13) 0 (12/13) in let r := mkQ (5/13) 0 0 (12/13) in
  qnorm2 p = 1 /\ qnorm2 q = 1 /\ qnorm2 r = 1 /\ Rabs (qdot p q) < 95 / 100 /\ 95 / 100 <= Rabs (qdot p r).
Proof. exact slerp_case. Qed.

(** C46. Exactly when division undoes multiplication by a unit quaternion:
    for half turns and for the real ones only. *)
Theorem C46_division_partial (b : Quat R) : qnorm2 b = 1 -> qw b * qw b <> dot3 (qvec b) (qvec b) ->
  ((forall a, q_mul (q_div a b) b = a) <-> qw b = 0 \/ qvec b = zero3).
Proof. exact (q_div_iff b). Qed.
Print Assumptions C46_division_partial.
Theorem C46_division_refuted : exists a b : Quat R, qnorm2 b = 1 /\ q_mul (q_div a b) b <> a.
Proof. exact q_div_refuted. Qed.
Print Assumptions C46_division_refuted.

(** C47. [q_DELTA] is the literal 1e-6f. *)
Theorem C47_axis_angle_partial (q : Quat R) : qnorm2 q = 1 -> q_DELTA < dot3 (qvec q) (qvec q) ->
  exists axis angle, q_toAxisAngle q = Ok (axis, angle) /\ norm3 axis = 1 /\ 0 <= angle <= 2 * PI /\ q_of_axis axis angle = q.
Proof. exact (q_toAxisAngle_spec q). Qed.
Print Assumptions C47_axis_angle_partial.
(** The quaternion of an axis and an angle is the rotation by that angle. *)
Theorem C47_of_axis_angle (axis : Vec3 R) a : axis <> zero3 ->
  qnorm2 (q_of_axis axis a) = 1 /\
  (forall u, qturn (q_of_axis axis a) u = rodrigues (smul3 (/ norm3 axis) axis) a u) /\
  meq 3 (ent3 (m3_of_quat (q_of_axis axis a))) (ent3 (m3_rotation axis a)).
Proof. exact (q_of_axis_spec axis a). Qed.
Print Assumptions C47_of_axis_angle.
Theorem C47_of_axis_zero a : q_of_axis zero3 a = qone.
Proof. exact (q_of_axis_zero a). Qed.
Print Assumptions C47_of_axis_zero.
Theorem C47_small (q : Quat R) : qnorm2 q = 1 -> dot3 (qvec q) (qvec q) <= q_DELTA ->
  q_toAxisAngle q = Ok (mkV3 1 0 0, 0).
Proof. exact (q_toAxisAngle_small q). Qed.
Print Assumptions C47_small.
(** Finding: rotations by less than 0.002 radian become the identity. *)
Theorem C47_small_refuted : exists q angle axis, qnorm2 q = 1 /\ q <> qone /\ q <> qneg qone /\
  q_toAxisAngle q = Ok (axis, angle) /\ q_of_axis axis angle = qone.
Proof. exact q_small_refuted. Qed.
Print Assumptions C47_small_refuted.
Theorem C47_exp_log (q : Quat R) : qnorm2 q = 1 -> qw q <> -1 -> q_exp (q_log q) = q.
Proof. exact (q_exp_log q). Qed.
Print Assumptions C47_exp_log.
(** Finding: exp(log(-1)) is 1 (the same rotation). *)
Theorem C47_exp_log_minus_one_refuted : q_exp (q_log (qneg qone)) = qone.
Proof. exact q_exp_log_minus_one. Qed.
Print Assumptions C47_exp_log_minus_one_refuted.
Example C47_case : let q := mkQ (3/5) 0 0 (4/5) in qnorm2 q = 1 /\ q_DELTA < dot3 (qvec q) (qvec q) /\ qw q <> -1.
Proof. exact axis_angle_case. Qed.
