(** C103: rotations as quaternions and matrices in binary numbers of any
    format. *)
From Coq Require Import Reals ZArith List Lra Lia Bool.
From Flocq Require Import Core.Core IEEE754.BinarySingleNaN.
From Verif.Base Require Import Outcome Array Scalar ScalarR ScalarF ScalarF32.
From Verif.Model Require Import Types Functions Vec Mat2 Mat3 Quat.
From Verif.Spec Require Import VecSpec QuatSpec FloatSpec IeeeSpec TrigSpec QuatErrorSpec.
From Verif.Proof Require Import Ieee IeeeVec IeeeWitness IeeeQuatRot IeeeQuatOf IeeeSlerp QuatErrorWitness.
Import ListNotations.
Local Open Scope R_scope.

(** C103. Mat3 of a quaternion near a rotation. *)
Theorem C103_matrix {p e : Z} {Hp : Prec_gt_0 p} {He : Prec_lt_emax p e} (O : RealOps (binary_float p e)) (I : ieee O)
  d (q : Quat (binary_float p e)) (r : Quat R) : unit p <= d -> d <= 1 / 400 -> unitq r -> by_at_mostq d q r -> turns_like (21 * d) (m3_of_quat q) r.
Proof. exact (matrix_of_quaternion O I d q r). Qed.
Print Assumptions C103_matrix.
(** C103. Quat of a Mat3 near a rotation, in every branch: near one of the two
    quaternions of that rotation. *)
Theorem C103_quaternion {p e : Z} {Hp : Prec_gt_0 p} {He : Prec_lt_emax p e} (O : RealOps (binary_float p e)) (I : ieee O)
  d (m : Mat3 (binary_float p e)) (r : Quat R) : unit p <= d -> d <= 1 / 4096 -> unitq r -> turns_like d m r ->
  by_at_mostq (28 * d) (q_of_mat3 m) r \/ by_at_mostq (28 * d) (q_of_mat3 m) (qneg r).
Proof. exact (quaternion_of_matrix O I d m r). Qed.
Print Assumptions C103_quaternion.
(** C103. Quat::rotated. *)
Theorem C103_rotated {p e : Z} {Hp : Prec_gt_0 p} {He : Prec_lt_emax p e} (O : RealOps (binary_float p e)) (I : ieee O)
  d V (q : Quat (binary_float p e)) (r : Quat R) (v : Vec3 (binary_float p e)) : unit p <= d -> d <= 1 / 400 -> unitq r -> by_at_mostq d q r -> finite3 v -> Rabs (num (x3 v)) <= V -> Rabs (num (y3 v)) <= V -> Rabs (num (z3 v)) <= V -> 4 * (V + 1) <= huge e ->
  by_at_most3 (75 * d * (V + tiny e)) (q_rotated q v) (qturn r (num3 v)).
Proof. exact (rotated_vector O I d V q r v). Qed.
Print Assumptions C103_rotated.
(** C103. Quat::normalize. *)
Theorem C103_normalize {p e : Z} {Hp : Prec_gt_0 p} {He : Prec_lt_emax p e} (O : RealOps (binary_float p e)) (I : ieee O)
  a (q : Quat (binary_float p e)) (C : Quat R) : 0 <= a -> a <= 1 / 32 -> 1 / 2 <= qlen C <= 2 -> by_at_mostq a q C -> by_at_mostq (3 * a / qlen C + 21 * unit p) (q_normalize q) (directionq C).
Proof. exact (normalized_near O I a q C). Qed.
Print Assumptions C103_normalize.
(** C103. The product of two quaternions. *)
Theorem C103_product {p e : Z} {Hp : Prec_gt_0 p} {He : Prec_lt_emax p e} (O : RealOps (binary_float p e)) (I : ieee O)
  d (f g : Quat (binary_float p e)) F G : unit p <= d -> d <= 1 / 400 -> unitq F -> unitq G -> by_at_mostq d f F -> by_at_mostq d g G -> by_at_mostq (18 * d) (q_mul f g) (hamilton F G) /\ unitq (hamilton F G).
Proof. exact (product_near O I d f g F G). Qed.
Print Assumptions C103_product.
(** C103. Quat::inverse. *)
Theorem C103_inverse {p e : Z} {Hp : Prec_gt_0 p} {He : Prec_lt_emax p e} (O : RealOps (binary_float p e)) (I : ieee O)
  d (f : Quat (binary_float p e)) F : by_at_mostq d f F -> by_at_mostq d (q_inverse f) (qconj F).
Proof. exact (inverse_near O I d f F). Qed.
Print Assumptions C103_inverse.
(** C103. Quat::lerp, where the two do not cancel. *)
Theorem C103_lerp {p e : Z} {Hp : Prec_gt_0 p} {He : Prec_lt_emax p e} (O : RealOps (binary_float p e)) (I : ieee O)
  d (f g : Quat (binary_float p e)) F G (w : (binary_float p e)) : unit p <= d -> d <= 1 / 400 -> unitq F -> unitq G -> by_at_mostq d f F -> by_at_mostq d g G -> finite w -> 0 <= num w <= 1 ->
  let C := qcomb (1 - num w) F (num w) G in 1 / 2 <= qlen C -> exists r, q_lerp f g w = Ok r /\ by_at_mostq (28 * d / qlen C + 21 * unit p) r (directionq C).
Proof. exact (lerp_near O I d f g F G w). Qed.
Print Assumptions C103_lerp.
(** C103. Quat::slerp goes along the arc to the nearer of the two quaternions of the
    target, or along the chord where the arc is short. *)
Theorem C103_slerp {p e : Z} {Hp : Prec_gt_0 p} {He : Prec_lt_emax p e} (O : RealOps (binary_float p e)) (I : ieee O) (k : nat) (C : trig O k) (A : arccos O k)
  d (f g : Quat (binary_float p e)) F G (w : (binary_float p e)) : unit p <= d -> gamma p k <= d -> d <= 1 / 65536 -> unitq F -> unitq G -> by_at_mostq d f F -> by_at_mostq d g G -> finite w -> 0 <= num w <= 1 ->
  exists r H, q_slerp f g w = Ok r /\ (H = G \/ H = qneg G) /\ - (18 * d) <= qdot F H /\
    (qdot F H <= 95 / 100 + 19 * d /\ by_at_mostq (1300 * d) r (arcq F H (num w)) \/
     95 / 100 - 19 * d <= qdot F H /\ by_at_mostq (50 * d) r (directionq (qcomb (1 - num w) F (num w) H))).
Proof. exact (slerp_near O I k C A d f g F G w). Qed.
Print Assumptions C103_slerp.
(** C103. Mat3::orthonormalise keeps a rotation, up to rounding. *)
Theorem C103_orthonormalise {p e : Z} {Hp : Prec_gt_0 p} {He : Prec_lt_emax p e} (O : RealOps (binary_float p e)) (I : ieee O)
  d (m : Mat3 (binary_float p e)) r : unit p <= d -> d <= 1 / 65536 -> unitq r -> turns_like d m r -> turns_like (2205 * d) (m3_orthonormalise m) r.
Proof. exact (orthonormalise_near O I d m r). Qed.
Print Assumptions C103_orthonormalise.
(** C103. Mat3::slerp. *)
Theorem C103_matrix_slerp {p e : Z} {Hp : Prec_gt_0 p} {He : Prec_lt_emax p e} (O : RealOps (binary_float p e)) (I : ieee O) (k : nat) (C : trig O k) (A : arccos O k)
  d (a b : Mat3 (binary_float p e)) F G (w : (binary_float p e)) : unit p <= d -> gamma p k <= d -> d <= 1 / 14600000 -> unitq F -> unitq G -> turns_like d a F -> turns_like d b G -> finite w -> 0 <= num w <= 1 ->
  exists r H, m3_slerp a b w = Ok r /\ (H = G \/ H = qneg G) /\ - (504 * d) <= qdot F H /\
    (qdot F H <= 95 / 100 + 532 * d /\ turns_like (764400 * d) r (arcq F H (num w)) \/
     95 / 100 - 532 * d <= qdot F H /\ turns_like (29400 * d) r (directionq (qcomb (1 - num w) F (num w) H))).
Proof. exact (matrix_slerp_near O I k C A d a b F G w). Qed.
Print Assumptions C103_matrix_slerp.
(** C103. There are such libraries for doubles and floats. *)
Theorem C103_libraries : (exists L : Libm, trig (F_ops L) 4 /\ arccos (F_ops L) 4) /\ (exists K : Libm32, trig (F32_ops K) 4 /\ arccos (F32_ops K) 4).
Proof. exact arccos_exists. Qed.
Print Assumptions C103_libraries.
(** Non-vacuity: a turn of 120 degrees about (1, 1, 1) and no turn. *)
Example C103_case (L : Libm) : let d := 5 * unit 53 in
  unit 53 <= d /\ gamma 53 4 <= d /\ d <= 1 / 14600000 /\ unitq third_turn /\ unitq (mkQ 0 0 0 1) /\
  by_at_mostq d (mkQ half64 half64 half64 half64) third_turn /\ by_at_mostq d (mkQ (@fofZ F64 (F_ops L) 0%Z) (@fofZ F64 (F_ops L) 0%Z) (@fofZ F64 (F_ops L) 0%Z) (@fofZ F64 (F_ops L) 1%Z)) (mkQ 0 0 0 1) /\
  turns_like d (mkM3 (mkV3 (@fofZ F64 (F_ops L) 0%Z) (@fofZ F64 (F_ops L) 1%Z) (@fofZ F64 (F_ops L) 0%Z)) (mkV3 (@fofZ F64 (F_ops L) 0%Z) (@fofZ F64 (F_ops L) 0%Z) (@fofZ F64 (F_ops L) 1%Z)) (mkV3 (@fofZ F64 (F_ops L) 1%Z) (@fofZ F64 (F_ops L) 0%Z) (@fofZ F64 (F_ops L) 0%Z)) flags_uninit) third_turn /\
  qdot (mkQ 0 0 0 1) third_turn = 1 / 2.
Proof. exact (ex_turn_case L). Qed.
