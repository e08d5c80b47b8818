(** Matrices obtained by sequences of public operations, starting from the
    identity and from constructors of rotations. *)
From Coq Require Import Reals.
From Verif.Base Require Import Outcome Scalar ScalarR.
From Verif.Model Require Import Types Functions Vec Mat2 Mat3 Quat Mat4.
From Verif.Spec Require Import VecSpec QuatSpec.
Local Open Scope R_scope.

Inductive built2 : Mat2 R -> Prop :=
| b2_one : built2 m2_one
| b2_identity : built2 m2_setIdentity
| b2_rotation a : built2 (m2_rotation a)
| b2_mul m n : built2 m -> built2 n -> built2 (m2_mul m n)
| b2_mulAssign m n : built2 m -> built2 n -> built2 (m2_mulAssign m n)
| b2_rotated m a : built2 m -> built2 (m2_rotated m a)
| b2_rotatePre m a : built2 m -> built2 (m2_rotatePre m a)
| b2_transposed m : built2 m -> built2 (m2_transposed m)
| b2_inversed m r : built2 m -> m2_inversed m = Ok r -> built2 r
| b2_orthonormalise m : built2 m -> built2 (m2_orthonormalise m)
| b2_slerp m n w r : built2 m -> built2 n -> m2_slerp m n w = Ok r -> built2 r
| b2_slerpMaxAngle m n a r : built2 m -> built2 n -> m2_slerpMaxAngle m n a = Ok r -> built2 r
| b2_optimize m : built2 m -> built2 (m2_optimize m).

(** [coord] says whether rotate, rotated, rotatePre and rotatedPre with a
    coordinate axis are among the operations. *)
Inductive built3 (coord : bool) : Mat3 R -> Prop :=
| b3_one : built3 coord m3_one
| b3_identity : built3 coord m3_setIdentity
| b3_quat q : qnorm2 q = 1 -> built3 coord (m3_of_quat q)
| b3_axis u a : u <> zero3 -> built3 coord (m3_rotation u a)
| b3_coord c a m : m3_rotation_coord c a = Ok m -> built3 coord m
| b3_two e u a v m : m3_set_two e u a v = Ok m -> built3 coord m
| b3_mul m n : built3 coord m -> built3 coord n -> built3 coord (m3_mul m n)
| b3_mulAssign m n : built3 coord m -> built3 coord n -> built3 coord (m3_mulAssign m n)
| b3_rotated m n : built3 coord m -> built3 coord n -> built3 coord (m3_rotated_mat m n)
| b3_rotated_quat m q : built3 coord m -> qnorm2 q = 1 -> built3 coord (m3_rotated_quat m q)
| b3_rotated_axis m u a : built3 coord m -> u <> zero3 -> built3 coord (m3_rotated_axis m u a)
| b3_rotatedPre_quat m q : built3 coord m -> qnorm2 q = 1 -> built3 coord (m3_rotatedPre_quat m q)
| b3_rotatedPre_axis m u a : built3 coord m -> u <> zero3 -> built3 coord (m3_rotatedPre_axis m u a)
| b3_rotated_coord m c a r : coord = true -> built3 coord m -> m3_rotated_coord m c a = Ok r -> built3 coord r
| b3_rotatedPre_coord m c a r : coord = true -> built3 coord m -> m3_rotatedPre_coord m c a = Ok r -> built3 coord r
| b3_transposed m : built3 coord m -> built3 coord (m3_transposed m)
| b3_invert m r : built3 coord m -> m3_invert m = Ok r -> built3 coord r
| b3_inversed m r : built3 coord m -> m3_inversed m = Ok r -> built3 coord r
| b3_slerp m n w r : built3 coord m -> built3 coord n -> m3_slerp m n w = Ok r -> built3 coord r
| b3_slerpMaxAngle m n a r : built3 coord m -> built3 coord n -> m3_slerpMaxAngle m n a = Ok r -> built3 coord r
| b3_orthonormalise m : built3 coord m -> built3 coord (m3_orthonormalise m)
| b3_optimize m : built3 coord m -> built3 coord (m3_optimize m).

Inductive built4 : Mat4 R -> Prop :=
| b4_one : built4 m4_one
| b4_identity : built4 m4_setIdentity
| b4_quat q t : qnorm2 q = 1 -> built4 (m4_of_quat q t)
| b4_axis u a : u <> zero3 -> built4 (m4_rotation u a)
| b4_coord c a m : m4_rotation_coord c a = Ok m -> built4 m
| b4_two e u a v m : m4_set_two e u a v = Ok m -> built4 m
| b4_mul m n : built4 m -> built4 n -> built4 (m4_mul m n)
| b4_transform m n : built4 m -> built4 n -> built4 (m4_transform m n)
| b4_transformPre m n : built4 m -> built4 n -> built4 (m4_transformPre m n)
| b4_rotate_quat m q : built4 m -> qnorm2 q = 1 -> built4 (m4_rotate_quat m q)
| b4_rotate_axis m u a : built4 m -> u <> zero3 -> built4 (m4_rotate_axis m u a)
| b4_rotate_coord m c a r : built4 m -> m4_rotate_coord m c a = Ok r -> built4 r
| b4_rotatePre_quat m q : built4 m -> qnorm2 q = 1 -> built4 (m4_rotatePre_quat m q)
| b4_rotatePre_axis m u a : built4 m -> u <> zero3 -> built4 (m4_rotatePre_axis m u a)
| b4_rotatePre_coord m c a r : built4 m -> m4_rotatePre_coord m c a = Ok r -> built4 r
| b4_translate m u : built4 m -> built4 (m4_translate m u)
| b4_translated m u : built4 m -> built4 (m4_translated m u)
| b4_translatePre m u : built4 m -> built4 (m4_translatePre m u)
| b4_translatedPre m u : built4 m -> built4 (m4_translatedPre m u)
| b4_invert m : built4 m -> built4 (m4_invert m)
| b4_inversed m r : built4 m -> m4_inversed m = Ok r -> built4 r
| b4_orthonormalise m : built4 m -> built4 (m4_orthonormalise m)
| b4_optimize m : built4 m -> built4 (m4_optimize m).

(** Any matrix obtained by public operations, for the identity bit. *)
Inductive any2 : Mat2 R -> Prop :=
| a2_scalar k : any2 (m2_scalar k)
| a2_set u v : any2 (m2_set u v)
| a2_identity : any2 m2_setIdentity
| a2_rotation a : any2 (m2_rotation a)
| a2_mul m n : any2 m -> any2 n -> any2 (m2_mul m n)
| a2_mulAssign m n : any2 m -> any2 n -> any2 (m2_mulAssign m n)
| a2_mulAssign_self m : any2 m -> any2 (m2_mulAssign_self m)
| a2_mul_k m k : any2 m -> any2 (m2_mul_k m k)
| a2_mulAssign_k m k : any2 m -> any2 (m2_mulAssign_k m k)
| a2_div m k r : any2 m -> m2_div m k = Ok r -> any2 r
| a2_divAssign m k r : any2 m -> m2_divAssign m k = Ok r -> any2 r
| a2_opp m : any2 m -> any2 (m2_opp m)
| a2_scaled m k : any2 m -> any2 (m2_scaled m k)
| a2_transposed m : any2 m -> any2 (m2_transposed m)
| a2_rotated m a : any2 m -> any2 (m2_rotated m a)
| a2_rotatePre m a : any2 m -> any2 (m2_rotatePre m a)
| a2_orthonormalise m : any2 m -> any2 (m2_orthonormalise m)
| a2_cofactors m : any2 m -> any2 (m2_cofactors m)
| a2_adjoint m : any2 m -> any2 (m2_adjoint m)
| a2_inversed m r : any2 m -> m2_inversed m = Ok r -> any2 r
| a2_slerp m n w r : any2 m -> any2 n -> m2_slerp m n w = Ok r -> any2 r
| a2_slerpMaxAngle m n a r : any2 m -> any2 n -> m2_slerpMaxAngle m n a = Ok r -> any2 r
| a2_optimize m : any2 m -> any2 (m2_optimize m).

(** All of Mat3 except rotate, rotated, rotatePre, rotatedPre around a
    coordinate axis. *)
Inductive any3 : Mat3 R -> Prop :=
| a3_scalar k : any3 (m3_scalar k)
| a3_set u v w : any3 (m3_set u v w)
| a3_identity : any3 m3_setIdentity
| a3_quat q : any3 (m3_of_quat q)
| a3_rotation u a : any3 (m3_rotation u a)
| a3_coord c a m : m3_rotation_coord c a = Ok m -> any3 m
| a3_two e u a v m : m3_set_two e u a v = Ok m -> any3 m
| a3_mul m n : any3 m -> any3 n -> any3 (m3_mul m n)
| a3_mulAssign m n : any3 m -> any3 n -> any3 (m3_mulAssign m n)
| a3_mulAssign_self m : any3 m -> any3 (m3_mulAssign_self m)
| a3_mul_k m k : any3 m -> any3 (m3_mul_k m k)
| a3_mulAssign_k m k : any3 m -> any3 (m3_mulAssign_k m k)
| a3_div m k r : any3 m -> m3_div m k = Ok r -> any3 r
| a3_divAssign m k r : any3 m -> m3_divAssign m k = Ok r -> any3 r
| a3_opp m : any3 m -> any3 (m3_opp m)
| a3_scaled m k : any3 m -> any3 (m3_scaled m k)
| a3_rotated m n : any3 m -> any3 n -> any3 (m3_rotated_mat m n)
| a3_rotated_quat m q : any3 m -> any3 (m3_rotated_quat m q)
| a3_rotated_axis m u a : any3 m -> any3 (m3_rotated_axis m u a)
| a3_rotatedPre_quat m q : any3 m -> any3 (m3_rotatedPre_quat m q)
| a3_rotatedPre_axis m u a : any3 m -> any3 (m3_rotatedPre_axis m u a)
| a3_transposed m : any3 m -> any3 (m3_transposed m)
| a3_orthonormalise m : any3 m -> any3 (m3_orthonormalise m)
| a3_cofactors m : any3 m -> any3 (m3_cofactors m)
| a3_adjoint m : any3 m -> any3 (m3_adjoint m)
| a3_invert m r : any3 m -> m3_invert m = Ok r -> any3 r
| a3_inversed m r : any3 m -> m3_inversed m = Ok r -> any3 r
| a3_slerp m n w r : any3 m -> any3 n -> m3_slerp m n w = Ok r -> any3 r
| a3_slerpMaxAngle m n a r : any3 m -> any3 n -> m3_slerpMaxAngle m n a = Ok r -> any3 r
| a3_optimize m : any3 m -> any3 (m3_optimize m).

(** All of Mat4 except invert and inversed. *)
Inductive any4 : Mat4 R -> Prop :=
| a4_scalar k : any4 (m4_scalar k)
| a4_set4 x y z t : any4 (m4_set4 x y z t)
| a4_set3 x y z t : any4 (m4_set3 x y z t)
| a4_identity : any4 m4_setIdentity
| a4_quat q t : any4 (m4_of_quat q t)
| a4_rotation u a : any4 (m4_rotation u a)
| a4_coord c a m : m4_rotation_coord c a = Ok m -> any4 m
| a4_two e u a v m : m4_set_two e u a v = Ok m -> any4 m
| a4_mul m n : any4 m -> any4 n -> any4 (m4_mul m n)
| a4_transform m n : any4 m -> any4 n -> any4 (m4_transform m n)
| a4_transformPre m n : any4 m -> any4 n -> any4 (m4_transformPre m n)
| a4_mul_k m k : any4 m -> any4 (m4_mul_k m k)
| a4_mulAssign_k m k : any4 m -> any4 (m4_mulAssign_k m k)
| a4_div m k : any4 m -> any4 (m4_div m k)
| a4_divAssign m k r : any4 m -> m4_divAssign m k = Ok r -> any4 r
| a4_opp m : any4 m -> any4 (m4_opp m)
| a4_rotate_quat m q : any4 m -> any4 (m4_rotate_quat m q)
| a4_rotate_axis m u a : any4 m -> any4 (m4_rotate_axis m u a)
| a4_rotate_coord m c a r : any4 m -> m4_rotate_coord m c a = Ok r -> any4 r
| a4_rotatePre_quat m q : any4 m -> any4 (m4_rotatePre_quat m q)
| a4_rotatePre_axis m u a : any4 m -> any4 (m4_rotatePre_axis m u a)
| a4_rotatePre_coord m c a r : any4 m -> m4_rotatePre_coord m c a = Ok r -> any4 r
| a4_translate m u : any4 m -> any4 (m4_translate m u)
| a4_translated m u : any4 m -> any4 (m4_translated m u)
| a4_translatePre m u : any4 m -> any4 (m4_translatePre m u)
| a4_translatedPre m u : any4 m -> any4 (m4_translatedPre m u)
| a4_scale m k : any4 m -> any4 (m4_scale m k)
| a4_scaled m k : any4 m -> any4 (m4_scaled m k)
| a4_scalePre m k : any4 m -> any4 (m4_scalePre m k)
| a4_scaledPre m k : any4 m -> any4 (m4_scaledPre m k)
| a4_transposed m : any4 m -> any4 (m4_transposed m)
| a4_orthonormalise m : any4 m -> any4 (m4_orthonormalise m)
| a4_optimize m : any4 m -> any4 (m4_optimize m).
