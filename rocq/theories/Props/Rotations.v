(** Rotations in IEEE-754 binary numbers of any format (C96), for a sine and a
    cosine that are off by at most k roundings ([trig O k], Spec/TrigSpec.v). *)
From Coq Require Import Reals ZArith List Lra Lia Bool.
From Flocq Require Import Core.Core IEEE754.BinarySingleNaN.
From Verif.Base Require Import Outcome Array Scalar ScalarR ScalarF ScalarF32.
From Verif.Model Require Import Types Functions Vec Mat2 Mat3 Mat4 Quat.
From Verif.Spec Require Import VecSpec QuatSpec IeeeSpec TrigSpec.
From Verif.Proof Require Import Ieee IeeeWitness IeeeTrig IeeeFlags.
Import ListNotations.
Local Open Scope R_scope.

(** C96. There are such functions for doubles and floats: those that round correctly
    have k = 1. *)
Theorem C96_trig : (exists L : Libm, trig (F_ops L) 1) /\ (exists K : Libm32, trig (F32_ops K) 1).
Proof. exact trig_exists. Qed.
Print Assumptions C96_trig.
(** C96. Doubles and floats have more than 24 bits and the tolerance 0.001. *)
Theorem C96_precise : (forall L : Libm, precise (F_ops L)) /\ (forall K : Libm32, precise (F32_ops K)).
Proof. exact precise_formats. Qed.
Print Assumptions C96_precise.
(** C96. Vec2::rotate and rotated, and the length of the result. *)
Theorem C96_rotate2 {p e : Z} {Hp : Prec_gt_0 p} {He : Prec_lt_emax p e} (O : RealOps (binary_float p e)) (I : ieee O) (k : nat) (C : trig O k)
  (u : Vec2 (binary_float p e)) (a : (binary_float p e)) : finite2 u -> finite a ->
  let m := Rabs (num (x2 u)) + Rabs (num (y2 u)) + 2 * tiny e in m <= huge e ->
  approx2 (k + 2) m (v2_rotate u a) (turn2 (num a) (num2 u)) /\ v2_rotated u a = v2_rotate u a /\
  Rabs (norm2 (num2 (v2_rotate u a)) - norm2 (num2 u)) <= gamma p (k + 2) * (9 / 4 * norm2 (num2 u) + 3 * tiny e).
Proof. exact (rotate2_error O I k C u a). Qed.
Print Assumptions C96_rotate2.
(** C96. Vec2 from an angle and a length. *)
Theorem C96_angle {p e : Z} {Hp : Prec_gt_0 p} {He : Prec_lt_emax p e} (O : RealOps (binary_float p e)) (I : ieee O) (k : nat) (C : trig O k)
  (a l : (binary_float p e)) : finite a -> finite l -> Rabs (num l) <= huge e ->
  approx2 (k + 1) (Rabs (num l) + tiny e) (v2_setAngle a l) (turn2 (num a) (mkV2 (num l) 0)).
Proof. exact (angle_error O I k C a l). Qed.
Print Assumptions C96_angle.
(** C96. Vec3::rotate and rotated around a coordinate axis. *)
Theorem C96_rotate3 {p e : Z} {Hp : Prec_gt_0 p} {He : Prec_lt_emax p e} (O : RealOps (binary_float p e)) (I : ieee O) (k : nat) (C : trig O k)
  (u : Vec3 (binary_float p e)) (c : Coord) (a : (binary_float p e)) n : finite3 u -> finite a -> coord_vec c = Some n ->
  let m := Rabs (num (x3 u)) + Rabs (num (y3 u)) + Rabs (num (z3 u)) + 2 * tiny e in m <= huge e ->
  approx3 (k + 2) m (v3_rotate u c a) (rodrigues n (num a) (num3 u)) /\ v3_rotated u c a = v3_rotate u c a.
Proof. exact (rotate3_error O I k C u c a n). Qed.
Print Assumptions C96_rotate3.
(** C96. Mat2 of an angle: the columns are orthogonal exactly and have the same
    length. *)
Theorem C96_mat2 {p e : Z} {Hp : Prec_gt_0 p} {He : Prec_lt_emax p e} (O : RealOps (binary_float p e)) (I : ieee O) (k : nat) (C : trig O k)
  (a : (binary_float p e)) : finite a ->
  let m := m2_rotation a in
  approx2 k 1 (mx2 m) (turn2 (num a) (mkV2 1 0)) /\ approx2 k 1 (my2 m) (turn2 (num a) (mkV2 0 1)) /\
  dot2 (num2 (mx2 m)) (num2 (my2 m)) = 0 /\ dot2 (num2 (mx2 m)) (num2 (mx2 m)) = dot2 (num2 (my2 m)) (num2 (my2 m)) /\
  Rabs (norm2 (num2 (mx2 m)) - 1) <= 3 / 2 * gamma p k.
Proof. exact (mat2_error O I k C a). Qed.
Print Assumptions C96_mat2.
(** C96. Mat3 of a rotation around a coordinate axis. *)
Theorem C96_mat3_coord {p e : Z} {Hp : Prec_gt_0 p} {He : Prec_lt_emax p e} (O : RealOps (binary_float p e)) (I : ieee O) (k : nat) (C : trig O k)
  (c : Coord) (a : (binary_float p e)) n : finite a -> coord_vec c = Some n ->
  exists m, m3_rotation_coord c a = Ok m /\
    approx3 k 1 (mx3 m) (rodrigues n (num a) ex3) /\ approx3 k 1 (my3 m) (rodrigues n (num a) ey3) /\ approx3 k 1 (mz3 m) (rodrigues n (num a) ez3).
Proof. exact (coord3_error O I k C c a n). Qed.
Print Assumptions C96_mat3_coord.
(** C96. Mat4 of a rotation around a coordinate axis. *)
Theorem C96_mat4_coord {p e : Z} {Hp : Prec_gt_0 p} {He : Prec_lt_emax p e} (O : RealOps (binary_float p e)) (I : ieee O) (k : nat) (C : trig O k)
  (c : Coord) (a : (binary_float p e)) n : finite a -> coord_vec c = Some n ->
  exists m, m4_rotation_coord c a = Ok m /\
    approx3 k 1 (upper (mx4 m)) (rodrigues n (num a) ex3) /\ approx3 k 1 (upper (my4 m)) (rodrigues n (num a) ey3) /\ approx3 k 1 (upper (mz4 m)) (rodrigues n (num a) ez3) /\
    num4 (mt4 m) = mkV4 0 0 0 1 /\ num (w4 (mx4 m)) = 0 /\ num (w4 (my4 m)) = 0 /\ num (w4 (mz4 m)) = 0.
Proof. exact (coord4_error O I k C c a n). Qed.
Print Assumptions C96_mat4_coord.
(** C96. Mat3 of a rotation around any axis. *)
Theorem C96_mat3_axis {p e : Z} {Hp : Prec_gt_0 p} {He : Prec_lt_emax p e} (O : RealOps (binary_float p e)) (I : ieee O) (k : nat) (C : trig O k)
  (u : Vec3 (binary_float p e)) (a : (binary_float p e)) : finite3 u -> finite a -> let L := norm3 (num3 u) in 3 * tiny e <= L * L -> L * L + 3 * tiny e <= huge e ->
  let m := m3_rotation u a in let n := direction3 (num3 u) in
  approx3 (k + 36) 4 (mx3 m) (rodrigues n (num a) ex3) /\ approx3 (k + 36) 4 (my3 m) (rodrigues n (num a) ey3) /\ approx3 (k + 36) 4 (mz3 m) (rodrigues n (num a) ez3).
Proof. exact (axis3_error O I k C u a). Qed.
Print Assumptions C96_mat3_axis.
(** C96. Mat4 of a rotation around any axis. *)
Theorem C96_mat4_axis {p e : Z} {Hp : Prec_gt_0 p} {He : Prec_lt_emax p e} (O : RealOps (binary_float p e)) (I : ieee O) (k : nat) (C : trig O k)
  (u : Vec3 (binary_float p e)) (a : (binary_float p e)) : finite3 u -> finite a -> let L := norm3 (num3 u) in 3 * tiny e <= L * L -> L * L + 3 * tiny e <= huge e ->
  let m := m4_rotation u a in let n := direction3 (num3 u) in
  approx3 (k + 36) 4 (upper (mx4 m)) (rodrigues n (num a) ex3) /\ approx3 (k + 36) 4 (upper (my4 m)) (rodrigues n (num a) ey3) /\ approx3 (k + 36) 4 (upper (mz4 m)) (rodrigues n (num a) ez3) /\
  num4 (mt4 m) = mkV4 0 0 0 1 /\ num (w4 (mx4 m)) = 0 /\ num (w4 (my4 m)) = 0 /\ num (w4 (mz4 m)) = 0.
Proof. exact (axis4_error O I k C u a). Qed.
Print Assumptions C96_mat4_axis.
(** C96. Its columns are orthonormal up to rounding. *)
Theorem C96_mat3_orthonormal {p e : Z} {Hp : Prec_gt_0 p} {He : Prec_lt_emax p e} (O : RealOps (binary_float p e)) (I : ieee O) (k : nat) (C : trig O k)
  (u : Vec3 (binary_float p e)) (a : (binary_float p e)) : finite3 u -> finite a -> let L := norm3 (num3 u) in 3 * tiny e <= L * L -> L * L + 3 * tiny e <= huge e ->
  let m := m3_rotation u a in let x := num3 (mx3 m) in let y := num3 (my3 m) in let z := num3 (mz3 m) in let d := 72 * gamma p (k + 36) in
  Rabs (dot3 x x - 1) <= d /\ Rabs (dot3 y y - 1) <= d /\ Rabs (dot3 z z - 1) <= d /\ Rabs (dot3 x y) <= d /\ Rabs (dot3 y z) <= d /\ Rabs (dot3 z x) <= d.
Proof. exact (axis3_orthonormal O I k C u a). Qed.
Print Assumptions C96_mat3_orthonormal.
(** C96. The quaternion of an axis and an angle. *)
Theorem C96_quaternion {p e : Z} {Hp : Prec_gt_0 p} {He : Prec_lt_emax p e} (O : RealOps (binary_float p e)) (I : ieee O) (k : nat) (C : trig O k)
  (u : Vec3 (binary_float p e)) (a : (binary_float p e)) : finite3 u -> finite a -> let L := norm3 (num3 u) in 3 * tiny e <= L * L -> L * L + 3 * tiny e <= huge e ->
  let q := q_of_axis u a in let n := direction3 (num3 u) in let m := 1 + (L + 1) * tiny e in
  approx (k + 17) m (qx q) (sin (num a / 2) * x3 n) /\ approx (k + 17) m (qy q) (sin (num a / 2) * y3 n) /\ approx (k + 17) m (qz q) (sin (num a / 2) * z3 n) /\
  approx (k + 1) 1 (qw q) (cos (num a / 2)) /\ Rabs (qnorm2 (numq q) - 1) <= 24 * gamma p (k + 17).
Proof. exact (quat_error O I k C u a). Qed.
Print Assumptions C96_quaternion.
(** C96. The flags of a Mat3 of a rotation say that it is orthonormal, in spite of the
    rounding. *)
Theorem C96_mat3_axis_flags {p e : Z} {Hp : Prec_gt_0 p} {He : Prec_lt_emax p e} (O : RealOps (binary_float p e)) (I : ieee O) (Q : precise O) (k : nat) (C : trig O k)
  (u : Vec3 (binary_float p e)) (a : (binary_float p e)) : finite3 u -> finite a -> let L := norm3 (num3 u) in 3 * tiny e <= L * L -> L * L + 3 * tiny e <= huge e ->
  fNormal (mf3 (m3_rotation u a)) = true /\ fOrthogonal (mf3 (m3_rotation u a)) = true.
Proof. exact (axis3_flags O I Q k C u a). Qed.
Print Assumptions C96_mat3_axis_flags.
(** C96. The same around a coordinate axis. *)
Theorem C96_mat3_coord_flags {p e : Z} {Hp : Prec_gt_0 p} {He : Prec_lt_emax p e} (O : RealOps (binary_float p e)) (I : ieee O) (Q : precise O) (k : nat) (C : trig O k)
  (c : Coord) (a : (binary_float p e)) m : finite a -> m3_rotation_coord c a = Ok m -> fNormal (mf3 m) = true /\ fOrthogonal (mf3 m) = true.
Proof. exact (coord3_flags O I Q k C c a m). Qed.
Print Assumptions C96_mat3_coord_flags.
(** C96. The flags of a Mat4. *)
Theorem C96_mat4_axis_flags {p e : Z} {Hp : Prec_gt_0 p} {He : Prec_lt_emax p e} (O : RealOps (binary_float p e)) (I : ieee O) (Q : precise O) (k : nat) (C : trig O k)
  (u : Vec3 (binary_float p e)) (a : (binary_float p e)) : finite3 u -> finite a -> let L := norm3 (num3 u) in 3 * tiny e <= L * L -> L * L + 3 * tiny e <= huge e ->
  let f := mf4 (m4_rotation u a) in fNormal f = true /\ fOrthogonal f = true /\ fTrs f = true.
Proof. exact (axis4_flags O I Q k C u a). Qed.
Print Assumptions C96_mat4_axis_flags.
(** C96. The same around a coordinate axis. *)
Theorem C96_mat4_coord_flags {p e : Z} {Hp : Prec_gt_0 p} {He : Prec_lt_emax p e} (O : RealOps (binary_float p e)) (I : ieee O) (Q : precise O) (k : nat) (C : trig O k)
  (c : Coord) (a : (binary_float p e)) m : finite a -> m4_rotation_coord c a = Ok m -> fNormal (mf4 m) = true /\ fOrthogonal (mf4 m) = true /\ fTrs (mf4 m) = true.
Proof. exact (coord4_flags O I Q k C c a m). Qed.
Print Assumptions C96_mat4_coord_flags.
(** C96. The flags of a Mat2. *)
Theorem C96_mat2_flags {p e : Z} {Hp : Prec_gt_0 p} {He : Prec_lt_emax p e} (O : RealOps (binary_float p e)) (I : ieee O) (Q : precise O) (k : nat) (C : trig O k)
  (a : (binary_float p e)) : finite a -> fNormal (mf2 (m2_rotation a)) = true /\ fOrthogonal (mf2 (m2_rotation a)) = true.
Proof. exact (mat2_flags O I Q k C a). Qed.
Print Assumptions C96_mat2_flags.
Example C96_case : exists L : Libm, trig (F_ops L) 1 /\ precise (F_ops L) /\
  let n := @fofZ F64 (F_ops L) in let u := mkV3 (n 3%Z) (n (-4)%Z) (n 12%Z) in
  finite3 u /\ finite (n 2%Z) /\ norm3 (num3 u) = 13 /\ 3 * tiny 1024 <= norm3 (num3 u) * norm3 (num3 u) /\ norm3 (num3 u) * norm3 (num3 u) + 3 * tiny 1024 <= huge 1024 /\
  Rabs (num (x3 u)) + Rabs (num (y3 u)) + Rabs (num (z3 u)) + 2 * tiny 1024 <= huge 1024.
Proof. exact trig_case. Qed.
(** C96. Mat3::rotate around a coordinate axis turns the columns as Vec3::rotate
    does, in any arithmetic, and keeps the flags. *)
Theorem C96_rotated_columns {T : Type} {O : RealOps T} (m r : Mat3 T) (c : Coord) (a : T) : m3_rotated_coord m c a = Ok r ->
  mx3 r = v3_rotate (mx3 m) c a /\ my3 r = v3_rotate (my3 m) c a /\ mz3 r = v3_rotate (mz3 m) c a /\ mf3 r = mf3 m.
Proof. exact (rotated_columns m r c a). Qed.
Print Assumptions C96_rotated_columns.
