(** C110: axis and angle, logarithm and exponential, and the rotation between
    two vectors, in binary numbers of any format. *)
From Coq Require Import Reals ZArith List Lra Lia Bool.
From Flocq Require Import Core.Core IEEE754.BinarySingleNaN.
From Verif.Base Require Import Outcome Array Scalar ScalarR ScalarF ScalarF32.
From Verif.Model Require Import Types Functions Vec Mat2 Mat3 Quat.
From Verif.Spec Require Import VecSpec QuatSpec FloatSpec IeeeSpec.
From Verif.Proof Require Import Ieee IeeeVec IeeeWitness IeeeAxis IeeeBetween IeeeAxisMore QuatErrorWitness AxisErrorWitness.
Import ListNotations.
From Verif.Spec Require Import TrigSpec QuatErrorSpec AxisErrorSpec.
Local Open Scope R_scope.

(** C110. What is assumed below of the literals holds in doubles and in floats. *)
Theorem C110_double (L : Libm) : quat_lits (F_ops L).
Proof. exact (lits_double L). Qed.
Print Assumptions C110_double.
Theorem C110_float (K : Libm32) : quat_lits (F32_ops K).
Proof. exact (lits_float K). Qed.
Print Assumptions C110_float.
(** C110. toAxisAngle: the axis and angle of the rotation, or the x axis and no angle
    where the rotation is small. *)
Theorem C110_axis_angle {p e : Z} {Hp : Prec_gt_0 p} {He : Prec_lt_emax p e} (O : RealOps (binary_float p e)) (I : ieee O)
  (QL : quat_lits O) (k : nat) (AC : arccos O k)
  d (q : Quat (binary_float p e)) F (V := qvec F) : unit p <= d -> gamma p k <= d -> d <= 1 / 65536 -> unitq F -> by_at_mostq d q F -> Rabs (num (qw q)) <= 1 ->
  exists n a, q_toAxisAngle q = Ok (n, a) /\
    (n = v3_onex /\ a = fofZ 0 /\ dot3 V V <= 11 / 10 ^ 7 + 12 * d \/
     8 / 10 ^ 7 <= dot3 V V /\ by_at_most3 (45 * d / norm3 V) n (direction3 V) /\ Rabs (norm3 (num3 n) - 1) <= 99 * unit p /\ by_at_most (11 * d) a (2 * acos (num (qw q)))).
Proof. exact (axis_near O I QL k AC d q F). Qed.
Print Assumptions C110_axis_angle.
(** C110. The quaternion of that axis and angle is near the one they came from. *)
Theorem C110_axis_back {p e : Z} {Hp : Prec_gt_0 p} {He : Prec_lt_emax p e} (O : RealOps (binary_float p e)) (I : ieee O)
  (QL : quat_lits O) (k : nat) (TR : trig O k) (AC : arccos O k)
  d (q : Quat (binary_float p e)) F (V := qvec F) : unit p <= d -> gamma p (k + 17) <= d -> d <= 1 / 65536 -> unitq F -> by_at_mostq d q F -> Rabs (num (qw q)) <= 1 ->
  exists n a, q_toAxisAngle q = Ok (n, a) /\
    (n = v3_onex /\ a = fofZ 0 /\ dot3 V V <= 11 / 10 ^ 7 + 12 * d \/ 8 / 10 ^ 7 <= dot3 V V /\ by_at_mostq (200 * d / norm3 V) (q_of_axis n a) F).
Proof. exact (axis_back O I QL k TR AC d q F). Qed.
Print Assumptions C110_axis_back.
(** C110. A scalar part beyond 1 is rejected. *)
Theorem C110_axis_rejects {p e : Z} {Hp : Prec_gt_0 p} {He : Prec_lt_emax p e} (O : RealOps (binary_float p e)) (I : ieee O)
  (q : Quat (binary_float p e)) : finite (qw q) -> 1 < Rabs (num (qw q)) -> q_toAxisAngle q = AssertFail.
Proof. exact (axis_wide O I q). Qed.
Print Assumptions C110_axis_rejects.
(** C110. log. *)
Theorem C110_log {p e : Z} {Hp : Prec_gt_0 p} {He : Prec_lt_emax p e} (O : RealOps (binary_float p e)) (I : ieee O)
  (QL : quat_lits O) (k : nat) (TR : trig O k) (AC : arccos O k)
  d (q : Quat (binary_float p e)) F : unit p <= d -> gamma p k <= d -> d <= 1 / 65536 -> unitq F -> by_at_mostq d q F -> Rabs (qw F) <= 95 / 100 -> by_at_mostq (1200 * d) (q_log q) (quat (qlog F) 0).
Proof. exact (log_near O I QL k TR AC d q F). Qed.
Print Assumptions C110_log.
(** C110. exp. *)
Theorem C110_exp {p e : Z} {Hp : Prec_gt_0 p} {He : Prec_lt_emax p e} (O : RealOps (binary_float p e)) (I : ieee O)
  (QL : quat_lits O) (k : nat) (TR : trig O k)
  d (q : Quat (binary_float p e)) (V := num3 (mkV3 (qx q) (qy q) (qz q))) (L := norm3 V) : unit p <= d -> gamma p k <= d -> finite (qx q) -> finite (qy q) -> finite (qz q) -> 3 * tiny e <= L * L -> L <= 16 ->
  by_at_mostq ((26 + 15 * L) * d) (q_exp q) (qexp V).
Proof. exact (exp_near O I QL k TR d q). Qed.
Print Assumptions C110_exp.
(** C110. exp of zero. *)
Theorem C110_exp_zero {p e : Z} {Hp : Prec_gt_0 p} {He : Prec_lt_emax p e} (O : RealOps (binary_float p e)) (I : ieee O)
  (QL : quat_lits O) (k : nat) (TR : trig O k)
  (q : Quat (binary_float p e)) : num (qx q) = 0 -> num (qy q) = 0 -> num (qz q) = 0 -> finite (qx q) -> finite (qy q) -> finite (qz q) -> by_at_mostq (gamma p k) (q_exp q) (mkQ 0 0 0 1).
Proof. exact (exp_zero O I QL k TR q). Qed.
Print Assumptions C110_exp_zero.
(** C110. exp undoes log. *)
Theorem C110_log_exp {p e : Z} {Hp : Prec_gt_0 p} {He : Prec_lt_emax p e} (O : RealOps (binary_float p e)) (I : ieee O)
  (QL : quat_lits O) (k : nat) (TR : trig O k) (AC : arccos O k)
  d (q : Quat (binary_float p e)) F : unit p <= d -> gamma p k <= d -> d <= 1 / 65536 -> unitq F -> by_at_mostq d q F -> Rabs (qw F) <= 95 / 100 -> by_at_mostq (8500 * d) (q_exp (q_log q)) F.
Proof. exact (log_exp O I QL k TR AC d q F). Qed.
Print Assumptions C110_log_exp.
(** C110. slerpNoInvert goes along the arc, or along the chord where the arc is short. *)
Theorem C110_slerpNoInvert {p e : Z} {Hp : Prec_gt_0 p} {He : Prec_lt_emax p e} (O : RealOps (binary_float p e)) (I : ieee O)
  (QL : quat_lits O) (k : nat) (TR : trig O k) (AC : arccos O k)
  d (f g : Quat (binary_float p e)) F G (w : (binary_float p e)) : unit p <= d -> gamma p k <= d -> d <= 1 / 65536 -> unitq F -> unitq G -> by_at_mostq d f F -> by_at_mostq d g G -> finite w -> 0 <= num w <= 1 -> - (95 / 100) <= qdot F G ->
  exists r, q_slerpNoInvert f g w = Ok r /\
    (qdot F G <= 95 / 100 + 18 * d + 1 / 10 ^ 7 /\ by_at_mostq (1300 * d) r (arcq F G (num w)) \/
     95 / 100 - 18 * d - 1 / 10 ^ 7 <= qdot F G /\ by_at_mostq (50 * d) r (directionq (qcomb (1 - num w) F (num w) G))).
Proof. exact (noinvert_near O I QL k TR AC d f g F G w). Qed.
Print Assumptions C110_slerpNoInvert.
(** Non-vacuity: a turn of 120 degrees about (1, 1, 1). *)
Example C110_axis_case (L : Libm) : let d := 43 * unit 53 in let q := mkQ half64 half64 half64 half64 in
  unit 53 <= d /\ gamma 53 (4 + 17) <= d /\ gamma 53 4 <= d /\ d <= 1 / 65536 /\ unitq third_turn /\ by_at_mostq d q third_turn /\ Rabs (num (qw q)) <= 1 /\ Rabs (qw third_turn) <= 95 / 100 /\ dot3 (qvec third_turn) (qvec third_turn) = 3 / 4 /\
  by_at_mostq d (mkQ (@fofZ F64 (F_ops L) 0%Z) (@fofZ F64 (F_ops L) 0%Z) (@fofZ F64 (F_ops L) 0%Z) (@fofZ F64 (F_ops L) 1%Z)) (mkQ 0 0 0 1) /\ unitq (mkQ 0 0 0 1) /\ qdot (mkQ 0 0 0 1) third_turn = 1 / 2.
Proof. exact (axis_case L). Qed.
(** C110. The rotation from one vector to another: nothing where they almost agree,
    nothing where they are almost opposite, and otherwise near an exact rotation
    by at most half a turn that leads from the one direction to the other. *)
Theorem C110_between {p e : Z} {Hp : Prec_gt_0 p} {He : Prec_lt_emax p e} (O : RealOps (binary_float p e)) (I : ieee O)
  (QL : quat_lits O) (a b : Vec3 (binary_float p e)) (A := direction3 (num3 a)) (D := direction3 (num3 b)) (K := norm3 (num3 a)) (L := norm3 (num3 b)) :
  finite3 a -> finite3 b -> 3 * tiny e <= K * K -> K * K + 3 * tiny e <= huge e -> 3 * tiny e <= L * L -> L * L + 3 * tiny e <= huge e ->
  (q_between a b = mkQ (fofZ 0) (fofZ 0) (fofZ 0) (fofZ 1) /\ 99999 / 100000 - 69 * unit p <= dot3 A D) \/
  (q_between a b = mkQ (fofZ 0) (fofZ 0) (fofZ 0) (fofZ (-1)) /\ dot3 A D <= - (99999 / 100000) + 69 * unit p) \/
  (- (99999 / 100000) - 69 * unit p <= dot3 A D <= 99999 / 100000 + 69 * unit p /\ exists r, unitq r /\ qturn r A = D /\ 0 <= qw r /\ by_at_mostq (131000 * unit p) (q_between a b) r).
Proof. exact (between_near O I QL a b). Qed.
Print Assumptions C110_between.
(** C110. Turning the first vector so gives the direction of the second, with the
    length of the first. *)
Theorem C110_between_turns {p e : Z} {Hp : Prec_gt_0 p} {He : Prec_lt_emax p e} (O : RealOps (binary_float p e)) (I : ieee O)
  (QL : quat_lits O) (a b : Vec3 (binary_float p e)) (A := direction3 (num3 a)) (D := direction3 (num3 b)) (K := norm3 (num3 a)) (L := norm3 (num3 b)) :
  (30 <= p)%Z -> finite3 a -> finite3 b -> 3 * tiny e <= K * K -> K * K + 3 * tiny e <= huge e -> 4 * (K + 1) <= huge e -> 3 * tiny e <= L * L -> L * L + 3 * tiny e <= huge e ->
  - (99998 / 100000) <= dot3 A D <= 99998 / 100000 -> by_at_most3 (9825000 * unit p * (K + tiny e)) (q_rotated (q_between a b) a) (smul3 K D).
Proof. exact (between_turns O I QL a b). Qed.
Print Assumptions C110_between_turns.
(** Non-vacuity: from the x axis to the y axis. *)
Example C110_between_case (L : Libm) (a := mkV3 (@fofZ F64 (F_ops L) 1%Z) (@fofZ F64 (F_ops L) 0%Z) (@fofZ F64 (F_ops L) 0%Z)) (b := mkV3 (@fofZ F64 (F_ops L) 0%Z) (@fofZ F64 (F_ops L) 1%Z) (@fofZ F64 (F_ops L) 0%Z)) (K := norm3 (num3 a)) (M := norm3 (num3 b)) :
  finite3 a /\ finite3 b /\ 3 * tiny 1024 <= K * K /\ K * K + 3 * tiny 1024 <= huge 1024 /\ 4 * (K + 1) <= huge 1024 /\ 3 * tiny 1024 <= M * M /\ M * M + 3 * tiny 1024 <= huge 1024 /\ M <= 16 /\
  dot3 (direction3 (num3 a)) (direction3 (num3 b)) = 0.
Proof. exact (between_case L). Qed.
(** C110. In doubles a turn of 1/512 radians about y has no angle and axis x. *)
Theorem C110_small_lost_refuted (L : Libm) : exists q : Quat F64, Rabs (qnorm2 (numq q) - 1) <= 1 / 10 ^ 12 /\ num (qx q) = 0 /\ num (qy q) = 1 / 1024 /\ num (qz q) = 0 /\ q_toAxisAngle (O := F_ops L) q = Ok (mkV3 (@fofZ F64 (F_ops L) 1%Z) (@fofZ F64 (F_ops L) 0%Z) (@fofZ F64 (F_ops L) 0%Z), @fofZ F64 (F_ops L) 0%Z).
Proof. exact (small_lost_refuted L). Qed.
Print Assumptions C110_small_lost_refuted.
(** C110. In doubles the rotation from x to -x keeps x. *)
Theorem C110_opposite_refuted (L : Libm) (a := mkV3 (@fofZ F64 (F_ops L) 1%Z) (@fofZ F64 (F_ops L) 0%Z) (@fofZ F64 (F_ops L) 0%Z)) (b := mkV3 (@fofZ F64 (F_ops L) (-1)%Z) (@fofZ F64 (F_ops L) 0%Z) (@fofZ F64 (F_ops L) 0%Z)) : x3 (direction3 (num3 b)) = -1 /\ num (x3 (q_rotated (O := F_ops L) (q_between (O := F_ops L) a b) a)) = 1.
Proof. exact (opposite_refuted L). Qed.
Print Assumptions C110_opposite_refuted.
