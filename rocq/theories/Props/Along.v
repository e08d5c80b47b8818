(** C57: projection onto a plane along a direction, in binary numbers of any format. *)
From Coq Require Import Reals ZArith.
From Flocq Require Import Core.Core IEEE754.BinarySingleNaN.
From Verif.Base Require Import Outcome Array Scalar ScalarR ScalarF ScalarF32.
From Verif.Model Require Import Types Functions Vec Shapes Plane.
From Verif.Spec Require Import VecSpec GeomSpec FloatSpec IeeeSpec MarginSpec TrigSpec ShapeSpec QuatErrorSpec PlaneErrorSpec MeetErrorSpec.
From Verif.Proof Require Import IeeeAlong AlongWitness.
Local Open Scope R_scope.

(** C57. project(point, direction): near the point where the line along the
    direction meets the parallel plane through the origin. Missing: it should be
    this plane; see the refutations. *)
Theorem C57_project_along_ieee_partial {p e : Z} {Hp : Prec_gt_0 p} {He : Prec_lt_emax p e} (O : RealOps (binary_float p e)) (I : ieee O)
  (s : Plane (binary_float p e)) (v d : Vec3 (binary_float p e)) K D : finite_plane s -> finite3 v -> finite3 d -> up_to3 K (num3 v) -> up_to3 2 (num3 d) ->
  let n := num3 (pnormal s) in let a := dot3 (num3 v) n in let m := absdot3 (num3 v) n + 3 * tiny e in
  let c := dot3 (num3 d) n in let k := absdot3 (num3 d) n + 3 * tiny e in
  m <= huge e -> k <= huge e -> 0 < Rabs c -> 25 * unit p * k <= Rabs c -> ratio_size m a k c <= huge e -> let ep := ratio_slack p e m a k c in Rabs (a / c) + ep <= D -> K + 8 * D + 2 * tiny e <= huge e ->
  let r := along3 (num3 v) (num3 d) (- (a / c)) in
  dot3 n r = 0 /\ exists q, plane_project_along s v d = Some q /\ by_at_most3 (2 * ep + 5 * unit p * (K + D + tiny e)) q r.
Proof. exact (project_along_near O I s v d K D). Qed.
Print Assumptions C57_project_along_ieee_partial.
(** C57. In doubles the point (5,0,1) of the plane z = 1 is moved to height 0. *)
Theorem C57_project_along_refuted_double (L : Libm) : exists q,
  plane_project_along (O := F_ops L) (mkPlane (int3 (O := F_ops L) 0 0 1) (@fofZ F64 (F_ops L) 1)) (int3 (O := F_ops L) 5 0 1) (int3 (O := F_ops L) 0 0 (-1)) = Some q /\ finite (z3 q) /\ num (z3 q) = 0.
Proof. exact (along_off_double L). Qed.
Print Assumptions C57_project_along_refuted_double.
(** C57. And in floats. *)
Theorem C57_project_along_refuted_float (K : Libm32) : exists q,
  plane_project_along (O := F32_ops K) (mkPlane (int3 (O := F32_ops K) 0 0 1) (@fofZ F32 (F32_ops K) 1)) (int3 (O := F32_ops K) 5 0 1) (int3 (O := F32_ops K) 0 0 (-1)) = Some q /\ finite (z3 q) /\ num (z3 q) = 0.
Proof. exact (along_off_float K). Qed.
Print Assumptions C57_project_along_refuted_float.
(** Non-vacuity: in doubles (5,0,2) projected straight down onto z = 0, by the theorem. *)
Example C57_project_along_ieee_case (L : Libm) : exists q, plane_project_along (O := F_ops L) (mkPlane (int3 (O := F_ops L) 0 0 1) (@fofZ F64 (F_ops L) 0)) (int3 (O := F_ops L) 5 0 2) (int3 (O := F_ops L) 0 0 (-1)) = Some q /\ by_at_most3 (1 / 1000) q (mkV3 5 0 0).
Proof. exact (along_case L). Qed.
