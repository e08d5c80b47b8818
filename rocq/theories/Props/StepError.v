(** C101: splitting, walking along and measuring Bezier segments in binary
    numbers of any format. *)
From Coq Require Import Reals ZArith List Lra Lia Bool.
From Flocq Require Import Core.Core IEEE754.BinarySingleNaN.
From Verif.Base Require Import Outcome Array Scalar ScalarR ScalarF ScalarF32.
From Verif.Model Require Import Types Functions Vec Spline.
From Verif.Spec Require Import LinAlg VecSpec Curve IeeeSpec StepSpec.
From Verif.Proof Require Import IeeeStep IeeeArc IeeeStepCases.
Import ListNotations.
Local Open Scope R_scope.

(** C101. split(a): the parts meet exactly, their outer ends are exact, and the
    other control points are close to those of the two exact parts. *)
Theorem C101_split {p e : Z} {Hp : Prec_gt_0 p} {He : Prec_lt_emax p e} (O : RealOps (binary_float p e)) (I : ieee O)
  (b : Bezier (binary_float p e)) (a : (binary_float p e)) : finite_bezier b -> finite a -> 0 <= num a <= 1 ->
  exists s t q2 q3 m r2 r3, bezier_split b a = Ok (s, t) /\
  (forall x, bez (num3 (bP1 b)) q2 q3 m x = curve_of b (num a * x)) /\
  (forall x, bez m r2 r3 (num3 (bP4 b)) x = curve_of b (num a + (1 - num a) * x)) /\
  bP1 s = bP1 b /\ bP4 t = bP4 b /\ bP4 s = bP1 t /\
  forall i K, (i < 3)%nat -> inside K b i -> K + 20 * (K + 1) * tiny e <= huge e ->
    let K' := K + 20 * (K + 1) * tiny e in
    approx 3 K' (row3 (bP2 s) i) (row3 q2 i) /\ approx 6 K' (row3 (bP3 s) i) (row3 q3 i) /\ approx 9 K' (row3 (bP4 s) i) (row3 m i) /\
    approx 6 K' (row3 (bP2 t) i) (row3 r2 i) /\ approx 3 K' (row3 (bP3 t) i) (row3 r3 i).
Proof. exact (split_error O I b a). Qed.
Print Assumptions C101_split.
(** C101. Splitting at 0 or 1 gives a point and the curve itself; a parameter
    outside [0, 1], or a NaN, fails the assertion. *)
Theorem C101_split_ends {p e : Z} {Hp : Prec_gt_0 p} {He : Prec_lt_emax p e} (O : RealOps (binary_float p e)) (I : ieee O)
  (b : Bezier (binary_float p e)) (a : (binary_float p e)) : finite_bezier b ->
  (finite a -> num a = 0 -> exists s t, bezier_split b a = Ok (s, t) /\ point_bezier s (bP1 b) /\ same_bezier t b) /\
  (finite a -> num a = 1 -> exists s t, bezier_split b a = Ok (s, t) /\ same_bezier s b /\ point_bezier t (bP4 b)) /\
  (~ (finite a /\ 0 <= num a <= 1) -> bezier_split b a = AssertFail).
Proof. exact (split_ends O I b a). Qed.
Print Assumptions C101_split_ends.
(** C101. The point after k forward steps of d. *)
Theorem C101_walk_point {p e : Z} {Hp : Prec_gt_0 p} {He : Prec_lt_emax p e} (O : RealOps (binary_float p e)) (I : ieee O)
  (b : Bezier (binary_float p e)) (d : (binary_float p e)) (k : nat) : finite_bezier b -> finite d -> 0 <= num d <= 1 -> 2 * INR (9 + k) * unit p <= 1 ->
  let f := fwd_steps k (fwd_init (bP1 b) (bP2 b) (bP3 b) (bP4 b) d) in
  forall i, (i < 3)%nat -> 100 * extent b i <= huge e ->
    let x := INR k * num d in
    let m := 4 * (1 + num d) * (1 + x) ^ 3 * extent b i + 60 * INR k ^ 3 * (extent b i + 1) * tiny e in
    m <= huge e -> approx (9 + k) m (row3 (fP f) i) (row3 (curve_of b x) i).
Proof. exact (walk_point O I b d k). Qed.
Print Assumptions C101_walk_point.
(** C101. The tangent after k forward steps of d. *)
Theorem C101_walk_tangent {p e : Z} {Hp : Prec_gt_0 p} {He : Prec_lt_emax p e} (O : RealOps (binary_float p e)) (I : ieee O)
  (b : Bezier (binary_float p e)) (d : (binary_float p e)) (k : nat) : finite_bezier b -> finite d -> 0 <= num d <= 1 -> 2 * INR (7 + k) * unit p <= 1 ->
  let f := fwd_steps k (fwd_init (bP1 b) (bP2 b) (bP3 b) (bP4 b) d) in
  let x := INR k * num d in
  exists w, has_velocity (curve_of b) x w /\
  forall i, (i < 3)%nat -> 100 * extent b i <= huge e ->
    let m := 12 * (1 + num d) * (1 + x) ^ 2 * extent b i + 30 * (1 + INR k ^ 2) * (extent b i + 1) * tiny e in
    m <= huge e -> approx (7 + k) m (row3 (fT f) i) (row3 w i).
Proof. exact (walk_tangent O I b d k). Qed.
Print Assumptions C101_walk_tangent.
(** C101. Length of any vector whose square does not overflow, however small. *)
Theorem C101_vector_length {p e : Z} {Hp : Prec_gt_0 p} {He : Prec_lt_emax p e} (O : RealOps (binary_float p e)) (I : ieee O)
  (v : Vec3 (binary_float p e)) : finite3 v -> dot3 (num3 v) (num3 v) + 3 * tiny e <= huge e ->
  finite (v3_length v) /\ Rabs (num (v3_length v) - norm3 (num3 v)) <= gamma p 4 * norm3 (num3 v) + 2 * sqrt (tiny e).
Proof. exact (length_any O I v). Qed.
Print Assumptions C101_vector_length.
(** C101. length(n): the length of the polyline through the points at multiples of
    the rounded step, ending exactly at the last control point. *)
Theorem C101_length {p e : Z} {Hp : Prec_gt_0 p} {He : Prec_lt_emax p e} (O : RealOps (binary_float p e)) (I : ieee O)
  (b : Bezier (binary_float p e)) (n : Z) : finite_bezier b -> (1 <= n)%Z -> 2 * (IZR n + 14) * unit p <= 1 -> finite (@fofZ _ O n) -> num (@fofZ _ O n) = IZR n ->
  let M := 66 * total b + 60 * IZR n ^ 3 * (total b + 3) * tiny e + IZR n * (2 * sqrt (tiny e) / unit p) in
  16 * (M + 1) * (M + 1) <= huge e ->
  exists s l, Rabs (s - 1 / IZR n) <= unit p * (1 / IZR n) /\ bezier_length b n = Ok l /\
  approx (14 + Z.to_nat n) (3 * M) l (polyline (Z.to_nat n) (fun j => if Z.ltb (Z.of_nat j) n then curve_of b (INR j * s) else num3 (bP4 b))).
Proof. exact (arc_error O I b n). Qed.
Print Assumptions C101_length.
(** C101. A walk over the whole curve need not end at its last control point: three
    steps of 1/3 in doubles. *)
Theorem C101_walk_end_refuted (L : Libm) : let b := arch (F_ops L) in let d := @fdiv _ (F_ops L) (@fofZ _ (F_ops L) 1) (@fofZ _ (F_ops L) 3) in
  let f := @fwd_steps _ (F_ops L) 3 (@fwd_init _ (F_ops L) (bP1 b) (bP2 b) (bP3 b) (bP4 b) d) in
  finite (row3 (fP f) 0) /\ num (row3 (fP f) 0) <> num (row3 (bP4 b) 0).
Proof. exact (walk_end L). Qed.
Print Assumptions C101_walk_end_refuted.
(** Non-vacuity. *)
Example C101_split_case (L : Libm) : exists s t, @bezier_split _ (F_ops L) (arch (F_ops L)) (@flit _ (F_ops L) 1 2) = Ok (s, t) /\ approx 9 6 (row3 (bP4 s) 0) (5 / 2).
Proof. exact (split_case L). Qed.
Example C101_walk_case (L : Libm) : let f := let b := arch (F_ops L) in @fwd_steps _ (F_ops L) 2 (@fwd_init _ (F_ops L) (bP1 b) (bP2 b) (bP3 b) (bP4 b) (@flit _ (F_ops L) 1 2)) in approx 11 500 (row3 (fP f) 0) 5.
Proof. exact (walk_case L). Qed.
Example C101_length_case (L : Libm) : let b := arch (F_ops L) in exists s l, Rabs (s - 1 / 4) <= unit 53 * (1 / 4) /\ @bezier_length _ (F_ops L) b 4 = Ok l /\
  approx 18 6000 l (polyline 4 (fun j => if Z.ltb (Z.of_nat j) 4 then curve_of b (INR j * s) else num3 (bP4 b))).
Proof. exact (arc_case L). Qed.
