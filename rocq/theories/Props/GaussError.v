(** C102: Gauss-Jordan elimination and closed splines in binary numbers of any
    format. *)
From Coq Require Import Reals ZArith List Lra Lia Bool.
From Flocq Require Import Core.Core IEEE754.BinarySingleNaN.
From Verif.Base Require Import Outcome Array Scalar ScalarR ScalarF ScalarF32.
From Verif.Model Require Import Types Functions Vec LinearEquations Spline.
From Verif.Spec Require Import LinAlg VecSpec Curve CurveSpecMore ArraySpec TriSpec IeeeSpec FloatSpec GaussSpec.
From Verif.Proof Require Import FabsfClose IeeeGauss IeeeClosed GaussWitness.
Import ListNotations.
Local Open Scope R_scope.

(** C102. fabsf in floats. *)
Theorem C102_fabsf_float (K : Libm32) M : fabsf_close (F32_ops K) M.
Proof. exact (fabsf_float K M). Qed.
Print Assumptions C102_fabsf_float.
(** C102. fabsf in doubles, below the largest float. *)
Theorem C102_fabsf_double (L : Libm) : fabsf_close (F_ops L) (bpow radix2 127).
Proof. exact (fabsf_double L). Qed.
Print Assumptions C102_fabsf_double.
(** C102. solveLinearEquationsGaussJordan: a matrix whose diagonal dominates becomes
    the identity, and each right-hand side becomes nearly the solution of its
    system. *)
Theorem C102_gauss_jordan {p e : Z} {Hp : Prec_gt_0 p} {He : Prec_lt_emax p e} (O : RealOps (binary_float p e)) (I : ieee O)
  (M : R) n m (A0 B0 : nat -> nat -> (binary_float p e)) (Rv : R) (a b : arr (binary_float p e)) :
  fabsf_close O M -> stores a n n A0 -> stores b n m B0 -> dominant_rows n A0 -> sides_within n m Rv A0 B0 ->
  (forall i, (i < n)%nat -> 2 * Rabs (num (A0 i i)) <= M) -> 1000 * INR n * unit p <= 1 ->
  exists a' b' (A' X : nat -> nat -> (binary_float p e)) (Zs : mat), gj_solve a n b m = Ok (true, a', b') /\
    unchanged_from (n * n) a a' /\ unchanged_from (n * m) b b' /\ stores a' n n A' /\ stores b' n m X /\
    (forall i j, (i < n)%nat -> (j < n)%nat -> num (A' i j) = if Nat.eqb i j then 1 else 0) /\
    forall l, (l < m)%nat -> solves n (nums A0) (fun i => Zs i l) (fun i => num (B0 i l)) /\
      forall i, (i < n)%nat -> finite (X i l) /\ Rabs (num (X i l) - Zs i l) <= 100 * INR n * unit p * (Rv + tiny e).
Proof. exact (gauss_accurate O I M n m A0 B0 Rv a b). Qed.
Print Assumptions C102_gauss_jordan.
(** C102. The same for right-hand sides given as Vec3. *)
Theorem C102_vec3 {p e : Z} {Hp : Prec_gt_0 p} {He : Prec_lt_emax p e} (O : RealOps (binary_float p e)) (I : ieee O)
  (L : R) n (A0 : nat -> nat -> (binary_float p e)) (fb : nat -> Vec3 (binary_float p e)) (Rv : R) (a : arr (binary_float p e)) (b : arr (Vec3 (binary_float p e))) :
  fabsf_close O L -> stores a n n A0 -> holds b n fb -> dominant_rows n A0 -> sides_within n 3 Rv A0 (fun i l => comp_T l (fb i)) ->
  (forall i, (i < n)%nat -> 2 * Rabs (num (A0 i i)) <= L) -> 1000 * INR n * unit p <= 1 ->
  exists a' b' x, gj_solve_vec3 a n b = Ok (true, a', b') /\ unchanged_from n b b' /\ holds b' n x /\
    forall g : Vec3 (binary_float p e) -> (binary_float p e), g = x3 \/ g = y3 \/ g = z3 -> exists z, solves n (nums A0) z (fun i => num (g (fb i))) /\
      forall i, (i < n)%nat -> finite (g (x i)) /\ Rabs (num (g (x i)) - z i) <= 100 * INR n * unit p * (Rv + tiny e).
Proof. exact (gauss_points O I L n A0 fb Rv a b). Qed.
Print Assumptions C102_vec3.
(** C102. The same for right-hand sides given as Vec2. *)
Theorem C102_vec2 {p e : Z} {Hp : Prec_gt_0 p} {He : Prec_lt_emax p e} (O : RealOps (binary_float p e)) (I : ieee O)
  (L : R) n (A0 : nat -> nat -> (binary_float p e)) (fb : nat -> Vec2 (binary_float p e)) (Rv : R) (a : arr (binary_float p e)) (b : arr (Vec2 (binary_float p e))) :
  fabsf_close O L -> stores a n n A0 -> holds b n fb -> dominant_rows n A0 -> sides_within n 2 Rv A0 (fun i l => comp2_T l (fb i)) ->
  (forall i, (i < n)%nat -> 2 * Rabs (num (A0 i i)) <= L) -> 1000 * INR n * unit p <= 1 ->
  exists a' b' x, gj_solve_vec2 a n b = Ok (true, a', b') /\ unchanged_from n b b' /\ holds b' n x /\
    forall g : Vec2 (binary_float p e) -> (binary_float p e), g = x2 \/ g = y2 -> exists z, solves n (nums A0) z (fun i => num (g (fb i))) /\
      forall i, (i < n)%nat -> finite (g (x i)) /\ Rabs (num (g (x i)) - z i) <= 100 * INR n * unit p * (Rv + tiny e).
Proof. exact (gauss_points2 O I L n A0 fb Rv a b). Qed.
Print Assumptions C102_vec2.
(** C102. closedBezierSpline: there is one smooth closed chain through the points, and
    the control points computed are close to its control points. *)
Theorem C102_closed_spline {p e : Z} {Hp : Prec_gt_0 p} {He : Prec_lt_emax p e} (O : RealOps (binary_float p e)) (I : ieee O)
  (L K : R) n f (p1 p2 p3 : arr (Vec3 (binary_float p e))) : fabsf_close O L -> 8 <= L -> 256 * (K + 1) <= huge e -> (3 <= n)%nat -> 1000 * INR n * unit p <= 1 ->
  holds p1 n f -> (n <= alen p2)%nat -> (n <= alen p3)%nat -> (forall k, (k < n)%nat -> point_within K (f k)) ->
  exists p2' p3' f2 f3, closedBezierSpline n p1 p2 p3 = Ok (true, p2', p3') /\ holds p2' n f2 /\ holds p3' n f3 /\
    unchanged_from n p2 p2' /\ unchanged_from n p3 p3' /\
    (exists g2 g3, closed_chain n (fun k => num3 (f k)) g2 g3) /\
    forall g2 g3, closed_chain n (fun k => num3 (f k)) g2 g3 -> forall k, (k < n)%nat ->
      finite3 (f2 k) /\ finite3 (f3 k) /\ within3 (800 * INR n * unit p * (K + tiny e)) (num3 (f2 k)) (g2 k) /\ within3 (800 * INR n * unit p * (K + tiny e)) (num3 (f3 k)) (g3 k).
Proof. exact (closed_error O I L K n f p1 p2 p3). Qed.
Print Assumptions C102_closed_spline.
(** C102. Not every regular system is solved: doubles below the smallest float count
    as zero in the search for the pivot. *)
Theorem C102_small_refuted (L : Libm) : exists (A : nat -> nat -> F64) (a b : arr F64), stores a 2 2 A /\ (forall i j, finite (A i j)) /\ ~ singular 2 (nums A) /\
  stores b 2 1 (fun _ _ => A 0%nat 1%nat) /\ exists a' b', @gj_solve F64 (F_ops L) a 2 b 1 = Ok (false, a', b').
Proof. exact (small_refused L). Qed.
Print Assumptions C102_small_refuted.
(** Non-vacuity. *)
Example C102_gauss_case (L : Libm) : dominant_rows 3 (ex_gauss L) /\ sides_within 3 2 1 (ex_gauss L) (ex_right L) /\ 1000 * INR 3 * unit 53 <= 1 /\
  (forall i, (i < 3)%nat -> 2 * Rabs (num ((ex_gauss L) i i)) <= bpow radix2 127) /\ (exists i j, num ((ex_gauss L) i j) <> num ((ex_gauss L) j i)).
Proof. exact (ex_gauss_case L). Qed.
Example C102_closed_case (L : Libm) : let f := fun i : nat => mkV3 (@fofZ F64 (F_ops L) (Z.of_nat (Nat.min i 9))) (@fofZ F64 (F_ops L) 7) (@fofZ F64 (F_ops L) (-5)) in
  8 <= bpow radix2 127 /\ 256 * (10 + 1) <= huge 1024 /\ 1000 * INR 10 * unit 53 <= 1 /\ holds (arr_of 10 f) 10 f /\ (forall k, (k < 10)%nat -> point_within 10 (f k)).
Proof. exact (ex_closed_case L). Qed.
