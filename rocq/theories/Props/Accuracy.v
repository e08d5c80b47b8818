(** Accuracy of curves, tridiagonal systems and splines in IEEE-754 binary
    numbers of any format (C83 to C85), and uniqueness of the spline (C86). *)
From Coq Require Import Reals ZArith List Lra Lia Bool.
From Flocq Require Import Core.Core IEEE754.BinarySingleNaN.
From Verif.Base Require Import Outcome Array ArrayFacts Scalar ScalarR ScalarF ScalarF32.
From Verif.Model Require Import Types Functions Vec LinearEquations Spline.
From Verif.Spec Require Import VecSpec LinAlg ArraySpec Curve CurveSpecMore IeeeSpec TriSpec.
From Verif.Proof Require Import Ieee IeeeWitness IeeeCurve IeeeTri IeeeSpline SplineUnique AccuracyWitness.
Import ListNotations.
Local Open Scope R_scope.

(** C83. pointAt of a Bezier segment: each coordinate is finite and within 9
    roundings of m of the coordinate of the exact curve. *)
Theorem C83_bezier_point {p e : Z} {Hp : Prec_gt_0 p} {He : Prec_lt_emax p e} (O : RealOps (binary_float p e)) (I : ieee O)
  (b : Bezier (binary_float p e)) (t : (binary_float p e)) : finite3 (bP1 b) -> finite3 (bP2 b) -> finite3 (bP3 b) -> finite3 (bP4 b) -> finite t -> 0 <= num t <= 1 ->
  exists v, bezier_pointAt b t = Ok v /\
  forall i, (i < 3)%nat ->
    let m := 9 * Rabs (num (row3 (bP1 b) i)) + 13 * Rabs (num (row3 (bP2 b) i)) + 7 * Rabs (num (row3 (bP3 b) i)) + 2 * Rabs (num (row3 (bP4 b) i)) + 4 * tiny e in
    m <= huge e -> approx 9 m (row3 v i) (row3 (bez (num3 (bP1 b)) (num3 (bP2 b)) (num3 (bP3 b)) (num3 (bP4 b)) (num t)) i).
Proof. exact (bezier_point_error O I b t). Qed.
Print Assumptions C83_bezier_point.
(** C83. tangentAt of a Bezier segment, against the derivative. *)
Theorem C83_bezier_tangent {p e : Z} {Hp : Prec_gt_0 p} {He : Prec_lt_emax p e} (O : RealOps (binary_float p e)) (I : ieee O)
  (b : Bezier (binary_float p e)) (t : (binary_float p e)) : finite3 (bP1 b) -> finite3 (bP2 b) -> finite3 (bP3 b) -> finite3 (bP4 b) -> finite t -> 0 <= num t <= 1 ->
  exists v w, bezier_tangentAt b t = Ok v /\ has_velocity (bez (num3 (bP1 b)) (num3 (bP2 b)) (num3 (bP3 b)) (num3 (bP4 b))) (num t) w /\
  forall i, (i < 3)%nat ->
    let m := 13 * Rabs (num (row3 (bP1 b) i)) + 25 * Rabs (num (row3 (bP2 b) i)) + 16 * Rabs (num (row3 (bP3 b) i)) + 4 * Rabs (num (row3 (bP4 b) i)) + 4 * tiny e in
    m <= huge e -> approx 8 m (row3 v i) (row3 w i).
Proof. exact (bezier_tangent_error O I b t). Qed.
Print Assumptions C83_bezier_tangent.
(** C83. pointAt of a Hermite segment. *)
Theorem C83_hermite_point {p e : Z} {Hp : Prec_gt_0 p} {He : Prec_lt_emax p e} (O : RealOps (binary_float p e)) (I : ieee O)
  (h : Hermite (binary_float p e)) (t : (binary_float p e)) : finite3 (hP1 h) -> finite3 (hP4 h) -> finite3 (hR1 h) -> finite3 (hR4 h) -> finite t -> 0 <= num t <= 1 ->
  exists v, hermite_pointAt h t = Ok v /\
  forall i, (i < 3)%nat ->
    let m := 7 * Rabs (num (row3 (hP1 h) i)) + 6 * Rabs (num (row3 (hP4 h) i)) + 5 * Rabs (num (row3 (hR1 h) i)) + 3 * Rabs (num (row3 (hR4 h) i)) + 4 * tiny e in
    m <= huge e -> approx 9 m (row3 v i) (row3 (herm (num3 (hP1 h)) (num3 (hP4 h)) (num3 (hR1 h)) (num3 (hR4 h)) (num t)) i).
Proof. exact (hermite_point_error O I h t). Qed.
Print Assumptions C83_hermite_point.
(** C83. tangentAt of a Hermite segment. *)
Theorem C83_hermite_tangent {p e : Z} {Hp : Prec_gt_0 p} {He : Prec_lt_emax p e} (O : RealOps (binary_float p e)) (I : ieee O)
  (h : Hermite (binary_float p e)) (t : (binary_float p e)) : finite3 (hP1 h) -> finite3 (hP4 h) -> finite3 (hR1 h) -> finite3 (hR4 h) -> finite t -> 0 <= num t <= 1 ->
  exists v w, hermite_tangentAt h t = Ok v /\ has_velocity (herm (num3 (hP1 h)) (num3 (hP4 h)) (num3 (hR1 h)) (num3 (hR4 h))) (num t) w /\
  forall i, (i < 3)%nat ->
    let m := 13 * Rabs (num (row3 (hP1 h) i)) + 13 * Rabs (num (row3 (hP4 h) i)) + 9 * Rabs (num (row3 (hR1 h) i)) + 6 * Rabs (num (row3 (hR4 h) i)) + 4 * tiny e in
    m <= huge e -> approx 7 m (row3 v i) (row3 w i).
Proof. exact (hermite_tangent_error O I h t). Qed.
Print Assumptions C83_hermite_tangent.
(** C83. The curve starts and ends exactly at its end points; a parameter
    outside [0, 1], or a NaN, fails the assertion. *)
Theorem C83_bezier_ends {p e : Z} {Hp : Prec_gt_0 p} {He : Prec_lt_emax p e} (O : RealOps (binary_float p e)) (I : ieee O)
  (b : Bezier (binary_float p e)) (t : (binary_float p e)) : finite3 (bP1 b) -> finite3 (bP2 b) -> finite3 (bP3 b) -> finite3 (bP4 b) ->
  (finite t -> num t = 0 -> exists v, bezier_pointAt b t = Ok v /\ finite3 v /\ num3 v = num3 (bP1 b)) /\
  (finite t -> num t = 1 -> exists v, bezier_pointAt b t = Ok v /\ finite3 v /\ num3 v = num3 (bP4 b)) /\
  (~ (finite t /\ 0 <= num t <= 1) -> bezier_pointAt b t = AssertFail /\ bezier_tangentAt b t = AssertFail).
Proof. exact (bezier_ends O I b t). Qed.
Print Assumptions C83_bezier_ends.
(** C83. The same for Hermite segments, and for their tangents. *)
Theorem C83_hermite_ends {p e : Z} {Hp : Prec_gt_0 p} {He : Prec_lt_emax p e} (O : RealOps (binary_float p e)) (I : ieee O)
  (h : Hermite (binary_float p e)) (t : (binary_float p e)) : finite3 (hP1 h) -> finite3 (hP4 h) -> finite3 (hR1 h) -> finite3 (hR4 h) ->
  (finite t -> num t = 0 -> exists v w, hermite_pointAt h t = Ok v /\ finite3 v /\ num3 v = num3 (hP1 h) /\ hermite_tangentAt h t = Ok w /\ finite3 w /\ num3 w = num3 (hR1 h)) /\
  (finite t -> num t = 1 -> exists v w, hermite_pointAt h t = Ok v /\ finite3 v /\ num3 v = num3 (hP4 h) /\ hermite_tangentAt h t = Ok w /\ finite3 w /\ num3 w = num3 (hR4 h)) /\
  (~ (finite t /\ 0 <= num t <= 1) -> hermite_pointAt h t = AssertFail /\ hermite_tangentAt h t = AssertFail).
Proof. exact (hermite_ends O I h t). Qed.
Print Assumptions C83_hermite_ends.
Example C83_case (L : Libm) : exists (b : Bezier F64) (t : F64),
  finite3 (bP1 b) /\ finite3 (bP2 b) /\ finite3 (bP3 b) /\ finite3 (bP4 b) /\ finite t /\ 0 <= num t <= 1 /\
  9 * Rabs (num (row3 (bP1 b) 0)) + 13 * Rabs (num (row3 (bP2 b) 0)) + 7 * Rabs (num (row3 (bP3 b) 0)) + 2 * Rabs (num (row3 (bP4 b) 0)) + 4 * tiny 1024 <= huge 1024 /\
  row3 (bez (num3 (bP1 b)) (num3 (bP2 b)) (num3 (bP3 b)) (num3 (bP4 b)) (num t)) 0 = 11 / 8.
Proof. exact (curve_case L). Qed.

(** C84. In a system whose rows are dominated by the diagonal, solve succeeds,
    the result satisfies every equation up to 112 roundings, and is within 224
    roundings of the exact solution. [R0] is the size of the right-hand side
    relative to the diagonal. The bound does not depend on n. *)
Theorem C84_tridiagonal {p e : Z} {Hp : Prec_gt_0 p} {He : Prec_lt_emax p e} (O : RealOps (binary_float p e)) (I : ieee O)
  (n : nat) (R0 : R) (fa fb fc : nat -> binary_float p e) fr a b c r u0 :
  (0 < n)%nat -> holds a (n - 1) fa -> holds b n fb -> holds c (n - 1) fc ->
  rhs_given r u0 n fr -> (n <= alen u0)%nat -> dominant2 n fa fb fc -> rhs_within n R0 fb fr ->
  let A := (tri_mat (fun k => num (fa k)) (fun k => num (fb k)) (fun k => num (fc k))) in let exact := fun k => num (fr k) in
  exists v x, tri_solve a b c r u0 n = Ok (true, v) /\ unchanged_from n u0 v /\ holds v n x /\
    (forall i, (i < n)%nat -> finite (x i) /\
       Rabs (mulv n A (fun k => num (x k)) i - exact i) <= 112 * unit p * (R0 + tiny e) * Rabs (num (fb i))) /\
    (exists z, solves n A z exact) /\
    (forall z, solves n A z exact -> forall i, (i < n)%nat -> Rabs (num (x i) - z i) <= 224 * unit p * (R0 + tiny e)).
Proof. exact (tri_solve_error O I n R0 fa fb fc fr a b c r u0). Qed.
Print Assumptions C84_tridiagonal.
(** C84. The same for right-hand sides of vectors, coordinate by coordinate. *)
Theorem C84_vectors {p e : Z} {Hp : Prec_gt_0 p} {He : Prec_lt_emax p e} (O : RealOps (binary_float p e)) (I : ieee O)
  (n : nat) (R0 : R) (fa fb fc : nat -> binary_float p e) fr a b c r u0 :
  (0 < n)%nat -> holds a (n - 1) fa -> holds b n fb -> holds c (n - 1) fc ->
  rhs_given r u0 n fr -> (n <= alen u0)%nat -> dominant2 n fa fb fc ->
  (forall g, g = x3 \/ g = y3 \/ g = z3 -> rhs_within n R0 fb (fun i => g (fr i))) ->
  let A := (tri_mat (fun k => num (fa k)) (fun k => num (fb k)) (fun k => num (fc k))) in
  exists v x, tri3_solve a b c r u0 n = Ok (true, v) /\ unchanged_from n u0 v /\ holds v n x /\
    forall g, g = x3 \/ g = y3 \/ g = z3 -> let exact := fun k => num (g (fr k)) in
    (forall i, (i < n)%nat -> finite (g (x i)) /\
       Rabs (mulv n A (fun k => num (g (x k))) i - exact i) <= 112 * unit p * (R0 + tiny e) * Rabs (num (fb i))) /\
    (exists z, solves n A z exact) /\
    (forall z, solves n A z exact -> forall i, (i < n)%nat -> Rabs (num (g (x i)) - z i) <= 224 * unit p * (R0 + tiny e)).
Proof. exact (tri3_solve_error O I n R0 fa fb fc fr a b c r u0). Qed.
Print Assumptions C84_vectors.
(** A system of 100 unknowns, with 4 on the diagonal and 1 beside it. *)
Example C84_case (L : Libm) : let one := fun _ : nat => (@fofZ F64 (F_ops L) 1) in let four := fun _ : nat => (@fofZ F64 (F_ops L) 4) in
  dominant2 100 one four one /\ rhs_within 100 3 four (fun i => (@fofZ F64 (F_ops L) (Z.of_nat (Nat.min i 12)))).
Proof. exact (tri_case L). Qed.

(** C85. naturalBezierSpline: the control points are within 360 roundings of
    those of the exact natural spline through the points. *)
Theorem C85_natural_spline {p e : Z} {Hp : Prec_gt_0 p} {He : Prec_lt_emax p e} (O : RealOps (binary_float p e)) (I : ieee O)
  (K : R) (HK : 256 * (K + 1) <= huge e) n f (p1 p2 p3 : arr (Vec3 (binary_float p e))) :
  (2 <= n)%nat -> holds p1 n f -> (n - 1 <= alen p2)%nat -> (n - 1 <= alen p3)%nat ->
  (forall k, (k < n)%nat -> point_within K (f k)) -> 
  let points := fun k => num3 (f k) in let d := unit p * (360 * (K + tiny e)) in
  exists p2' p3' f2 f3, naturalBezierSpline n p1 p2 p3 = Ok (true, p2', p3') /\ holds p2' (n - 1) f2 /\ holds p3' (n - 1) f3 /\
    unchanged_from (n - 1) p2 p2' /\ unchanged_from (n - 1) p3 p3' /\
    (exists g2 g3, natural_chain (n - 1) points g2 g3) /\
    forall g2 g3, natural_chain (n - 1) points g2 g3 -> forall k, (k < n - 1)%nat ->
      finite3 (f2 k) /\ finite3 (f3 k) /\ within3 d (num3 (f2 k)) (g2 k) /\ within3 d (num3 (f3 k)) (g3 k).
Proof. exact (natural_error O I K HK n f p1 p2 p3). Qed.
Print Assumptions C85_natural_spline.
(** C85. bezierSpline: the same, with the outermost inner control points given. *)
Theorem C85_clamped_spline {p e : Z} {Hp : Prec_gt_0 p} {He : Prec_lt_emax p e} (O : RealOps (binary_float p e)) (I : ieee O)
  (K : R) (HK : 256 * (K + 1) <= huge e) n f q r (p1 p2 p3 : arr (Vec3 (binary_float p e))) :
  (2 <= n)%nat -> holds p1 n f -> (n - 1 <= alen p2)%nat -> (n - 1 <= alen p3)%nat ->
  (forall k, (k < n)%nat -> point_within K (f k)) -> point_within K q -> point_within K r ->
  let points := fun k => num3 (f k) in let d := unit p * (360 * (K + tiny e)) in
  exists p2' p3' f2 f3, bezierSpline n p1 q r p2 p3 = Ok (true, p2', p3') /\ holds p2' (n - 1) f2 /\ holds p3' (n - 1) f3 /\
    unchanged_from (n - 1) p2 p2' /\ unchanged_from (n - 1) p3 p3' /\
    (exists g2 g3, clamped_chain (n - 1) points g2 g3 (num3 q) (num3 r)) /\
    forall g2 g3, clamped_chain (n - 1) points g2 g3 (num3 q) (num3 r) -> forall k, (k < n - 1)%nat ->
      finite3 (f2 k) /\ finite3 (f3 k) /\ within3 d (num3 (f2 k)) (g2 k) /\ within3 d (num3 (f3 k)) (g3 k).
Proof. exact (clamped_error O I K HK n f q r p1 p2 p3). Qed.
Print Assumptions C85_clamped_spline.
Example C85_case (L : Libm) : let f := fun i : nat => (mkV3 (@fofZ F64 (F_ops L) (Z.of_nat (Nat.min i 9))) (@fofZ F64 (F_ops L) 7) (@fofZ F64 (F_ops L) (-5))) in
  256 * (10 + 1) <= huge 1024 /\ holds (arr_of 10 f) 10 f /\ (forall k, (k < 10)%nat -> point_within 10 (f k)).
Proof. exact (points_case L). Qed.

(** C86. Over R, naturalBezierSpline finds the natural spline, and there is no
    other. *)
Theorem C86_natural_unique n f (p1 p2 p3 : arr (Vec3 R)) :
  (2 <= n)%nat -> holds p1 n f -> (n - 1 <= alen p2)%nat -> (n - 1 <= alen p3)%nat ->
  exists p2' p3' f2 f3, naturalBezierSpline n p1 p2 p3 = Ok (true, p2', p3') /\ holds p2' (n - 1) f2 /\ holds p3' (n - 1) f3 /\
    natural_chain (n - 1) f f2 f3 /\
    forall g2 g3, natural_chain (n - 1) f g2 g3 -> forall k, (k < n - 1)%nat -> g2 k = f2 k /\ g3 k = f3 k.
Proof. exact (natural_unique n f p1 p2 p3). Qed.
Print Assumptions C86_natural_unique.
(** C86. So does bezierSpline. *)
Theorem C86_clamped_unique n f (p1 p2 p3 : arr (Vec3 R)) q r :
  (2 <= n)%nat -> holds p1 n f -> (n - 1 <= alen p2)%nat -> (n - 1 <= alen p3)%nat ->
  exists p2' p3' f2 f3, bezierSpline n p1 q r p2 p3 = Ok (true, p2', p3') /\ holds p2' (n - 1) f2 /\ holds p3' (n - 1) f3 /\
    clamped_chain (n - 1) f f2 f3 q r /\
    forall g2 g3, clamped_chain (n - 1) f g2 g3 q r -> forall k, (k < n - 1)%nat -> g2 k = f2 k /\ g3 k = f3 k.
Proof. exact (clamped_unique n f p1 p2 p3 q r). Qed.
Print Assumptions C86_clamped_unique.
(** C86. So does closedBezierSpline, for three points or more (for two the closed spline is not smooth,
    C15_closed_two_points_refuted). *)
Theorem C86_closed_unique n f (p1 p2 p3 : arr (Vec3 R)) :
  (3 <= n)%nat -> holds p1 n f -> (n <= alen p2)%nat -> (n <= alen p3)%nat ->
  exists p2' p3' f2 f3, closedBezierSpline n p1 p2 p3 = Ok (true, p2', p3') /\ holds p2' (n) f2 /\ holds p3' (n) f3 /\
    closed_chain n f f2 f3 /\
    forall g2 g3, closed_chain n f g2 g3 -> forall k, (k < n)%nat -> g2 k = f2 k /\ g3 k = f3 k.
Proof. exact (closed_unique n f p1 p2 p3). Qed.
Print Assumptions C86_closed_unique.
Example C86_case : holds (arr_of 5 (fun i => mkV3 (INR i) (INR (i * i)) 1)) 5 (fun i => mkV3 (INR i) (INR (i * i)) 1) /\
  (5 - 1 <= alen (@anew (Vec3 R) 5))%nat.
Proof. exact (conj (holds_arr_of 5 _) (le_S 4 4 (le_n 4))). Qed.
