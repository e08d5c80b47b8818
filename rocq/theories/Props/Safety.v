(** The solvers never leave their arrays and never read an unwritten cell,
    whatever the numbers are. A call that did would be [Undef] (Base/Array.v).
    C75_tridiagonal, C75_vectors and C75_cyclic hold for every arithmetic [O]
    and so for doubles with NaN and infinities. *)
From Coq Require Import Arith ZArith List Lia.
From Flocq Require Import Core.Core IEEE754.BinarySingleNaN.
From Verif.Base Require Import Outcome Array Scalar ScalarF.
From Verif.Model Require Import Types LinearEquations Spline.
From Verif.Spec Require Import ArraySpec FloatSpec.
From Verif.Proof Require Import AnyScalar SafeSplines.

(** C75. TriDiagonal::solve; [r] may be the result array itself. *)
Theorem C75_tridiagonal {T : Type} {O : RealOps T} (a b c : arr T) r u n : 0 < n -> written a (n - 1) -> written b n -> written c (n - 1) -> rhs_written r u n -> n <= alen u ->
  exists ok u', tri_solve a b c r u n = Ok (ok, u') /\ unchanged_from n u u' /\ (ok = true -> written u' n).
Proof. exact (tri_safe a b c r u n). Qed.
Print Assumptions C75_tridiagonal.

Example C75_tridiagonal_case : written (three B754_nan (F64_ofZ 1) (B754_infinity true)) 3 /\ rhs_written None (three B754_nan B754_nan B754_nan) 3.
Proof. split; apply three_written; lia. Qed.

(** C75. TriDiagonal::solve for vectors. *)
Theorem C75_vectors {T : Type} {O : RealOps T} (a b c : arr T) r u n : 0 < n -> written a (n - 1) -> written b n -> written c (n - 1) -> rhs_written r u n -> n <= alen u ->
  exists ok u', tri3_solve a b c r u n = Ok (ok, u') /\ unchanged_from n u u' /\ (ok = true -> written u' n).
Proof. exact (tri3_safe a b c r u n). Qed.
Print Assumptions C75_vectors.

(** C75. TriDiagonal::solveCyclic. *)
Theorem C75_cyclic {T : Type} {O : RealOps T} (a b c : arr T) alpha beta r x n : 2 < n -> written a (n - 1) -> written b n -> written c (n - 1) -> written r n -> n <= alen x ->
  exists ok x', tri_solveCyclic a b c alpha beta r x n = Ok (ok, x') /\ unchanged_from n x x' /\ (ok = true -> written x' n).
Proof. exact (cyclic_safe a b c alpha beta r x n). Qed.
Print Assumptions C75_cyclic.

(** C75. GaussJordan: every call is safe, unless all entries of the matrix are NaN. Then it uses uninitialized indices. *)
Theorem C75_gaussJordan_double_partial (L : Libm) (a b : arr F64) n m : written a (n * n) -> written b (n * m) ->
  ((n = 0 \/ exists q v, q < n * n /\ acell a q = Some v /\ ordered v) ->
     exists ok a' b', @gj_solve F64 (F_ops L) a n b m = Ok (ok, a', b') /\ unchanged_from (n * n) a a' /\ unchanged_from (n * m) b b' /\ written a' (n * n) /\ written b' (n * m)) /\
  (0 < n -> (forall q v, q < n * n -> acell a q = Some v -> ~ ordered v) -> @gj_solve F64 (F_ops L) a n b m = Undef).
Proof. exact (gj_double L a b n m). Qed.
Print Assumptions C75_gaussJordan_double_partial.

Example C75_gaussJordan_case : exists a : arr F64, written a (1 * 1) /\ (forall q v, q < 1 * 1 -> acell a q = Some v -> ~ ordered v).
Proof.
  exists (mkArr 1 (fun _ => Some B754_nan)). split; [split; [cbn; lia|]; intros; eexists; reflexivity|].
  intros q v _ E. injection E as <-. discriminate.
Qed.

(** C75. closedBezierSpline. *)
Theorem C75_closedSpline_double (L : Libm) (p1 p2 p3 : arr (Vec3 F64)) n : 2 <= n -> written p1 n -> n <= alen p2 -> n <= alen p3 ->
  exists ok p2' p3', @closedBezierSpline F64 (F_ops L) n p1 p2 p3 = Ok (ok, p2', p3') /\
    unchanged_from n p2 p2' /\ unchanged_from n p3 p3' /\ written p2' n /\ (ok = true -> written p3' n).
Proof. exact (closed_double L p1 p2 p3 n). Qed.
Print Assumptions C75_closedSpline_double.

Example C75_points_case : written bad_points 3 /\ alen bad_points = 3.
Proof. split; [|reflexivity]. split; [reflexivity|]. intros i _. eexists. reflexivity. Qed.

(** C76. naturalBezierSpline succeeds for two or more points. *)
Theorem C76_naturalSpline_double (L : Libm) (p1 p2 p3 : arr (Vec3 F64)) n : 2 <= n -> written p1 n -> n - 1 <= alen p2 -> n - 1 <= alen p3 ->
  exists p2' p3', @naturalBezierSpline F64 (F_ops L) n p1 p2 p3 = Ok (true, p2', p3') /\
    written p2' (n - 1) /\ written p3' (n - 1) /\ unchanged_from (n - 1) p2 p2' /\ unchanged_from (n - 1) p3 p3'.
Proof. exact (natural_double L p1 p2 p3 n). Qed.
Print Assumptions C76_naturalSpline_double.

(** C76. bezierSpline too. *)
Theorem C76_bezierSpline_double (L : Libm) (p1 p2 p3 : arr (Vec3 F64)) (q r0 : Vec3 F64) n : 2 <= n -> written p1 n -> n - 1 <= alen p2 -> n - 1 <= alen p3 ->
  exists p2' p3', @bezierSpline F64 (F_ops L) n p1 q r0 p2 p3 = Ok (true, p2', p3') /\
    written p2' (n - 1) /\ written p3' (n - 1) /\ unchanged_from (n - 1) p2 p2' /\ unchanged_from (n - 1) p3 p3'.
Proof. exact (clamped_double L p1 p2 p3 q r0 n). Qed.
Print Assumptions C76_bezierSpline_double.

Example C76_points_case : written bad_points 3 /\ 3 - 1 <= alen bad_points.
Proof. split; [apply C75_points_case|cbn; lia]. Qed.
