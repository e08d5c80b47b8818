(** Properties C01-C07: linear solvers (linearequations.h), over R. *)
From Coq Require Import Reals Arith List.
From Verif.Base Require Import Outcome Array ArrayFacts Scalar ScalarR.
From Verif.Model Require Import Types LinearEquations.
From Verif.Spec Require Import LinAlg ArraySpec.
From Verif.Proof Require Import LinearProps.
Local Open Scope R_scope.

(** C01. The call is always defined; cells of [u] from n on are untouched; when
    it returns true, the first n cells of [u] contain a solution. The
    right-hand side may be the array [u] itself. *)
Theorem C01_tridiagonal_solution n fa fb fc fr a b c r u0 :
  (0 < n)%nat -> holds a (n - 1) fa -> holds b n fb -> holds c (n - 1) fc ->
  rhs_given r u0 n fr -> (n <= alen u0)%nat ->
  exists ok u, tri_solve a b c r u0 n = Ok (ok, u) /\ unchanged_from n u0 u /\
    (ok = true -> exists x, holds u n x /\ solves n (tri_mat fa fb fc) x fr).
Proof. exact (tri_solve_total n fa fb fc fr a b c r u0). Qed.
Print Assumptions C01_tridiagonal_solution.

(** C02. False exactly when a leading block is singular; never for strictly
    diagonally dominant matrices. *)
Theorem C02_tridiagonal_failure n fa fb fc fr a b c r u0 :
  (0 < n)%nat -> holds a (n - 1) fa -> holds b n fb -> holds c (n - 1) fc ->
  rhs_given r u0 n fr -> (n <= alen u0)%nat ->
  exists ok u, tri_solve a b c r u0 n = Ok (ok, u) /\
    (ok = false <-> exists k, (k < n)%nat /\ singular (S k) (tri_mat fa fb fc)) /\
    (diag_dominant n (tri_mat fa fb fc) -> ok = true).
Proof. exact (tri_solve_false_iff n fa fb fc fr a b c r u0). Qed.
Print Assumptions C02_tridiagonal_failure.

Example C01_C02_hypotheses_met :
  holds (arr_of 2 (fun _ => 1)) (3 - 1) (fun _ => 1) /\
  holds (arr_of 3 (fun _ => 4)) 3 (fun _ => 4) /\
  rhs_given (Some (arr_of 3 INR)) (anew 3) 3 INR /\
  rhs_given None (arr_of 3 INR) 3 INR /\
  diag_dominant 3 (tri_mat (fun _ => 1) (fun _ => 4) (fun _ => 1)).
Proof.
  exact (conj (holds_arr_of 2 _) (conj (holds_arr_of 3 _)
    (conj (holds_arr_of 3 _) (conj (holds_arr_of 3 _) ex_dominant)))).
Qed.

(** C02, finding: a regular matrix can be refused (no pivoting). *)
Theorem C02_regular_matrix_refused :
  exists u, tri_solve (arr_of 1 (fun _ => 1)) (arr_of 2 (fun _ => 0)) (arr_of 1 (fun _ => 1))
    (Some (arr_of 2 (fun _ => 5))) (anew 2) 2 = Ok (false, u) /\
  ~ singular 2 (tri_mat (fun _ => 1) (fun _ => 0) (fun _ => 1)).
Proof. exact ex_antidiagonal_refused. Qed.
Print Assumptions C02_regular_matrix_refused.

(** C03. *)
Theorem C03_vec3_tridiagonal n fa fb fc fr a b c r u0 :
  (0 < n)%nat -> holds a (n - 1) fa -> holds b n fb -> holds c (n - 1) fc ->
  rhs_given r u0 n fr -> (n <= alen u0)%nat ->
  exists ok u, tri3_solve a b c r u0 n = Ok (ok, u) /\ unchanged_from n u0 u /\
    (ok = false <-> exists k, (k < n)%nat /\ singular (S k) (tri_mat fa fb fc)) /\
    (ok = true -> exists x, holds u n x /\
       solves n (tri_mat fa fb fc) (fun i => x3 (x i)) (fun i => x3 (fr i)) /\
       solves n (tri_mat fa fb fc) (fun i => y3 (x i)) (fun i => y3 (fr i)) /\
       solves n (tri_mat fa fb fc) (fun i => z3 (x i)) (fun i => z3 (fr i))).
Proof. exact (tri3_solve_total n fa fb fc fr a b c r u0). Qed.
Print Assumptions C03_vec3_tridiagonal.

Example C03_hypotheses_met :
  rhs_given None (arr_of 3 (fun i => mkV3 (INR i) 1 2)) 3 (fun i => mkV3 (INR i) 1 2).
Proof. exact (holds_arr_of 3 _). Qed.

(** C04. *)
Theorem C04_cyclic_solution n fa fb fc alpha beta fr a b c r x0 :
  (2 < n)%nat -> holds a (n - 1) fa -> holds b n fb -> holds c (n - 1) fc ->
  holds r n fr -> (n <= alen x0)%nat ->
  exists ok x', tri_solveCyclic a b c alpha beta r x0 n = Ok (ok, x') /\ unchanged_from n x0 x' /\
    (ok = true -> ~ singular n (cyclic_mat n fa fb fc alpha beta) ->
       exists x, holds x' n x /\ solves n (cyclic_mat n fa fb fc alpha beta) x fr) /\
    (diag_dominant n (cyclic_mat n fa fb fc alpha beta) ->
       ok = true /\ exists x, holds x' n x /\ solves n (cyclic_mat n fa fb fc alpha beta) x fr).
Proof. exact (cyclic_total n fa fb fc alpha beta fr a b c r x0). Qed.
Print Assumptions C04_cyclic_solution.

Theorem C04_small_sizes_refused (a b c : arr R) alpha beta r x n :
  (n <= 2)%nat -> tri_solveCyclic a b c alpha beta r x n = Ok (false, x).
Proof. exact (cyclic_small a b c alpha beta r x n). Qed.
Print Assumptions C04_small_sizes_refused.

Example C04_hypotheses_met :
  diag_dominant 3 (cyclic_mat 3 (fun _ => 1) (fun _ => 4) (fun _ => 1) 1 1).
Proof. exact ex_cyclic_dominant. Qed.

(** C04, finding: without the hypothesis the claim is false, the solver
    accepts a singular system that has no solution. *)
Theorem C04_singular_system_refuted :
  let one := fun _ : nat => -1 in let two := fun _ : nat => 2 in
  let r := fun i => if Nat.eqb i 0 then 1 else 0 in
  exists x', tri_solveCyclic (arr_of 2 one) (arr_of 3 two) (arr_of 2 one) (-1) (-1)
    (arr_of 3 r) (anew 3) 3 = Ok (true, x') /\
  ~ exists x, solves 3 (cyclic_mat 3 one two one (-1) (-1)) x r.
Proof. exact cyclic_singular_accepted. Qed.
Print Assumptions C04_singular_system_refuted.

(** C05. *)
Theorem C05_gauss_jordan_solution n m A B (a b : arr R) :
  stores a n n A -> stores b n m B ->
  exists ok a' b', gj_solve a n b m = Ok (ok, a', b') /\
    unchanged_from (n * n) a a' /\ unchanged_from (n * m) b b' /\
    (ok = true -> exists X, stores b' n m X /\
       forall l, (l < m)%nat -> solves n A (fun i => X i l) (fun i => B i l)).
Proof. exact (gj_total n m A B a b). Qed.
Print Assumptions C05_gauss_jordan_solution.

Theorem C05_gauss_jordan_vec2 n A fb (a : arr R) (b : arr (Vec2 R)) :
  stores a n n A -> holds b n fb ->
  exists ok a' b', gj_solve_vec2 a n b = Ok (ok, a', b') /\
    (ok = false <-> singular n A) /\
    (ok = true -> exists X, holds b' n X /\
       solves n A (fun i => x2 (X i)) (fun i => x2 (fb i)) /\
       solves n A (fun i => y2 (X i)) (fun i => y2 (fb i))).
Proof. exact (gj_vec2_total n A fb a b). Qed.
Print Assumptions C05_gauss_jordan_vec2.

Theorem C05_gauss_jordan_vec3 n A fb (a : arr R) (b : arr (Vec3 R)) :
  stores a n n A -> holds b n fb ->
  exists ok a' b', gj_solve_vec3 a n b = Ok (ok, a', b') /\
    (ok = false <-> singular n A) /\
    (ok = true -> exists X, holds b' n X /\
       solves n A (fun i => x3 (X i)) (fun i => x3 (fb i)) /\
       solves n A (fun i => y3 (X i)) (fun i => y3 (fb i)) /\
       solves n A (fun i => z3 (X i)) (fun i => z3 (fb i))).
Proof. exact (gj_vec3_total n A fb a b). Qed.
Print Assumptions C05_gauss_jordan_vec3.

(** C06. *)
Theorem C06_gauss_jordan_false_iff_singular n m A B (a b : arr R) :
  stores a n n A -> stores b n m B ->
  exists ok a' b', gj_solve a n b m = Ok (ok, a', b') /\ (ok = false <-> singular n A).
Proof. exact (gj_false_iff n m A B a b). Qed.
Print Assumptions C06_gauss_jordan_false_iff_singular.

(** C07. On success [a] contains a permutation matrix; it is the inverse of A
    only if A itself is a permutation matrix. *)
Theorem C07_left_in_a n m A B (a b : arr R) :
  stores a n n A -> stores b n m B -> ~ singular n A ->
  exists a' b' sg, gj_solve a n b m = Ok (true, a', b') /\ permutation_of n sg /\
    stores a' n n (fun i j => if Nat.eqb i (sg j) then 1 else 0) /\
    ((forall i l, (i < n)%nat -> (l < n)%nat ->
        mulv n A (fun j => if Nat.eqb j (sg l) then 1 else 0) i = if Nat.eqb i l then 1 else 0) ->
     forall i l, (i < n)%nat -> (l < n)%nat -> A i (sg l) = if Nat.eqb i l then 1 else 0).
Proof. exact (gj_left_in_a_full n m A B a b). Qed.
Print Assumptions C07_left_in_a.

(** C07, finding: linearequations.h promises the inverse in [a]. For the
    1 by 1 matrix [2] the content left is 1. *)
Theorem C07_inverse_refuted :
  exists a' b', gj_solve (arr_of 1 (fun _ => 2)) 1 (arr_of 1 (fun _ => 4)) 1 = Ok (true, a', b') /\
    acell a' 0 = Some 1 /\ acell b' 0 = Some 2.
Proof. exact gj_not_inverse. Qed.
Print Assumptions C07_inverse_refuted.

Example C05_C06_C07_hypotheses_met : ~ singular 2 ex_gjA /\
  stores (arr_of_list (0 :: 2 :: 3 :: 0 :: nil)) 2 2 ex_gjA.
Proof. exact ex_gj_regular. Qed.
