(** C100: determinants and inverses in binary numbers of any format;
    [K] bounds the sizes of the entries. *)
From Coq Require Import Reals ZArith List Lra Lia Bool.
From Flocq Require Import Core.Core IEEE754.BinarySingleNaN.
From Verif.Base Require Import Outcome Array Scalar ScalarR ScalarF ScalarF32.
From Verif.Model Require Import Types Functions Vec Mat2 Mat3 Quat Mat4.
From Verif.Spec Require Import LinAlg VecSpec MatSpec IeeeSpec WholeSpec InverseSpec.
From Verif.Proof Require Import IeeeInverse.
Import ListNotations.
Local Open Scope R_scope.

(** C100. The computed determinants. *)
Theorem C100_determinant {p e : Z} {Hp : Prec_gt_0 p} {He : Prec_lt_emax p e} (O : RealOps (binary_float p e)) (I : ieee O)
  K : 
  (forall m : Mat2 (binary_float p e), bounded 2 K (entry2 m) -> tiny e <= K ^ 2 -> 4 * K ^ 2 <= huge e -> approx 2 (4 * K ^ 2) (m2_determinant m) (det 2 (reals (entry2 m)))) /\
  (forall m : Mat3 (binary_float p e), bounded 3 K (entry3 m) -> tiny e <= K ^ 3 -> 64 * K ^ 3 <= huge e -> approx 5 (15 * K ^ 3) (m3_determinant m) (det 3 (reals (entry3 m)))) /\
  (forall m : Mat4 (binary_float p e), bounded 4 K (entry4 m) -> tiny e <= K ^ 4 -> 128 * K ^ 4 <= huge e -> approx 9 (64 * K ^ 4) (m4_determinant m) (det 4 (reals (entry4 m)))).
Proof. exact (det_error O I K). Qed.
Print Assumptions C100_determinant.
(** C100. Mat2::inversed: when the determinant is not lost in rounding the result
    is close to the inverse. *)
Theorem C100_mat2 {p e : Z} {Hp : Prec_gt_0 p} {He : Prec_lt_emax p e} (O : RealOps (binary_float p e)) (I : ieee O)
  K m : bounded 2 K (entry2 m) -> tiny e <= K ^ 2 -> 8 * K ^ 2 <= huge e ->
  64 * unit p * K ^ 2 <= Rabs (det 2 (reals (entry2 m))) -> 2 * K <= huge e * Rabs (det 2 (reals (entry2 m))) ->
  exists r N, m2_inversed m = Ok r /\ inverse 2 (reals (entry2 m)) N /\
    within 2 (31 * unit p * K ^ 3 / (det 2 (reals (entry2 m))) ^ 2) (entry2 r) N.
Proof. exact (m2_inversed_near O I K m). Qed.
Print Assumptions C100_mat2.
(** C100. Mat3::inversed, and invert of a matrix not flagged orthonormal. *)
Theorem C100_mat3 {p e : Z} {Hp : Prec_gt_0 p} {He : Prec_lt_emax p e} (O : RealOps (binary_float p e)) (I : ieee O)
  K m : bounded 3 K (entry3 m) -> tiny e <= K ^ 3 -> 64 * K ^ 3 <= huge e ->
  512 * unit p * K ^ 3 <= Rabs (det 3 (reals (entry3 m))) -> 4 * K ^ 2 <= huge e * Rabs (det 3 (reals (entry3 m))) ->
  exists r N, m3_inversed m = Ok r /\ (isOrthonormalF (mf3 m) = false -> m3_invert m = Ok r) /\
    inverse 3 (reals (entry3 m)) N /\ within 3 (640 * unit p * K ^ 5 / (det 3 (reals (entry3 m))) ^ 2) (entry3 r) N.
Proof. exact (m3_inversed_near O I K m). Qed.
Print Assumptions C100_mat3.
(** C100. Mat4::inversed and invert of a matrix not flagged orthonormal. *)
Theorem C100_mat4 {p e : Z} {Hp : Prec_gt_0 p} {He : Prec_lt_emax p e} (O : RealOps (binary_float p e)) (I : ieee O)
  K m : bounded 4 K (entry4 m) -> tiny e <= K ^ 4 -> 128 * K ^ 4 <= huge e -> isOrthonormalF (mf4 m) = false ->
  4096 * unit p * K ^ 4 <= Rabs (det 4 (reals (entry4 m))) -> 12 * K ^ 3 <= huge e * Rabs (det 4 (reals (entry4 m))) -> tiny e <= Rabs (det 4 (reals (entry4 m))) ->
  exists N, inverse 4 (reals (entry4 m)) N /\
    (exists r, m4_inversed m = Ok r /\ within 4 (16800 * unit p * K ^ 7 / (det 4 (reals (entry4 m))) ^ 2) (entry4 r) N) /\
    within 4 (16800 * unit p * K ^ 7 / (det 4 (reals (entry4 m))) ^ 2) (entry4 (m4_invert m)) N.
Proof. exact (m4_inv_near O I K m). Qed.
Print Assumptions C100_mat4.
(** C100. A Mat4 flagged orthonormal: the transpose is exact, the translation is
    rounded. *)
Theorem C100_mat4_flagged {p e : Z} {Hp : Prec_gt_0 p} {He : Prec_lt_emax p e} (O : RealOps (binary_float p e)) (I : ieee O)
  m : isOrthonormalF (mf4 m) = true -> (forall i j, (i < 3)%nat -> (j < 4)%nat -> finite (entry4 m i j)) ->
  (forall j, (j < 3)%nat -> rowcol_size 3 (fun k => entry4 m k j) (fun k => entry4 m k 3%nat) <= huge e) ->
  exists r, m4_inversed m = Ok r /\ (forall i j, (i < 3)%nat -> (j < 3)%nat -> entry4 r i j = entry4 m j i /\ entry4 (m4_invert m) i j = entry4 m j i) /\
    (forall j, (j < 3)%nat -> num (entry4 r 3 j) = 0) /\ num (entry4 r 3 3) = 1 /\
    (forall j, (j < 3)%nat ->
      approx 3 (rowcol_size 3 (fun k => entry4 m k j) (fun k => entry4 m k 3%nat)) (entry4 r j 3) (- rowcol 3 (fun k => entry4 m k j) (fun k => entry4 m k 3%nat)) /\
      entry4 (m4_invert m) j 3 = entry4 r j 3).
Proof. exact (m4_flagged O I m). Qed.
Print Assumptions C100_mat4_flagged.
(** C100. The product of a matrix with an approximation of its inverse. *)
Theorem C100_residual {p e : Z} n K t (A E : nat -> nat -> binary_float p e) N : bounded n K A -> inverse n (reals A) N -> within n t E N ->
  forall i j, (i < n)%nat -> (j < n)%nat -> Rabs (mmul n (reals A) (reals E) i j - ident i j) <= INR n * (K * t).
Proof. exact (residual n K t A E N). Qed.
Print Assumptions C100_residual.
(** C100. A singular Mat2 is recognised whatever the entries, as long
    as no product overflows. *)
Theorem C100_mat2_singular {p e : Z} {Hp : Prec_gt_0 p} {He : Prec_lt_emax p e} (O : RealOps (binary_float p e)) (I : ieee O)
  m K : bounded 2 K (entry2 m) -> K ^ 2 <= huge e -> det 2 (reals (entry2 m)) = 0 -> m2_inversed m = Ok m2_zero.
Proof. exact (m2_singular O I m K). Qed.
Print Assumptions C100_mat2_singular.
(** C100. A singular Mat3 of whole numbers is recognised up to a size (114000 in
    doubles).  Missing: other entries, see C100_mat3_singular_refuted. *)
Theorem C100_mat3_singular_partial {p e : Z} {Hp : Prec_gt_0 p} {He : Prec_lt_emax p e} (O : RealOps (binary_float p e)) (I : ieee O)
  K m : 1 <= K -> 6 * (K * K * K) <= whole_limit p -> (forall i j, (i < 3)%nat -> (j < 3)%nat -> whole K (entry3 m i j)) ->
  det 3 (reals (entry3 m)) = 0 -> m3_inversed m = Ok m3_zero.
Proof. exact (whole3_singular O I K m). Qed.
Print Assumptions C100_mat3_singular_partial.
(** C100. The same for Mat4 (up to 4300 in doubles). *)
Theorem C100_mat4_singular_partial {p e : Z} {Hp : Prec_gt_0 p} {He : Prec_lt_emax p e} (O : RealOps (binary_float p e)) (I : ieee O)
  K m : 1 <= K -> 24 * (K * K * K * K) <= whole_limit p -> (forall i j, (i < 4)%nat -> (j < 4)%nat -> whole K (entry4 m i j)) -> isOrthonormalF (mf4 m) = false ->
  det 4 (reals (entry4 m)) = 0 -> m4_inversed m = Ok m4_zero /\ m4_invert m = m4_zero.
Proof. exact (whole4_singular O I K m). Qed.
Print Assumptions C100_mat4_singular_partial.
(** C100. A Mat3 of doubles whose third column is exactly the sum of the first two
    has an "inverse" with entries beyond 2 * 10^10. *)
Theorem C100_mat3_singular_refuted (L : Libm) : exists (m : Mat3 F64) (r : Mat3 F64), (forall i j, (i < 3)%nat -> (j < 3)%nat -> whole 400000 (entry3 m i j)) /\
  num3 (mz3 m) = plus3 (num3 (mx3 m)) (num3 (my3 m)) /\ det 3 (reals (entry3 m)) = 0 /\
  num (@m3_determinant _ (F_ops L) m) = -2 /\ @m3_inversed _ (F_ops L) m = Ok r /\ 20000000000 <= num (entry3 r 0 0).
Proof. exact (singular3 L). Qed.
Print Assumptions C100_mat3_singular_refuted.
(** Non-vacuity. *)
Example C100_mat2_case {p e : Z} {Hp : Prec_gt_0 p} {He : Prec_lt_emax p e} (O : RealOps (binary_float p e)) (I : ieee O) : bounded 2 2 (entry2 (ex2 O)) /\ det 2 (reals (entry2 (ex2 O))) = 5 /\
  exists r N, m2_inversed (ex2 O) = Ok r /\ inverse 2 (reals (entry2 (ex2 O))) N /\ within 2 (31 * unit p * 2 ^ 3 / 5 ^ 2) (entry2 r) N.
Proof. exact (ex2_case O I). Qed.
Example C100_mat3_case {p e : Z} {Hp : Prec_gt_0 p} {He : Prec_lt_emax p e} (O : RealOps (binary_float p e)) (I : ieee O) : bounded 3 2 (entry3 (ex3 O)) /\ det 3 (reals (entry3 (ex3 O))) = 9 /\
  exists r N, m3_inversed (ex3 O) = Ok r /\ m3_invert (ex3 O) = Ok r /\ inverse 3 (reals (entry3 (ex3 O))) N /\ within 3 (640 * unit p * 2 ^ 5 / 9 ^ 2) (entry3 r) N.
Proof. exact (ex3_case O I). Qed.
Example C100_mat4_case {p e : Z} {Hp : Prec_gt_0 p} {He : Prec_lt_emax p e} (O : RealOps (binary_float p e)) (I : ieee O) : bounded 4 1 (entry4 (ex4 O)) /\ det 4 (reals (entry4 (ex4 O))) = 16 /\
  exists N, inverse 4 (reals (entry4 (ex4 O))) N /\ (exists r, m4_inversed (ex4 O) = Ok r /\ within 4 (16800 * unit p * 1 ^ 7 / 16 ^ 2) (entry4 r) N).
Proof. exact (ex4_case O I). Qed.
Example C100_singular_case {p e : Z} {Hp : Prec_gt_0 p} {He : Prec_lt_emax p e} (O : RealOps (binary_float p e)) (I : ieee O) : m2_inversed (flat2 O) = Ok m2_zero.
Proof. exact (flat2_case O I). Qed.
Example C100_flagged_case {p e : Z} {Hp : Prec_gt_0 p} {He : Prec_lt_emax p e} (O : RealOps (binary_float p e)) (I : ieee O) : isOrthonormalF (mf4 (moved O)) = true /\ (forall i j, (i < 3)%nat -> (j < 4)%nat -> finite (entry4 (moved O) i j)) /\
  (forall j, (j < 3)%nat -> rowcol_size 3 (fun k => entry4 (moved O) k j) (fun k => entry4 (moved O) k 3%nat) <= huge e) /\
  rowcol 3 (fun k => entry4 (moved O) k 0%nat) (fun k => entry4 (moved O) k 3%nat) = 4.
Proof. exact (moved_case O I). Qed.
