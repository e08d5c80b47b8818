(** Properties C36-C41, C64, C65: matrices, over R. *)
From Coq Require Import Reals ZArith Arith Lra Lia.
From Verif.Base Require Import Outcome Array Scalar ScalarR.
From Verif.Model Require Import Types Functions Vec Mat2 Mat3 Quat Mat4.
From Verif.Spec Require Import LinAlg ArraySpec VecSpec MatSpec QuatSpec History.
From Verif.Proof Require Import MatProofs MatFlags MatInverse MatInverse4 MatRotation QuatProofs QuatArc QuatMore MatHistory MatMore MatExamples MatIdentity.
Local Open Scope R_scope.

(** C36. Products are row-by-column products, whenever the identity bit is set
    on exact identities only. *)
Theorem C36_mat2_product (a b : Mat2 R) (v : Vec2 R) :
  true_identity 2 (ent2 a) (mf2 a) -> true_identity 2 (ent2 b) (mf2 b) ->
  meq 2 (ent2 (m2_mul a b)) (mmul 2 (ent2 a) (ent2 b)) /\
  meq 2 (ent2 (m2_mulAssign a b)) (mmul 2 (ent2 a) (ent2 b)) /\
  m2_apply (m2_mul a b) v = m2_apply a (m2_apply b v).
Proof. exact (fun Ha Hb => conj (m2_mul_eq a b Ha Hb) (conj (m2_mulAssign_eq a b Ha Hb) (m2_mul_compose a b v Ha Hb))). Qed.
Print Assumptions C36_mat2_product.
Theorem C36_mat3_product (a b : Mat3 R) (v : Vec3 R) :
  true_identity 3 (ent3 a) (mf3 a) -> true_identity 3 (ent3 b) (mf3 b) ->
  meq 3 (ent3 (m3_mul a b)) (mmul 3 (ent3 a) (ent3 b)) /\
  meq 3 (ent3 (m3_mulAssign a b)) (mmul 3 (ent3 a) (ent3 b)) /\
  meq 3 (ent3 (m3_rotated_mat a b)) (mmul 3 (ent3 b) (ent3 a)) /\
  m3_apply (m3_mul a b) v = m3_apply a (m3_apply b v).
Proof.
  exact (fun Ha Hb => conj (m3_mul_eq a b Ha Hb) (conj (m3_mulAssign_eq a b Ha Hb)
    (conj (m3_rotated_eq a b Ha Hb) (m3_mul_compose a b v Ha Hb)))).
Qed.
Print Assumptions C36_mat3_product.
Theorem C36_mat4_product (a b : Mat4 R) (v : Vec4 R) :
  true_identity 4 (ent4 a) (mf4 a) -> true_identity 4 (ent4 b) (mf4 b) ->
  meq 4 (ent4 (m4_mul a b)) (mmul 4 (ent4 a) (ent4 b)) /\
  meq 4 (ent4 (m4_transform a b)) (mmul 4 (ent4 b) (ent4 a)) /\
  meq 4 (ent4 (m4_transformPre a b)) (mmul 4 (ent4 a) (ent4 b)) /\
  m4_apply4 (m4_mul a b) v = m4_apply4 a (m4_apply4 b v).
Proof.
  exact (fun Ha Hb => conj (m4_mul_eq a b Ha Hb) (conj (m4_transform_eq a b Ha Hb)
    (conj (m4_transformPre_eq a b Ha Hb) (m4_mul_compose a b v Ha Hb)))).
Qed.
Print Assumptions C36_mat4_product.
(** Matrix times vector. *)
Theorem C36_apply (m2 : Mat2 R) (u2 : Vec2 R) (m3 : Mat3 R) (u3 : Vec3 R) (m4 : Mat4 R) (u4 : Vec4 R) :
  (forall i, (i < 2)%nat -> vent2 (m2_apply m2 u2) i = mulv 2 (ent2 m2) (vent2 u2) i) /\
  (forall i, (i < 3)%nat -> vent3 (m3_apply m3 u3) i = mulv 3 (ent3 m3) (vent3 u3) i) /\
  (forall i, (i < 4)%nat -> vent4 (m4_apply4 m4 u4) i = mulv 4 (ent4 m4) (vent4 u4) i).
Proof. exact (conj (m2_apply_eq m2 u2) (conj (m3_apply_eq m3 u3) (m4_apply_eq m4 u4))). Qed.
Print Assumptions C36_apply.
(** Opposite, scaling by a number and by columns. *)
Theorem C36_scalar_operations (m2 : Mat2 R) (m3 : Mat3 R) (m4 : Mat4 R) (k : R) (s2 : Vec2 R) (s3 : Vec3 R) :
  (meq 2 (ent2 (m2_opp m2)) (mscal (-1) (ent2 m2)) /\ meq 2 (ent2 (m2_mul_k m2 k)) (mscal k (ent2 m2)) /\
   meq 2 (ent2 (m2_mulAssign_k m2 k)) (mscal k (ent2 m2)) /\
   meq 2 (ent2 (m2_scaled m2 s2)) (mmul 2 (ent2 m2) (mdiag (vent2 s2)))) /\
  (meq 3 (ent3 (m3_opp m3)) (mscal (-1) (ent3 m3)) /\ meq 3 (ent3 (m3_mul_k m3 k)) (mscal k (ent3 m3)) /\
   meq 3 (ent3 (m3_mulAssign_k m3 k)) (mscal k (ent3 m3)) /\
   meq 3 (ent3 (m3_scaled m3 s3)) (mmul 3 (ent3 m3) (mdiag (vent3 s3)))) /\
  (meq 4 (ent4 (m4_opp m4)) (mscal (-1) (ent4 m4)) /\ meq 4 (ent4 (m4_mul_k m4 k)) (mscal k (ent4 m4)) /\
   meq 4 (ent4 (m4_mulAssign_k m4 k)) (mscal k (ent4 m4))).
Proof. exact (conj (m2_scalar_ops m2 k s2) (conj (m3_scalar_ops m3 k s3) (m4_scalar_ops m4 k))). Qed.
Print Assumptions C36_scalar_operations.
Theorem C36_divisions (m2 : Mat2 R) (m3 : Mat3 R) (m4 : Mat4 R) (k : R) : k <> 0 ->
  (exists r, m2_div m2 k = Ok r /\ meq 2 (ent2 r) (mscal (/ k) (ent2 m2))) /\
  (exists r, m2_divAssign m2 k = Ok r /\ meq 2 (ent2 r) (mscal (/ k) (ent2 m2))) /\
  (exists r, m3_div m3 k = Ok r /\ meq 3 (ent3 r) (mscal (/ k) (ent3 m3))) /\
  (exists r, m3_divAssign m3 k = Ok r /\ meq 3 (ent3 r) (mscal (/ k) (ent3 m3))) /\
  meq 4 (ent4 (m4_div m4 k)) (mscal (/ k) (ent4 m4)) /\
  (exists r, m4_divAssign m4 k = Ok r /\ meq 4 (ent4 r) (mscal (/ k) (ent4 m4))).
Proof.
  exact (fun H => conj (m2_div_ent m2 k H) (conj (m2_divAssign_ent m2 k H) (conj (m3_div_ent m3 k H)
    (conj (m3_divAssign_ent m3 k H) (conj (m4_div_ent m4 k H) (m4_divAssign_ent m4 k H)))))).
Qed.
Print Assumptions C36_divisions.
(** Finding: [m / 0] is the null matrix while [m /= 0] breaks an assertion. *)
Theorem C36_division_by_zero (m2 : Mat2 R) (m3 : Mat3 R) (m4 : Mat4 R) :
  m2_div m2 0 = Ok m2_zero /\ m3_div m3 0 = Ok m3_zero /\ m4_div m4 0 = m4_zero /\
  m2_divAssign m2 0 = AssertFail /\ m3_divAssign m3 0 = AssertFail /\ m4_divAssign m4 0 = AssertFail.
Proof. exact (div_by_zero m2 m3 m4). Qed.
Print Assumptions C36_division_by_zero.
(** Non-trivial matrices meet the hypotheses: a shear with exact flags. *)
Example C36_case : exists a b : Mat3 R, true_identity 3 (ent3 a) (mf3 a) /\ true_identity 3 (ent3 b) (mf3 b) /\
  a <> b /\ ~ meq 3 (ent3 a) ident /\ ~ meq 3 (ent3 b) ident.
Proof. exact product_case. Qed.
(** Finding: [m *= m] does not square the matrix. *)
Theorem C36_mat2_self_assignment_refuted : exists m : Mat2 R, exact_flags 2 (ent2 m) (mf2 m) /\
  ~ meq 2 (ent2 (m2_mulAssign_self m)) (mmul 2 (ent2 m) (ent2 m)).
Proof. exact m2_self_refuted. Qed.
Print Assumptions C36_mat2_self_assignment_refuted.
Theorem C36_mat3_self_assignment_refuted : exists m : Mat3 R, exact_flags 3 (ent3 m) (mf3 m) /\
  ~ meq 3 (ent3 (m3_mulAssign_self m)) (mmul 3 (ent3 m) (ent3 m)).
Proof. exact m3_self_refuted. Qed.
Print Assumptions C36_mat3_self_assignment_refuted.
(** Finding: [m.transform(u, u)] is not [u = m * u]. *)
Theorem C36_transform_in_place_refuted :
  (exists (m : Mat2 R) u, exact_flags 2 (ent2 m) (mf2 m) /\ m2_transform_inplace m u <> m2_apply m u) /\
  (exists (m : Mat3 R) u, exact_flags 3 (ent3 m) (mf3 m) /\ m3_transform_inplace m u <> m3_apply m u).
Proof. exact (conj m2_inplace_refuted m3_inplace_refuted). Qed.
Print Assumptions C36_transform_in_place_refuted.

(** C37. [optimize] computes exact bits for any tolerance. *)
Theorem C37_optimize (t : Tolerance R) (m2 : Mat2 R) (m3 : Mat3 R) :
  (exact_flags_tol (tolNormal t) (tolOrthogonal t) (tolIdentity t) 2 (ent2 m2) (mf2 (m2_optimize_tol t m2)) /\
   ent2 (m2_optimize_tol t m2) = ent2 m2) /\
  (exact_flags_tol (tolNormal t) (tolOrthogonal t) (tolIdentity t) 3 (ent3 m3) (mf3 (m3_optimize_tol t m3)) /\
   ent3 (m3_optimize_tol t m3) = ent3 m3).
Proof. exact (conj (conj (m2_optimize_exact t m2) eq_refl) (conj (m3_optimize_exact t m3) eq_refl)). Qed.
Print Assumptions C37_optimize.
Theorem C37_default_tolerance :
  tolNormal (tol_default : Tolerance R) = tol /\ tolOrthogonal (tol_default : Tolerance R) = tol /\
  tolIdentity (tol_default : Tolerance R) = tol.
Proof. exact tol_def_eq. Qed.
Print Assumptions C37_default_tolerance.
Theorem C37_mat2_results (m : Mat2 R) (u v s : Vec2 R) (a : R) :
  let exact m := exact_flags 2 (ent2 m) (mf2 m) in
  exact (m2_set u v) /\ exact (m2_rotation a) /\ exact (m2_opp m) /\ exact (m2_scaled m s) /\ exact (m2_rotated m a) /\
  exact (m2_rotatePre m a) /\ exact (m2_orthonormalise m) /\ exact (m2_cofactors m) /\ exact (m2_adjoint m).
Proof. exact (m2_exact_ops m u v s a). Qed.
Print Assumptions C37_mat2_results.
Theorem C37_mat3_results (m : Mat3 R) (u v w s : Vec3 R) (q : Quat R) (a : R) :
  let exact m := exact_flags 3 (ent3 m) (mf3 m) in
  exact (m3_set u v w) /\ exact (m3_rotation u a) /\ exact (m3_opp m) /\ exact (m3_scaled m s) /\ exact (m3_of_quat q) /\
  exact (m3_orthonormalise m) /\ exact (m3_cofactors m) /\ exact (m3_adjoint m).
Proof. exact (m3_exact_ops m u v w s q a). Qed.
Print Assumptions C37_mat3_results.
(** Mat4: exact for affine matrices; isTRS exact for all. *)
Theorem C37_mat4_optimize (t : Tolerance R) (m : Mat4 R) : let f := mf4 (m4_optimize_tol t m) in
  ent4 (m4_optimize_tol t m) = ent4 m /\
  (fTrs f = true <-> trs (ent4 m)) /\
  (trs (ent4 m) ->
    (fNormal f = true <-> unit_defect 3 (ent4 m) <= tolNormal t) /\
    (fOrthogonal f = true <-> ortho_defect 3 (ent4 m) <= tolOrthogonal t) /\
    (fIdentity f = true <-> unit_defect 3 (ent4 m) <= tolNormal t /\ ortho_defect 3 (ent4 m) <= tolOrthogonal t /\
                            id_defect 4 (ent4 m) <= tolIdentity t) /\
    fTrs f = true /\ fUninit f = false).
Proof. exact (conj eq_refl (conj (m4_optimize_trs t m) (m4_optimize_exact t m))). Qed.
Print Assumptions C37_mat4_optimize.
(** For other matrices the fourth column is left out of isOrthogonal. *)
Theorem C37_mat4_general (t : Tolerance R) (m : Mat4 R) : ~ trs (ent4 m) -> let f := mf4 (m4_optimize_tol t m) in
  (fNormal f = true <-> unit_defect 4 (ent4 m) <= tolNormal t) /\
  (fOrthogonal f = true <-> coldot 4 (ent4 m) 0 1 * coldot 4 (ent4 m) 0 1 + coldot 4 (ent4 m) 0 2 * coldot 4 (ent4 m) 0 2
      + coldot 4 (ent4 m) 1 2 * coldot 4 (ent4 m) 1 2 <= tolOrthogonal t) /\
  (fIdentity f = true -> id_defect 4 (ent4 m) <= tolIdentity t) /\
  fTrs f = false /\ fUninit f = false.
Proof. exact (m4_optimize_general t m). Qed.
Print Assumptions C37_mat4_general.
(** Finding: a singular matrix is said to be orthonormal. *)
Theorem C37_mat4_orthogonal_refuted : exists m : Mat4 R,
  m = m4_set4 (mkV4 1 0 0 0) (mkV4 0 1 0 0) (mkV4 0 0 1 0) (mkV4 1 0 0 0) /\
  isOrthonormalF (mf4 m) = true /\ ortho_defect 4 (ent4 m) = 1 /\ det 4 (ent4 m) = 0 /\ m4_inversed m <> Ok m4_zero.
Proof. exact (ex_intro _ skew4 (conj eq_refl skew4_refuted)). Qed.
Print Assumptions C37_mat4_orthogonal_refuted.
(** The constructors from one number set sound bits, not always exact ones. *)
Theorem C37_scalar_constructor (k : R) :
  sound_flags 2 (ent2 (m2_scalar k)) (mf2 (m2_scalar k)) /\ sound_flags 3 (ent3 (m3_scalar k)) (mf3 (m3_scalar k)).
Proof. exact (conj (m2_scalar_sound k) (m3_scalar_sound k)). Qed.
Print Assumptions C37_scalar_constructor.
Theorem C37_scalar_constructor_refuted :
  fNormal (mf3 (m3_scalar (-1))) = false /\ unit_defect 3 (ent3 (m3_scalar (-1))) = 0.
Proof. exact m3_scalar_refuted. Qed.
Print Assumptions C37_scalar_constructor_refuted.
(** Shortcut in products: relative error at most sqrt(0.001) in Frobenius norm. *)
Theorem C37_shortcut_error :
  (forall a b : Mat2 R, sound_flags 2 (ent2 a) (mf2 a) -> sound_flags 2 (ent2 b) (mf2 b) ->
    fro2 2 (msub (ent2 (m2_mul a b)) (mmul 2 (ent2 a) (ent2 b))) <= tol * Rmax (fro2 2 (ent2 a)) (fro2 2 (ent2 b))) /\
  (forall a b : Mat3 R, sound_flags 3 (ent3 a) (mf3 a) -> sound_flags 3 (ent3 b) (mf3 b) ->
    fro2 3 (msub (ent3 (m3_mul a b)) (mmul 3 (ent3 a) (ent3 b))) <= tol * Rmax (fro2 3 (ent3 a)) (fro2 3 (ent3 b))) /\
  (forall a b : Mat4 R, (fIdentity (mf4 a) = true -> id_defect 4 (ent4 a) <= tol) ->
    (fIdentity (mf4 b) = true -> id_defect 4 (ent4 b) <= tol) ->
    fro2 4 (msub (ent4 (m4_mul a b)) (mmul 4 (ent4 a) (ent4 b))) <= tol * Rmax (fro2 4 (ent4 a)) (fro2 4 (ent4 b))).
Proof. exact (conj m2_mul_bound (conj m3_mul_bound m4_mul_bound)). Qed.
Print Assumptions C37_shortcut_error.
(** The shortcut is taken by a matrix that is not the identity. *)
Example C37_case : exists a : Mat2 R, sound_flags 2 (ent2 a) (mf2 a) /\ fIdentity (mf2 a) = true /\ ~ meq 2 (ent2 a) ident.
Proof. exact shortcut_case. Qed.

(** C38. Along every history of operations that build rotations, the bits
    claim nothing false. For Mat3, rotations around coordinate axes applied to
    an existing matrix are excluded (first theorem) or only the identity bit
    is lost (second theorem). *)
Theorem C38_mat2_history (m : Mat2 R) : built2 m ->
  rotation2 (ent2 m) /\ fNormal (mf2 m) = true /\ fOrthogonal (mf2 m) = true /\ fUninit (mf2 m) = false /\
  (fIdentity (mf2 m) = true -> id_defect 2 (ent2 m) <= tol).
Proof. exact (history2 m). Qed.
Print Assumptions C38_mat2_history.
Theorem C38_mat3_history_partial (m : Mat3 R) : built3 false m ->
  rotation (ent3 m) /\ fNormal (mf3 m) = true /\ fOrthogonal (mf3 m) = true /\ fUninit (mf3 m) = false /\
  (fIdentity (mf3 m) = true -> id_defect 3 (ent3 m) <= tol).
Proof. exact (history3 m). Qed.
Print Assumptions C38_mat3_history_partial.
Theorem C38_mat3_history_coord_partial (m : Mat3 R) : built3 true m ->
  rotation (ent3 m) /\ fNormal (mf3 m) = true /\ fOrthogonal (mf3 m) = true /\ fUninit (mf3 m) = false.
Proof. exact (history3c m). Qed.
Print Assumptions C38_mat3_history_coord_partial.
Theorem C38_mat4_history (m : Mat4 R) : built4 m ->
  rigid1 (ent4 m) /\ fNormal (mf4 m) = true /\ fOrthogonal (mf4 m) = true /\ fTrs (mf4 m) = true /\ fUninit (mf4 m) = false /\
  (fIdentity (mf4 m) = true -> id_defect 4 (ent4 m) <= tol).
Proof. exact (history4 m). Qed.
Print Assumptions C38_mat4_history.
Example C38_case : exists m : Mat4 R, built4 m /\ ~ meq 4 (ent4 m) ident.
Proof. exact history_case. Qed.
(** Along every history of operations whatsoever on arbitrary matrices, the
    identity bit claims nothing false; the operations left out are listed
    with the definitions of any3 and any4. *)
Theorem C38_identity_bit_any :
  (forall m : Mat2 R, any2 m -> fIdentity (mf2 m) = true -> id_defect 2 (ent2 m) <= tol) /\
  (forall m : Mat3 R, any3 m -> fIdentity (mf3 m) = true -> id_defect 3 (ent3 m) <= tol) /\
  (forall m : Mat4 R, any4 m -> fIdentity (mf4 m) = true -> id_defect 4 (ent4 m) <= tol).
Proof. exact (conj any2_ok (conj any3_ok any4_ok)). Qed.
Print Assumptions C38_identity_bit_any.
(** Finding: the identity bit survives a half turn around a coordinate axis,
    and the products that follow are wrong. *)
Theorem C38_rotate_coord_refuted : exists r,
  m3_rotated_coord m3_one CoZ PI = Ok r /\ m3_rotatedPre_coord m3_one CoZ PI = Ok r /\
  fIdentity (mf3 r) = true /\ id_defect 3 (ent3 r) = 8 /\ m3_mul r m3_one = m3_one /\
  ~ meq 3 (ent3 (m3_mul r r)) (mmul 3 (ent3 r) (ent3 r)).
Proof. exact m3_coord_refuted. Qed.
Print Assumptions C38_rotate_coord_refuted.
(** Finding: transposing keeps a bit that is about columns. *)
Theorem C38_transposed_refuted :
  (exists m : Mat2 R, exact_flags 2 (ent2 m) (mf2 m) /\ fNormal (mf2 (m2_transposed m)) = true /\ unit_defect 2 (ent2 (m2_transposed m)) = 2) /\
  (exists m : Mat3 R, exact_flags 3 (ent3 m) (mf3 m) /\ fNormal (mf3 (m3_transposed m)) = true /\ unit_defect 3 (ent3 (m3_transposed m)) = 6) /\
  (exists m : Mat4 R, built4 m /\ fTrs (mf4 (m4_transposed m)) = true /\ ~ trs (ent4 (m4_transposed m))).
Proof. exact (conj m2_transposed_refuted (conj m3_transposed_refuted m4_transposed_refuted)). Qed.
Print Assumptions C38_transposed_refuted.
(** Finding: a product of matrices with unit columns is said to have unit columns. *)
Theorem C38_product_refuted : exists a b : Mat2 R, exact_flags 2 (ent2 a) (mf2 a) /\ exact_flags 2 (ent2 b) (mf2 b) /\
  fNormal (mf2 (m2_mul a b)) = true /\ tol < unit_defect 2 (ent2 (m2_mul a b)).
Proof. exact m2_product_refuted. Qed.
Print Assumptions C38_product_refuted.
(** Finding: Mat4(k) denies being affine although it is. *)
Theorem C38_mat4_scalar_refuted : fTrs (mf4 (m4_scalar 2)) = false /\ trs (ent4 (m4_scalar 2)).
Proof. exact m4_scalar_refuted. Qed.
Print Assumptions C38_mat4_scalar_refuted.

(** C39. *)
Theorem C39_determinant (m2 : Mat2 R) (m3 : Mat3 R) (m4 : Mat4 R) :
  m2_determinant m2 = det 2 (ent2 m2) /\ m3_determinant m3 = det 3 (ent3 m3) /\ m4_determinant m4 = det 4 (ent4 m4) /\
  m2_trace m2 = trace 2 (ent2 m2) /\ m3_trace m3 = trace 3 (ent3 m3) /\ m4_trace m4 = trace 4 (ent4 m4).
Proof.
  exact (conj (m2_det_eq m2) (conj (m3_det_eq m3) (conj (m4_det_eq m4)
    (conj (m2_trace_eq m2) (conj (m3_trace_eq m3) (m4_trace_eq m4)))))).
Qed.
Print Assumptions C39_determinant.
Theorem C39_determinant_laws :
  (forall a b : Mat2 R, true_identity 2 (ent2 a) (mf2 a) -> true_identity 2 (ent2 b) (mf2 b) ->
    m2_determinant (m2_mul a b) = m2_determinant a * m2_determinant b) /\
  (forall a b : Mat3 R, true_identity 3 (ent3 a) (mf3 a) -> true_identity 3 (ent3 b) (mf3 b) ->
    m3_determinant (m3_mul a b) = m3_determinant a * m3_determinant b) /\
  (forall a b : Mat4 R, true_identity 4 (ent4 a) (mf4 a) -> true_identity 4 (ent4 b) (mf4 b) ->
    m4_determinant (m4_mul a b) = m4_determinant a * m4_determinant b) /\
  (forall m : Mat2 R, m2_determinant (m2_transposed m) = m2_determinant m) /\
  (forall m : Mat3 R, m3_determinant (m3_transposed m) = m3_determinant m) /\
  (forall m : Mat4 R, m4_determinant (m4_transposed m) = m4_determinant m).
Proof. exact determinant_laws. Qed.
Print Assumptions C39_determinant_laws.
Theorem C39_mat2_inverse (m : Mat2 R) :
  (det 2 (ent2 m) = 0 -> m2_inversed m = Ok m2_zero) /\
  (det 2 (ent2 m) <> 0 -> exists r, m2_inversed m = Ok r /\ inverse 2 (ent2 m) (ent2 r)).
Proof. exact (m2_inversed_spec m). Qed.
Print Assumptions C39_mat2_inverse.
Theorem C39_mat3_inverse (m : Mat3 R) :
  (det 3 (ent3 m) = 0 -> m3_inversed m = Ok m3_zero) /\
  (det 3 (ent3 m) <> 0 -> exists r, m3_inversed m = Ok r /\ inverse 3 (ent3 m) (ent3 r)).
Proof. exact (m3_inversed_spec m). Qed.
Print Assumptions C39_mat3_inverse.
(** Mat4: for a matrix flagged orthonormal, only if it is a rigid motion. *)
Theorem C39_mat4_inverse_partial (m : Mat4 R) : (isOrthonormalF (mf4 m) = true -> rigid (ent4 m)) ->
  (det 4 (ent4 m) = 0 -> m4_inversed m = Ok m4_zero) /\
  (det 4 (ent4 m) <> 0 -> exists r, m4_inversed m = Ok r /\ inverse 4 (ent4 m) (ent4 r)).
Proof. exact (inverse4 m). Qed.
Print Assumptions C39_mat4_inverse_partial.
(** Finding: the inverse of an orthonormal matrix that is not affine is wrong. *)
Theorem C39_mat4_inverse_refuted : exists m : Mat4 R,
  m = m4_set4 (mkV4 0 0 0 1) (mkV4 0 1 0 0) (mkV4 0 0 1 0) (mkV4 1 0 0 0) /\
  det 4 (ent4 m) <> 0 /\ ~ exists r, m4_inversed m = Ok r /\ inverse 4 (ent4 m) (ent4 r).
Proof. exact (ex_intro _ perm4 (conj eq_refl perm4_refuted)). Qed.
Print Assumptions C39_mat4_inverse_refuted.
Example C39_case : exists m : Mat4 R, isOrthonormalF (mf4 m) = true /\ rigid (ent4 m) /\ ~ meq 4 (ent4 m) ident /\ det 4 (ent4 m) <> 0.
Proof. exact inverse_case. Qed.
(** Adjoint and cofactors. *)
Theorem C39_adjoint (m2 : Mat2 R) (m3 : Mat3 R) :
  meq 2 (mmul 2 (ent2 m2) (ent2 (m2_adjoint m2))) (mscal (det 2 (ent2 m2)) ident) /\
  meq 2 (ent2 (m2_cofactors m2)) (mtrans (ent2 (m2_adjoint m2))) /\
  meq 3 (mmul 3 (ent3 m3) (ent3 (m3_adjoint m3))) (mscal (det 3 (ent3 m3)) ident) /\
  meq 3 (ent3 (m3_cofactors m3)) (mtrans (ent3 (m3_adjoint m3))).
Proof. exact (conj (m2_adjoint_l m2) (conj (m2_cofactors_eq m2) (conj (m3_adjoint_l m3) (m3_cofactors_eq m3)))). Qed.
Print Assumptions C39_adjoint.

(** C40. *)
Theorem C40_mat3_invert (m : Mat3 R) : (isOrthonormalF (mf3 m) = true -> orthonormal 3 (ent3 m)) ->
  (det 3 (ent3 m) = 0 -> m3_invert m = Ok m3_zero /\ m3_inversed m = Ok m3_zero) /\
  (det 3 (ent3 m) <> 0 -> exists r s, m3_invert m = Ok r /\ m3_inversed m = Ok s /\ meq 3 (ent3 r) (ent3 s) /\
     fUninit (mf3 r) = fUninit (mf3 m) && isOrthonormalF (mf3 m))%bool.
Proof. exact (invert3 m). Qed.
Print Assumptions C40_mat3_invert.
(** With bits that are only right within the tolerance, the shortcut is
    within that tolerance of an inverse. *)
Theorem C40_mat3_invert_error (m : Mat3 R) : sound_flags 3 (ent3 m) (mf3 m) -> isOrthonormalF (mf3 m) = true ->
  exists r, m3_invert m = Ok r /\ fro2 3 (msub (mmul 3 (ent3 r) (ent3 m)) ident) <= 3 * tol.
Proof. exact (m3_invert_error m). Qed.
Print Assumptions C40_mat3_invert_error.
Theorem C40_mat4_invert_partial (m : Mat4 R) : (isOrthonormalF (mf4 m) = true -> rigid (ent4 m)) ->
  (det 4 (ent4 m) = 0 -> m4_invert m = m4_zero) /\
  (det 4 (ent4 m) <> 0 -> inverse 4 (ent4 m) (ent4 (m4_invert m)) /\
     exists r, m4_inversed m = Ok r /\ meq 4 (ent4 r) (ent4 (m4_invert m))).
Proof. exact (invert4 m). Qed.
Print Assumptions C40_mat4_invert_partial.
(** Finding: after invert() of a shear the matrix is marked uninitialized. *)
Theorem C40_mat4_uninitialized_refuted : exists m : Mat4 R,
  m = m4_set4 (mkV4 1 0 0 0) (mkV4 5 1 0 0) (mkV4 0 0 1 0) (mkV4 0 0 0 1) /\
  fUninit (mf4 (m4_invert m)) = true /\ exists r, m4_inversed m = Ok r /\ fUninit (mf4 r) = false.
Proof. exact (ex_intro _ shear4 (conj eq_refl shear4_refuted)). Qed.
Print Assumptions C40_mat4_uninitialized_refuted.

(** C41. *)
Theorem C41_axis_angle (axis : Vec3 R) (a : R) : axis <> zero3 ->
  rotation (ent3 (m3_rotation axis a)) /\ m3_apply (m3_rotation axis a) axis = axis /\
  (forall u, m3_apply (m3_rotation axis a) u = rodrigues (smul3 (/ norm3 axis) axis) a u).
Proof. exact (m3_rotation_spec axis a). Qed.
Print Assumptions C41_axis_angle.
Theorem C41_coordinate_axis (c : Coord) (n : Vec3 R) (a : R) : coord_vec c = Some n ->
  exists m, m3_rotation_coord c a = Ok m /\ exact_flags 3 (ent3 m) (mf3 m) /\ rotation (ent3 m) /\ m3_apply m n = n /\
    forall u, m3_apply m u = rodrigues n a u.
Proof. exact (m3_rotation_coord_spec c n a). Qed.
Print Assumptions C41_coordinate_axis.
Theorem C41_unit_quaternion (q : Quat R) : qnorm2 q = 1 ->
  rotation (ent3 (m3_of_quat q)) /\ forall u, m3_apply (m3_of_quat q) u = qturn q u.
Proof. exact (of_quat_turns q). Qed.
Print Assumptions C41_unit_quaternion.
Theorem C41_mat4 (axis : Vec3 R) (a : R) (q : Quat R) (t : Vec3 R) :
  (meq 3 (ent4 (m4_rotation axis a)) (ent3 (m3_rotation axis a)) /\ trs (ent4 (m4_rotation axis a)) /\
   forall i, (i < 3)%nat -> ent4 (m4_rotation axis a) i 3%nat = 0) /\
  (meq 3 (ent4 (m4_of_quat q t)) (ent3 (m3_of_quat q)) /\ trs (ent4 (m4_of_quat q t)) /\
   forall i, (i < 3)%nat -> ent4 (m4_of_quat q t) i 3%nat = vent3 t i).
Proof. exact (conj (m4_rotation_full axis a) (m4_of_quat_full q t)). Qed.
Print Assumptions C41_mat4.
Theorem C41_mat2 (a : R) (u : Vec2 R) :
  rotation2 (ent2 (m2_rotation a)) /\
  m2_apply (m2_rotation a) u = mkV2 (cos a * x2 u - sin a * y2 u) (sin a * x2 u + cos a * y2 u).
Proof. exact (conj (m2_rotation_rot a) (m2_rotation_turns a u)). Qed.
Print Assumptions C41_mat2.
(** Matrix from an exact and an approximate column. *)
Theorem C41_two_columns (e a : Coord) (ex ap : Vec3 R) :
  cross3 ap ex <> zero3 -> coord_vec e <> None -> coord_vec a <> None -> e <> a ->
  exists m w, m3_set_two e ex a ap = Ok m /\ exact_flags 3 (ent3 m) (mf3 m) /\ rotation (ent3 m) /\
    col3 e m = Some (smul3 (/ norm3 ex) ex) /\ col3 a m = Some w /\ 0 < dot3 w ap /\ dot3 w (cross3 ap ex) = 0.
Proof. exact (m3_set_two_spec e ex a ap). Qed.
Print Assumptions C41_two_columns.
Theorem C41_two_columns_degenerate (e a : Coord) (ex ap : Vec3 R) :
  ex = zero3 \/ cross3 ap ex = zero3 -> m3_set_two e ex a ap = Ok m3_setIdentity.
Proof. exact (m3_set_two_degenerate e ex a ap). Qed.
Print Assumptions C41_two_columns_degenerate.
(** Finding: a null axis does not give a rotation but cos(angle) times the identity. *)
Theorem C41_null_axis_refuted (a : R) : ent3 (m3_rotation zero3 a) = ent3 (m3_scalar (cos a)).
Proof. exact (m3_rotation_zero a). Qed.
Print Assumptions C41_null_axis_refuted.
Example C41_case : (mkV3 1 2 3 : Vec3 R) <> zero3 /\ qnorm2 (mkQ (1/2) (1/2) (1/2) (1/2)) = 1 /\
  cross3 (mkV3 0 1 0) (mkV3 1 1 0) <> zero3.
Proof. exact rotation_case. Qed.

(** C64. [transform] on arrays: every element, nothing else. Strides count
    elements; destination and source are different arrays. *)
Theorem C64_mat2_transform (m : Mat2 R) (dest src : arr (Vec2 R)) (g : nat -> Vec2 R) (count ds ss : nat) :
  (1 <= ds)%nat ->
  (forall i, (i < count)%nat -> (i * ss < alen src)%nat /\ acell src (i * ss) = Some (g i)) ->
  (forall i, (i < count)%nat -> (i * ds < alen dest)%nat) ->
  exists r, m2_transform_array m dest src count ds ss = Ok r /\ alen r = alen dest /\
    (forall i, (i < count)%nat -> acell r (i * ds) = Some (m2_apply m (g i))) /\
    (forall q, (forall i, (i < count)%nat -> q <> (i * ds)%nat) -> acell r q = acell dest q).
Proof. exact (transform_array_spec (m2_apply m) dest src g count ds ss). Qed.
Print Assumptions C64_mat2_transform.
Theorem C64_mat3_transform (m : Mat3 R) (dest src : arr (Vec3 R)) (g : nat -> Vec3 R) (count ds ss : nat) :
  (1 <= ds)%nat ->
  (forall i, (i < count)%nat -> (i * ss < alen src)%nat /\ acell src (i * ss) = Some (g i)) ->
  (forall i, (i < count)%nat -> (i * ds < alen dest)%nat) ->
  exists r, m3_transform_array m dest src count ds ss = Ok r /\ alen r = alen dest /\
    (forall i, (i < count)%nat -> acell r (i * ds) = Some (m3_apply m (g i))) /\
    (forall q, (forall i, (i < count)%nat -> q <> (i * ds)%nat) -> acell r q = acell dest q).
Proof. exact (transform_array_spec (m3_apply m) dest src g count ds ss). Qed.
Print Assumptions C64_mat3_transform.
(** The same loop serves Mat4::transform, transformVector and Mat34::transform. *)
Theorem C64_other_transforms (f : Vec3 R -> Vec3 R) (dest src : arr (Vec3 R)) (g : nat -> Vec3 R) (count ds ss : nat) :
  (1 <= ds)%nat ->
  (forall i, (i < count)%nat -> (i * ss < alen src)%nat /\ acell src (i * ss) = Some (g i)) ->
  (forall i, (i < count)%nat -> (i * ds < alen dest)%nat) ->
  exists r, transform_array f dest src count ds ss = Ok r /\ alen r = alen dest /\
    (forall i, (i < count)%nat -> acell r (i * ds) = Some (f (g i))) /\
    (forall q, (forall i, (i < count)%nat -> q <> (i * ds)%nat) -> acell r q = acell dest q).
Proof. exact (transform_array_spec f dest src g count ds ss). Qed.
Print Assumptions C64_other_transforms.
(** Arrays that are too short make the call undefined. *)
Theorem C64_out_of_range (m : Mat3 R) (dest src : arr (Vec3 R)) (count ds ss i : nat) :
  (i < count)%nat -> (alen dest <= i * ds)%nat \/ (alen src <= i * ss)%nat ->
  m3_transform_array m dest src count ds ss = Undef.
Proof. exact (transform_array_undef (m3_apply m) dest src count ds ss i). Qed.
Print Assumptions C64_out_of_range.
Example C64_case : exists (src dest : arr (Vec3 R)) (g : nat -> Vec3 R),
  (forall i, (i < 3)%nat -> (i * 2 < alen src)%nat /\ acell src (i * 2) = Some (g i)) /\
  (forall i, (i < 3)%nat -> (i * 1 < alen dest)%nat).
Proof. exact array_case. Qed.

(** C65. *)
Theorem C65_row_product (u2 : Vec2 R) (m2 : Mat2 R) (u3 : Vec3 R) (m3 : Mat3 R) :
  v2_mul_mat u2 m2 = m2_apply (m2_transposed m2) u2 /\ v3_mul_mat u3 m3 = m3_apply (m3_transposed m3) u3 /\
  (forall i, (i < 2)%nat -> vent2 (v2_mul_mat u2 m2) i = sumf 2 (fun k => vent2 u2 k * ent2 m2 k i)) /\
  (forall i, (i < 3)%nat -> vent3 (v3_mul_mat u3 m3) i = sumf 3 (fun k => vent3 u3 k * ent3 m3 k i)).
Proof. exact (conj (v2_mul_mat_eq u2 m2) (conj (v3_mul_mat_eq u3 m3) (conj (v2_mul_mat_row u2 m2) (v3_mul_mat_row u3 m3)))). Qed.
Print Assumptions C65_row_product.
Theorem C65_transposed (m2 : Mat2 R) (m3 : Mat3 R) (m4 : Mat4 R) :
  (meq 2 (ent2 (m2_transposed m2)) (mtrans (ent2 m2)) /\ meq 3 (ent3 (m3_transposed m3)) (mtrans (ent3 m3)) /\
   meq 4 (ent4 (m4_transposed m4)) (mtrans (ent4 m4))) /\
  (m2_transposed (m2_transposed m2) = m2 /\ m3_transposed (m3_transposed m3) = m3 /\ m4_transposed (m4_transposed m4) = m4).
Proof. exact (conj (conj (ent2_transposed m2) (conj (ent3_transposed m3) (ent4_transposed m4))) (transposed_twice m2 m3 m4)). Qed.
Print Assumptions C65_transposed.
