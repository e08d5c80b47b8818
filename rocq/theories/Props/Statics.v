(** C98: the static constants during and after program start, in any arithmetic. *)
From Coq Require Import Reals ZArith List Bool.
From Verif.Base Require Import Outcome Scalar ScalarR.
From Verif.Model Require Import Types Functions Interpolation Vec Mat2 Mat3 Quat Mat4 Mat34 Access Shapes Box Ball Plane Color Statics.
From Verif.Spec Require Import LinAlg MatSpec StaticsSpec.
From Verif.Proof Require Import StaticsProofs.
Import ListNotations.
Local Open Scope R_scope.

(** C98. Whatever the order in which the constants are initialised, and whatever
    the compiler does in advance, when all have been initialised they have the
    values that the rest of the model uses. *)
Theorem C98_final {T : Type} {O : RealOps T} (minval : T) (early : cst -> bool) (order : list cst) : conforming early -> (forall c, reached early order c) ->
  forall c, phase2 minval order (phase1 minval early) c = settled minval c.
Proof. exact (statics_final minval early order). Qed.
Print Assumptions C98_final.
(** A constant has its value as soon as its own initialiser has run ... *)
Theorem C98_initialised {T : Type} {O : RealOps T} (minval : T) (early : cst -> bool) (order : list cst) (c : cst) : conforming early -> reached early order c ->
  phase2 minval order (phase1 minval early) c = settled minval c.
Proof. exact (statics_reached minval early order c). Qed.
Print Assumptions C98_initialised.
(** ... and keeps it ... *)
Theorem C98_once {T : Type} {O : RealOps T} (minval : T) (early : cst -> bool) (order rest : list cst) (c : cst) : conforming early -> reached early order c ->
  phase2 minval (order ++ rest) (phase1 minval early) c = phase2 minval order (phase1 minval early) c.
Proof. exact (statics_once minval early order rest c). Qed.
Print Assumptions C98_once.
(** ... and is zero before. *)
Theorem C98_before {T : Type} {O : RealOps T} (minval : T) (early : cst -> bool) (order : list cst) (c : cst) : ~ reached early order c ->
  phase2 minval order (phase1 minval early) c = zero_value c.
Proof. exact (statics_pending minval early order c). Qed.
Print Assumptions C98_before.
(** These constants can be read at any moment: their value does not depend on
    whether they have been initialised. *)
Theorem C98_always {T : Type} {O : RealOps T} (minval : T) (s : statics) : moment minval s ->
  s kPI = fpi /\ s kMIN_VALUE = minval /\ s kMAX_VALUE = fmaxval /\ s kMAX_NEG_VALUE = fopp fmaxval /\
  s kVec2_Zero = v2_zero /\ s kVec3_Zero = v3_zero /\ s kVec4_Zero = v4_zero /\
  s kAABB2_Zero = aabb2_zero /\ s kAABB3_Zero = aabb3_zero /\
  s kRGB_Black = rgb_Black /\ s kHSV_Black = hsv_Black.
Proof. exact (statics_always minval s). Qed.
Print Assumptions C98_always.
Theorem C98_zero_matrices {T : Type} {O : RealOps T} (minval : T) (s : statics) : moment minval s ->
  mx2 (s kMat2_Zero) = v2_zero /\ my2 (s kMat2_Zero) = v2_zero /\
  mx3 (s kMat3_Zero) = v3_zero /\ my3 (s kMat3_Zero) = v3_zero /\ mz3 (s kMat3_Zero) = v3_zero /\
  mx4 (s kMat4_Zero) = v4_zero /\ my4 (s kMat4_Zero) = v4_zero /\ mz4 (s kMat4_Zero) = v4_zero /\ mt4 (s kMat4_Zero) = v4_zero /\
  mx3 (rs34 (s kMat34_Zero)) = v3_zero /\ my3 (rs34 (s kMat34_Zero)) = v3_zero /\
  mz3 (rs34 (s kMat34_Zero)) = v3_zero /\ t34 (s kMat34_Zero) = v3_zero.
Proof. exact (statics_zero_matrices minval s). Qed.
Print Assumptions C98_zero_matrices.
(** These functions can be called at any moment, from any initialiser. *)
Theorem C98_safe_functions {T : Type} {O : RealOps T} (minval : T) (s : statics) : moment minval s ->
  (forall x, degreeToRadian_when s x = degreeToRadian x) /\
  (forall x, radianToDegree_when s x = radianToDegree x) /\
  (forall m, m2_optimize_when s m = m2_optimize m) /\
  (forall m, m3_optimize_when s m = m3_optimize m) /\
  (forall m, m4_optimize_when s m = m4_optimize m).
Proof. exact (statics_safe minval s). Qed.
Print Assumptions C98_safe_functions.
(** The functions that read other constants are those of the rest of the model
    when the constants have been initialised. *)
Theorem C98_functions_after {T : Type} {O : RealOps T} (minval : T) (s : statics) : (forall c, s c = settled minval c) ->
  (forall a b t, clerp_when s a b t = clerp a b t) /\
  (forall t, cosine_when s t = interpolationRatio t ImCosine) /\
  m2_setIdentity_when s = m2_setIdentity /\ m3_setIdentity_when s = m3_setIdentity /\
  (forall x y z, m4_set3_default_when s x y z = m4_set4 x y z v4_onew).
Proof. exact (statics_after minval s). Qed.
Print Assumptions C98_functions_after.
(** But a global of the user can be initialised before the constants of the
    library: setIdentity then gives a matrix of zeros which carries the flag of
    the identity, and products take it for the identity. *)
Theorem C98_identity_early_refuted (mv : R) : exists s, moment mv s /\
  let m := m3_setIdentity_when s in
  fIdentity (mf3 m) = true /\ (forall i j, ent3 m i j = 0) /\
  (forall u, m3_apply m u = v3_zero) /\ (forall b, m3_mul m b = b) /\
  let n := m2_setIdentity_when s in
  fIdentity (mf2 n) = true /\ (forall i j, ent2 n i j = 0) /\
  (forall u, m2_apply n u = v2_zero) /\ (forall b, m2_mul n b = b).
Proof. exact (identity_early mv). Qed.
Print Assumptions C98_identity_early_refuted.
(** The circular interpolation then stops the program, the cosine easing stays
    at zero and jumps to one, and the default translation of a Mat4 built from
    three vectors is (0, 0, 0, 0). *)
Theorem C98_easing_early_refuted (mv : R) : exists s, moment mv s /\
  (forall a b t, clerp_when s a b t = AssertFail) /\
  (forall t, 0 < t < 1 -> cosine_when s t = 0) /\ cosine_when s 1 = 1 /\
  (forall x y z, mt4 (m4_set3_default_when s x y z) = v4_zero).
Proof. exact (easing_early mv). Qed.
Print Assumptions C98_easing_early_refuted.
(** Non-vacuity. *)
Example C98_example : exists early order, conforming early /\ (forall c, reached early order c) /\
  phase2 (1 : R) order (phase1 (1 : R) early) kPI_OVER_2 = PI / 2 /\
  (exists c, constant_expression c = false /\ ~ reached early [] c).
Proof. exact statics_case. Qed.
