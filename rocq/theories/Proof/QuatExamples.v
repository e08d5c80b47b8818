(** Regrouped statements and concrete cases for quaternions. *)
From Coq Require Import Reals ZArith Arith Lra Lia Bool Psatz List.
From Verif.Base Require Import Outcome Array Wp Scalar ScalarR RFacts.
From Verif.Model Require Import Types Functions Vec Mat2 Mat3 Quat Mat4 Mat34.
From Verif.Spec Require Import LinAlg VecSpec MatSpec QuatSpec History ArraySpec.
From Verif.Proof Require Import FunctionsProofs LinAlgFacts VecFacts VecProofs MatFacts MatProofs MatFlags MatInverse MatInverse4 MatRotation QuatProofs QuatArc QuatSlerp MatHistory MatMore QuatMore MatExamples Vec3Slerp.
Local Open Scope R_scope.

Lemma q_mul_laws (p q r : Quat R) :
  q_mul p q = hamilton p q /\ q_mul (q_mul p q) r = q_mul p (q_mul q r) /\
  qnorm2 (q_mul p q) = qnorm2 p * qnorm2 q /\ q_mul q_one q = q /\ q_mul q q_one = q.
Proof.
  rewrite !q_mul_eq, q_one_eq. split; [reflexivity|]. split; [apply hamilton_assoc|]. split; [apply hamilton_norm|].
  apply hamilton_one.
Qed.
Lemma q_inverse_laws (q : Quat R) : qnorm2 q = 1 ->
  q_mul q (q_inverse q) = q_one /\ q_mul (q_inverse q) q = q_one /\ qnorm2 (q_inverse q) = 1.
Proof.
  intros H. rewrite q_inverse_eq, !q_mul_eq, q_one_eq. destruct (conj_inverse q H) as [A B].
  split; [exact A|]. split; [exact B|]. rewrite conj_norm. exact H.
Qed.
Lemma q_matrix_laws (p q : Quat R) : qnorm2 p = 1 -> qnorm2 q = 1 ->
  meq 3 (ent3 (m3_of_quat (q_mul p q))) (mmul 3 (ent3 (m3_of_quat p)) (ent3 (m3_of_quat q))) /\
  meq 3 (ent3 (m3_of_quat (q_inverse q))) (mtrans (ent3 (m3_of_quat q))) /\
  meq 3 (ent3 (m3_of_quat (q_opp q))) (ent3 (m3_of_quat q)) /\
  (forall v, q_rotated q v = qturn q v /\ m3_apply (m3_of_quat q) v = qturn q v).
Proof.
  intros Hp Hq. rewrite q_mul_eq, q_inverse_eq, q_opp_eq. split; [apply m3_of_quat_mul; assumption|].
  split; [apply m3_of_quat_conj|]. split; [apply m3_of_quat_neg|].
  intros v. split; [apply q_rotated_eq; exact Hq|apply of_quat_turns; exact Hq].
Qed.
Lemma quat_case : let p := mkQ (3/5) 0 0 (4/5) in let q := mkQ 0 (5/13) 0 (12/13) in
  qnorm2 p = 1 /\ qnorm2 q = 1 /\ q_mul p q <> q_mul q p.
Proof.
  intros p q. split; [|split]; unfold p, q, qnorm2, qdot, qvec, dot3; cbn; try lra.
  intros E. apply (f_equal (@qz R)) in E. unfold q_mul in E. cbn in E. rops. lra.
Qed.
Lemma mat_quat_case : exists m : Mat3 R, rotation (ent3 m) /\ trace 3 (ent3 m) = -1.
Proof.
  exists (m3_set (mkV3 (-1) 0 0) (mkV3 0 1 0) (mkV3 0 0 (-1))). unfold m3_set. rewrite ent3_optimize.
  split; [split|].
  - unfold orthonormal. entries3; cbn; lra.
  - detx. cbn. lra.
  - unfold trace, ent3, vent3. cbn. lra.
Qed.
Lemma q_between_refuted : exists a b, norm3 a = 1 /\ norm3 b = 1 /\ qturn (q_between a b) a = a /\ a <> b.
Proof.
  assert (U : norm3 (mkV3 1 0 0) = 1) by (apply norm3_root; [lra|]; unfold dot3; cbn; lra).
  assert (V : norm3 (mkV3 (-1) 0 0) = 1) by (apply norm3_root; [lra|]; unfold dot3; cbn; lra).
  exists (mkV3 1 0 0), (mkV3 (-1) 0 0). split; [exact U|]. split; [exact V|]. split.
  - apply q_between_opposite.
    + intros E. apply (f_equal (@x3 R)) in E. cbn in E. lra.
    + intros E. apply (f_equal (@x3 R)) in E. cbn in E. lra.
    + rewrite U, V. unfold dot3. cbn. lra.
  - intros E. apply (f_equal (@x3 R)) in E. cbn in E. lra.
Qed.
Lemma between_case : let a := mkV3 1 0 0 in let b := mkV3 0 1 0 in
  - (99999 / 100000) <= dot3 a b / (norm3 a * norm3 b) <= 99999 / 100000 /\ a <> zero3 /\ b <> zero3.
Proof.
  intros a b. split; [|split].
  - unfold a, b, dot3. cbn. unfold Rdiv. replace ((1 * 0 + 0 * 1 + 0 * 0) * _) with 0 by ring. lra.
  - intros E. apply (f_equal (@x3 R)) in E. cbn in E. lra.
  - intros E. apply (f_equal (@y3 R)) in E. cbn in E. lra.
Qed.
Lemma q_small_refuted : exists q angle axis, qnorm2 q = 1 /\ q <> qone /\ q <> qneg qone /\
  q_toAxisAngle q = Ok (axis, angle) /\ q_of_axis axis angle = qone.
Proof.
  set (c := 15999999 / 16000001). set (s := 8000 / 16000001).
  assert (N : qnorm2 (mkQ s 0 0 c) = 1) by (unfold qnorm2, qdot, qvec, dot3, s, c; cbn; lra).
  exists (mkQ s 0 0 c), 0, (mkV3 1 0 0). split; [exact N|]. split; [|split; [|split]].
  - intros E. apply (f_equal (@qx R)) in E. unfold s in E. cbn in E. lra.
  - intros E. apply (f_equal (@qx R)) in E. unfold s in E. cbn in E. lra.
  - apply q_toAxisAngle_small; [exact N|]. unfold qvec, dot3, q_DELTA, s. cbn. rops. rlit. lra.
  - rewrite q_of_axis_eq by (intros E; apply (f_equal (@x3 R)) in E; cbn in E; lra).
    replace (0 / 2) with 0 by field. rewrite sin_0, cos_0. unfold quat, smul3, qone, zero3. cbn [x3 y3 z3]. rewrite !Rmult_0_l. reflexivity.
Qed.
Lemma axis_angle_case : let q := mkQ (3/5) 0 0 (4/5) in qnorm2 q = 1 /\ q_DELTA < dot3 (qvec q) (qvec q) /\ qw q <> -1.
Proof.
  intros q. unfold q, qnorm2, qdot, qvec, dot3, q_DELTA. cbn. rops. rlit. split; [lra|]. split; lra.
Qed.
Lemma slerp_case : let p := mkQ (3/5) 0 0 (4/5) in let q := mkQ 0 (5/13) 0 (12/13) in let r := mkQ (5/13) 0 0 (12/13) in
  qnorm2 p = 1 /\ qnorm2 q = 1 /\ qnorm2 r = 1 /\ Rabs (qdot p q) < 95 / 100 /\ 95 / 100 <= Rabs (qdot p r).
Proof.
  intros p q r. unfold p, q, r, qnorm2, qdot, qvec, dot3. cbn.
  repeat split; try lra; unfold Rabs; destruct Rcase_abs; lra.
Qed.
Lemma q_one_slerpMax (q : Quat R) m : qnorm2 q = 1 -> q_DELTA < dot3 (qvec q) (qvec q) -> 0 <= m ->
  exists axis angle, q = q_of_axis axis angle /\ norm3 axis = 1 /\ 0 <= angle <= 2 * PI /\
    q_slerpMaxAngle q_one q m = Ok (q_of_axis axis (Rmin angle m)).
Proof. rewrite q_one_eq. apply q_slerpMaxAngle_one. Qed.
Lemma v3_slerp_case : let u := mkV3 1 0 0 in let v := mkV3 0 2 0 in let w := mkV3 (-1) 1 0 in
  u <> zero3 /\ v <> zero3 /\ 0 <= dot3 u v /\ 13421773 / 268435456 * (norm3 u * norm3 v) <= norm3 (cross3 u v) /\
  cross3 u v <> zero3 /\ dot3 u w <= 0.
Proof.
  intros u v w.
  assert (U : norm3 u = 1) by (apply norm3_root; [lra|]; unfold u, dot3; cbn; lra).
  assert (V : norm3 v = 2) by (apply norm3_root; [lra|]; unfold v, dot3; cbn; lra).
  assert (C : norm3 (cross3 u v) = 2) by (apply norm3_root; [lra|]; unfold u, v, dot3, cross3; cbn; lra).
  rewrite U, V, C.
  split; [intros E; apply (f_equal (@x3 R)) in E; cbn in E; lra|].
  split; [intros E; apply (f_equal (@y3 R)) in E; cbn in E; lra|].
  split; [unfold u, v, dot3; cbn; lra|]. split; [lra|].
  split; [intros E; apply (f_equal (@z3 R)) in E; cbn in E; lra|]. unfold u, w, dot3; cbn; lra.
Qed.
