(** Quaternions: product, conversions. *)
From Coq Require Import Reals ZArith Arith Lra Lia Bool Psatz Nsatz.
From Verif.Base Require Import Outcome Wp Scalar ScalarR RFacts.
From Verif.Model Require Import Types Functions Vec Mat2 Mat3 Quat Mat4 Mat34.
From Verif.Spec Require Import LinAlg VecSpec MatSpec QuatSpec.
From Verif.Proof Require Import FunctionsProofs LinAlgFacts VecFacts VecProofs MatFacts MatProofs MatFlags MatInverse MatInverse4 MatRotation.
Local Open Scope R_scope.

Ltac qunf := unfold qturn, hamilton, qconj, qnorm2, qdot, qneg, qone, quat, qvec, plus3, smul3, cross3, dot3, zero3 in *.
Ltac qdes := repeat match goal with q : Quat R |- _ => destruct q as [? ? ? ?] end.
Ltac qcbn := cbn [qx qy qz qw x3 y3 z3] in *.
Ltac qsimp := qdes; qunf; qcbn; rops.

Lemma hamilton_mk a b c d a' b' c' d' : hamilton (mkQ a b c d) (mkQ a' b' c' d') =
  mkQ (d * a' + d' * a + (b * c' - c * b')) (d * b' + d' * b + (c * a' - a * c')) (d * c' + d' * c + (a * b' - b * a'))
      (d * d' - (a * a' + b * b' + c * c')).
Proof. reflexivity. Qed.
Lemma qturn_mk a b c d x y z : qturn (mkQ a b c d) (mkV3 x y z) =
  qvec (hamilton (hamilton (mkQ a b c d) (mkQ x y z 0)) (mkQ (-1 * a) (-1 * b) (-1 * c) d)).
Proof. reflexivity. Qed.
Lemma q_mul_eq p q : q_mul p q = hamilton p q.
Proof. unfold q_mul. qsimp. f_equal; ring. Qed.
Lemma hamilton_assoc p q r : hamilton (hamilton p q) r = hamilton p (hamilton q r).
Proof. qdes. rewrite !hamilton_mk. f_equal; ring. Qed.
Lemma hamilton_norm p q : qnorm2 (hamilton p q) = qnorm2 p * qnorm2 q.
Proof. qdes. rewrite hamilton_mk. unfold qnorm2, qdot, dot3, qvec. qcbn. ring. Qed.
Lemma hamilton_one q : hamilton qone q = q /\ hamilton q qone = q.
Proof. qsimp. split; f_equal; ring. Qed.
Lemma q_inverse_eq q : q_inverse q = qconj q.
Proof. unfold q_inverse. qsimp. f_equal; ring. Qed.
Lemma conj_inverse q : qnorm2 q = 1 -> hamilton q (qconj q) = qone /\ hamilton (qconj q) q = qone.
Proof. qsimp. intros H. split; f_equal; nsatz. Qed.
Lemma conj_norm q : qnorm2 (qconj q) = qnorm2 q. Proof. qsimp. ring. Qed.
Lemma q_opp_eq q : q_opp q = qneg q. Proof. unfold q_opp. qsimp. f_equal; ring. Qed.
Lemma qneg_norm q : qnorm2 (qneg q) = qnorm2 q. Proof. qsimp. ring. Qed.
Lemma q_one_eq : q_one = qone. Proof. reflexivity. Qed.

(** Rotation of vectors. *)
Lemma m3_of_quat_ent q : ent3 (m3_of_quat q) = ent3 (mkM3
    (mkV3 (1 - 2 * (qy q * qy q + qz q * qz q)) (2 * (qx q * qy q + qw q * qz q)) (2 * (qz q * qx q - qw q * qy q)))
    (mkV3 (2 * (qx q * qy q - qw q * qz q)) (1 - 2 * (qx q * qx q + qz q * qz q)) (2 * (qy q * qz q + qw q * qx q)))
    (mkV3 (2 * (qz q * qx q + qw q * qy q)) (2 * (qy q * qz q - qw q * qx q)) (1 - 2 * (qx q * qx q + qy q * qy q))) flags_uninit).
Proof. unfold m3_of_quat. cbn zeta. rewrite ent3_optimize. rops. reflexivity. Qed.
Lemma m3_of_quat_exact q : exact3 (m3_of_quat q). Proof. apply m3_optimized. Qed.
(** The homogeneous form of the matrix. *)
Definition hmat (q : Quat R) : Mat3 R := mkM3
    (mkV3 (qw q * qw q + qx q * qx q - qy q * qy q - qz q * qz q) (2 * (qx q * qy q + qw q * qz q)) (2 * (qz q * qx q - qw q * qy q)))
    (mkV3 (2 * (qx q * qy q - qw q * qz q)) (qw q * qw q + qy q * qy q - qx q * qx q - qz q * qz q) (2 * (qy q * qz q + qw q * qx q)))
    (mkV3 (2 * (qz q * qx q + qw q * qy q)) (2 * (qy q * qz q - qw q * qx q)) (qw q * qw q + qz q * qz q - qx q * qx q - qy q * qy q)) flags_uninit.
Lemma hmat_eq q : qnorm2 q = 1 -> meq 3 (ent3 (m3_of_quat q)) (ent3 (hmat q)).
Proof. intros H. rewrite m3_of_quat_ent. unfold hmat. qsimp. entries3; msimp; lra. Qed.
Lemma hmat_mul p q : meq 3 (ent3 (hmat (hamilton p q))) (mmul 3 (ent3 (hmat p)) (ent3 (hmat q))).
Proof. qdes. rewrite hamilton_mk. unfold hmat. qcbn. entries3; msimp; ring. Qed.
Lemma q_rotated_eq q v : qnorm2 q = 1 -> q_rotated q v = qturn q v.
Proof.
  intros H. transitivity (m3_apply (hmat q) v).
  - apply vec3_ext. intros i Hi. unfold q_rotated. rewrite !m3_apply_eq by exact Hi. apply mulv_meq; [apply hmat_eq; exact H|exact Hi].
  - unfold m3_apply, hmat. destruct v as [v1 v2 v3]. qdes. cbn [mx3 my3 mz3]. rewrite qturn_mk, !hamilton_mk. unfold qvec. qcbn. rops. f_equal; ring.
Qed.
Lemma q_rotated_coord_eq q c : qnorm2 q = 1 ->
  match coord_vec c with
  | Some n => q_rotated_coord q c = Ok (qturn q n)
  | None => q_rotated_coord q c = AssertFail
  end.
Proof. intros H. destruct c; cbn [coord_vec]; try reflexivity; unfold q_rotated_coord; qdes; rewrite qturn_mk, !hamilton_mk; unfold qnorm2, qdot, dot3, qvec in *; qcbn; rops; f_equal; f_equal; lra. Qed.
Lemma m3_of_quat_mul p q : qnorm2 p = 1 -> qnorm2 q = 1 ->
  meq 3 (ent3 (m3_of_quat (hamilton p q))) (mmul 3 (ent3 (m3_of_quat p)) (ent3 (m3_of_quat q))).
Proof.
  intros Hp Hq. eapply meq_trans; [apply hmat_eq; rewrite hamilton_norm, Hp, Hq; ring|].
  eapply meq_trans; [apply hmat_mul|]. apply meq_sym, mmul_ext; apply hmat_eq; assumption.
Qed.
Lemma m3_of_quat_neg q : meq 3 (ent3 (m3_of_quat (qneg q))) (ent3 (m3_of_quat q)).
Proof. rewrite !m3_of_quat_ent. qsimp. entries3; msimp; ring. Qed.
Lemma m3_of_quat_conj q : meq 3 (ent3 (m3_of_quat (qconj q))) (mtrans (ent3 (m3_of_quat q))).
Proof. rewrite !m3_of_quat_ent. qsimp. entries3; msimp; ring. Qed.
Lemma q_mul_v3_eq q v : q_mul_v3 q v = qvec (hamilton q (quat v 0)).
Proof. unfold q_mul_v3. destruct v as [v1 v2 v3]. qsimp. f_equal; ring. Qed.
Lemma q_mul_v3_refuted : exists q v, qnorm2 q = 1 /\ q_mul_v3 q v <> qturn q v.
Proof.
  exists (mkQ 0 0 1 0), (mkV3 1 0 0). split; [qsimp; ring|]. rewrite q_mul_v3_eq, qturn_mk, !hamilton_mk. unfold quat. qcbn. rewrite hamilton_mk. unfold qvec. qcbn. intros [= E _]. lra.
Qed.

(** * Rotation matrix to quaternion *)
(** Entries (row, column) of a rotation matrix satisfy the following. *)
Lemma rotation_facts A : rotation A ->
  let a := A 0%nat 0%nat in let b := A 0%nat 1%nat in let c := A 0%nat 2%nat in
  let d := A 1%nat 0%nat in let e := A 1%nat 1%nat in let f := A 1%nat 2%nat in
  let g := A 2%nat 0%nat in let h := A 2%nat 1%nat in let i := A 2%nat 2%nat in
  (a * a + d * d + g * g = 1 /\ b * b + e * e + h * h = 1 /\ c * c + f * f + i * i = 1) /\
  (a * a + b * b + c * c = 1 /\ d * d + e * e + f * f = 1 /\ g * g + h * h + i * i = 1) /\
  (a = e * i - f * h /\ b = f * g - d * i /\ c = d * h - e * g) /\
  (d = c * h - b * i /\ e = a * i - c * g /\ f = b * g - a * h) /\
  (g = b * f - c * e /\ h = c * d - a * f /\ i = a * e - b * d) /\
  (a * b + d * e + g * h = 0 /\ a * c + d * f + g * i = 0 /\ b * c + e * f + h * i = 0) /\
  (a * d + b * e + c * f = 0 /\ a * g + b * h + c * i = 0 /\ d * g + e * h + f * i = 0).
Proof.
  intros [Ho Hd] a b c d e f g h i. pose proof (orthonormal_trans3 A Ho) as Ht.
  assert (J : meq 3 (mtrans A) (ent3 (mkM3
    (mkV3 (e * i - f * h) (f * g - d * i) (d * h - e * g)) (mkV3 (c * h - b * i) (a * i - c * g) (b * g - a * h))
    (mkV3 (b * f - c * e) (c * d - a * f) (a * e - b * d)) flags_uninit))).
  { set (m := mkM3 (mkV3 a d g) (mkV3 b e h) (mkV3 c f i) flags_uninit).
    assert (E : meq 3 A (ent3 m)) by (entries3; reflexivity).
    assert (D1 : det 3 (ent3 m) = 1) by (rewrite <- (det_ext _ _ _ E); exact Hd).
    assert (I1 : inverse 3 A (mtrans A)) by (apply orthonormal_inverse3; exact Ho).
    assert (I2 : inverse 3 A (ent3 (m3_adjoint m))).
    { pose proof (m3_adjoint_l m) as JL. pose proof (m3_adjoint_r m) as JR. rewrite D1 in JL, JR.
      split.
      - eapply meq_trans; [apply mmul_ext; [exact E|apply meq_refl]|]. eapply meq_trans; [exact JL|].
        intros r k _ _. unfold mscal. ring.
      - eapply meq_trans; [apply mmul_ext; [apply meq_refl|exact E]|]. eapply meq_trans; [exact JR|].
        intros r k _ _. unfold mscal. ring. }
    eapply meq_trans; [apply (inverse_unique _ _ _ _ I1 I2)|]. unfold m3_adjoint. rewrite ent3_optimize.
    entries3; unfold m; cbn; rops; ring. }
  pose proof (Ho 0 0 ltac:(lia) ltac:(lia))%nat as O0. pose proof (Ho 1 1 ltac:(lia) ltac:(lia))%nat as O1. pose proof (Ho 2 2 ltac:(lia) ltac:(lia))%nat as O2.
  pose proof (Ht 0 0 ltac:(lia) ltac:(lia))%nat as T0. pose proof (Ht 1 1 ltac:(lia) ltac:(lia))%nat as T1. pose proof (Ht 2 2 ltac:(lia) ltac:(lia))%nat as T2.
  pose proof (Ho 0 1 ltac:(lia) ltac:(lia))%nat as O3. pose proof (Ho 0 2 ltac:(lia) ltac:(lia))%nat as O4. pose proof (Ho 1 2 ltac:(lia) ltac:(lia))%nat as O5.
  pose proof (Ht 0 1 ltac:(lia) ltac:(lia))%nat as T3. pose proof (Ht 0 2 ltac:(lia) ltac:(lia))%nat as T4. pose proof (Ht 1 2 ltac:(lia) ltac:(lia))%nat as T5.
  pose proof (J 0 0 ltac:(lia) ltac:(lia))%nat as J00. pose proof (J 1 0 ltac:(lia) ltac:(lia))%nat as J10. pose proof (J 2 0 ltac:(lia) ltac:(lia))%nat as J20.
  pose proof (J 0 1 ltac:(lia) ltac:(lia))%nat as J01. pose proof (J 1 1 ltac:(lia) ltac:(lia))%nat as J11. pose proof (J 2 1 ltac:(lia) ltac:(lia))%nat as J21.
  pose proof (J 0 2 ltac:(lia) ltac:(lia))%nat as J02. pose proof (J 1 2 ltac:(lia) ltac:(lia))%nat as J12. pose proof (J 2 2 ltac:(lia) ltac:(lia))%nat as J22.
  clear J Ho Ht Hd. unfold mmul, mtrans, ident in *. mcbn. subst a b c d e f g h i.
  repeat split; try assumption; lra.
Qed.

(** Shepperd's four branches. *)
Lemma sqrt2s t : 0 < t -> exists s, sqrt t * 2 = s /\ 0 < s /\ s * s = 4 * t.
Proof.
  intros H. exists (sqrt t * 2). split; [reflexivity|]. pose proof (sqrt_lt_R0 t H). split; [lra|].
  replace (sqrt t * 2 * (sqrt t * 2)) with (4 * (sqrt t * sqrt t)) by ring. rewrite sqrt_sqrt by lra. reflexivity.
Qed.
Lemma q_of_mat3_spec m : rotation (ent3 m) ->
  qnorm2 (q_of_mat3 m) = 1 /\ meq 3 (ent3 (m3_of_quat (q_of_mat3 m))) (ent3 m).
Proof.
  intros H. apply rotation_facts in H. destruct m as [[a d g] [b e h] [c f i] fl]. mcbn. cbn zeta in H.
  destruct H as ((C1 & C2 & C3) & (R1 & R2 & R3) & (F1 & F2 & F3) & (F4 & F5 & F6) & (F7 & F8 & F9) & (G1 & G2 & G3) & (G4 & G5 & G6)).
  assert (K : exists q s t, q_of_mat3 (mkM3 (mkV3 a d g) (mkV3 b e h) (mkV3 c f i) fl) = q /\ 0 < s /\ s * s = 4 * t /\
    (t = 1 + a + e + i /\ q = mkQ ((h - f) / s) ((c - g) / s) ((d - b) / s) (s / 4) \/
     t = 1 + a - e - i /\ q = mkQ (s / 4) ((b + d) / s) ((c + g) / s) ((h - f) / s) \/
     t = 1 + e - a - i /\ q = mkQ ((b + d) / s) (s / 4) ((f + h) / s) ((c - g) / s) \/
     t = 1 + i - a - e /\ q = mkQ ((c + g) / s) ((f + h) / s) (s / 4) ((d - b) / s))).
  { unfold q_of_mat3, q_of_columns. cbn [mx3 my3 mz3 x3 y3 z3]. rops.
    destruct (Rltb_spec 0 (a + e + i)) as [L|L].
    { destruct (sqrt2s (1 + (a + e + i)) ltac:(lra)) as (s & -> & S1 & S2).
      eexists; exists s, (1 + a + e + i). split; [reflexivity|]. split; [exact S1|]. split; [lra|]. left; split; reflexivity. }
    destruct (Rltb_spec e a) as [L1|L1]; cbn [andb].
    1: destruct (Rltb_spec i a) as [L2|L2].
    { destruct (sqrt2s (1 + a - e - i) ltac:(lra)) as (s & -> & S1 & S2).
      eexists; exists s, (1 + a - e - i). split; [reflexivity|]. split; [exact S1|]. split; [lra|]. right; left; split; reflexivity. }
    all: destruct (Rltb_spec i e) as [L3|L3].
    1, 3: destruct (sqrt2s (1 + e - a - i) ltac:(lra)) as (s & -> & S1 & S2);
      eexists; exists s, (1 + e - a - i); split; [reflexivity|]; split; [exact S1|]; split; [lra|]; right; right; left; split; reflexivity.
    all: destruct (sqrt2s (1 + i - a - e) ltac:(lra)) as (s & -> & S1 & S2);
      eexists; exists s, (1 + i - a - e); split; [reflexivity|]; split; [exact S1|]; split; [lra|]; right; right; right; split; reflexivity. }
  destruct K as (q & s & t & -> & S1 & S2 & K). rewrite m3_of_quat_ent.
  assert (T : t <> 0) by nra.
  assert (I2 : forall x y, x / s * (y / s) = x * y / (4 * t)) by (intros; rewrite <- S2; field; lra).
  assert (I3 : forall x, s / 4 * (x / s) = x / 4) by (intros; field; lra).
  assert (I4 : forall x, x / s * (s / 4) = x / 4) by (intros; field; lra).
  assert (I5 : s / 4 * (s / 4) = t / 4) by (replace (s / 4 * (s / 4)) with (s * s / 16) by field; rewrite S2; field).
  clear S1 S2. 
  destruct K as [[E ->]|[[E ->]|[[E ->]|[E ->]]]]; (split; [unfold qnorm2, qdot, dot3, qvec|entries3]; cbn [qx qy qz qw x3 y3 z3 ent3 vent3 mx3 my3 mz3];
    rewrite ?I2, ?I3, ?I4, ?I5; clear I2 I3 I4 I5; field_simplify_eq; try exact T; subst t; lra).
Qed.
