(** Proofs about Mat2 and Mat3: products, flags, determinants, inverses. *)
From Coq Require Import Reals ZArith Arith Lra Lia Bool Psatz.
From Verif.Base Require Import Outcome Wp Scalar ScalarR RFacts.
From Verif.Model Require Import Types Functions Vec Mat2 Mat3 Quat Mat4 Mat34.
From Verif.Spec Require Import LinAlg VecSpec MatSpec.
From Verif.Proof Require Import LinAlgFacts VecFacts VecProofs MatFacts.
Local Open Scope R_scope.

(** * Determinants *)
Ltac detx := unfold det, minor, mmul, mtrans; cbn [sumf Nat.ltb Nat.leb Nat.even].
Lemma det2_mmul A B : det 2 (mmul 2 A B) = det 2 A * det 2 B. Proof. detx. ring. Qed.
Lemma det3_mmul A B : det 3 (mmul 3 A B) = det 3 A * det 3 B. Proof. detx. ring. Qed.
Lemma det4_mmul A B : det 4 (mmul 4 A B) = det 4 A * det 4 B. Proof. detx. ring. Qed.
Lemma det2_trans A : det 2 (mtrans A) = det 2 A. Proof. detx. ring. Qed.
Lemma det3_trans A : det 3 (mtrans A) = det 3 A. Proof. detx. ring. Qed.
Lemma det4_trans A : det 4 (mtrans A) = det 4 A. Proof. detx. ring. Qed.
Lemma det_ext n A B : meq n A B -> det n A = det n B.
Proof.
  revert A B. induction n as [|n IH]; intros A B H; [reflexivity|]. cbn [det]. apply sumf_ext. intros j Hj.
  rewrite (H 0%nat j) by lia. f_equal. apply IH. intros r c Hr Hc. unfold minor. apply H; [lia|].
  destruct (Nat.ltb c j); lia.
Qed.
Lemma m2_det_eq m : m2_determinant m = det 2 (ent2 m). Proof. unfold m2_determinant. detx. msimp. ring. Qed.
Lemma m3_det_eq m : m3_determinant m = det 3 (ent3 m). Proof. unfold m3_determinant. detx. msimp. ring. Qed.
Lemma m4_det_eq m : m4_determinant m = det 4 (ent4 m).
Proof. unfold m4_determinant. cbn zeta. detx. msimp. ring. Qed.
Lemma m2_trace_eq m : m2_trace m = trace 2 (ent2 m). Proof. unfold m2_trace. msimp. ring. Qed.
Lemma m3_trace_eq m : m3_trace m = trace 3 (ent3 m). Proof. unfold m3_trace. msimp. ring. Qed.
Lemma m4_trace_eq m : m4_trace m = trace 4 (ent4 m). Proof. unfold m4_trace. msimp. ring. Qed.

(** * Products *)
Lemma m2_apply_eq m u i : (i < 2)%nat -> vent2 (m2_apply m u) i = mulv 2 (ent2 m) (vent2 u) i.
Proof. intros Hi. unfold m2_apply. destruct i as [|[|i]]; [| |lia]; msimp; ring. Qed.
Lemma m3_apply_eq m u i : (i < 3)%nat -> vent3 (m3_apply m u) i = mulv 3 (ent3 m) (vent3 u) i.
Proof. intros Hi. unfold m3_apply. destruct i as [|[|[|i]]]; [| | |lia]; msimp; ring. Qed.
Lemma m4_apply_eq m u i : (i < 4)%nat -> vent4 (m4_apply4 m u) i = mulv 4 (ent4 m) (vent4 u) i.
Proof. intros Hi. unfold m4_apply4. destruct i as [|[|[|[|i]]]]; [| | | |lia]; msimp; ring. Qed.

Lemma vec2_ext (u v : Vec2 R) : (forall i, (i < 2)%nat -> vent2 u i = vent2 v i) -> u = v.
Proof.
  intros H. pose proof (H 0%nat ltac:(lia)) as H0. pose proof (H 1%nat ltac:(lia)) as H1.
  destruct u, v; cbn in *; subst; reflexivity.
Qed.
Lemma vec3_ext (u v : Vec3 R) : (forall i, (i < 3)%nat -> vent3 u i = vent3 v i) -> u = v.
Proof.
  intros H. pose proof (H 0%nat ltac:(lia)) as H0. pose proof (H 1%nat ltac:(lia)) as H1. pose proof (H 2%nat ltac:(lia)) as H2.
  destruct u, v; cbn in *; subst; reflexivity.
Qed.
Lemma vec4_ext (u v : Vec4 R) : (forall i, (i < 4)%nat -> vent4 u i = vent4 v i) -> u = v.
Proof.
  intros H. pose proof (H 0%nat ltac:(lia)) as H0. pose proof (H 1%nat ltac:(lia)) as H1.
  pose proof (H 2%nat ltac:(lia)) as H2. pose proof (H 3%nat ltac:(lia)) as H3.
  destruct u, v; cbn in *; subst; reflexivity.
Qed.
Lemma mulv_mmul n A B x i : (i < n)%nat -> mulv n (mmul n A B) x i = mulv n A (mulv n B x) i.
Proof.
  intros Hi. unfold mulv, mmul.
  transitivity (sumf n (fun j => sumf n (fun k => A i k * B k j * x j))).
  { apply sumf_ext. intros. rewrite <- sumf_scal_r. reflexivity. }
  rewrite sumf_swap. apply sumf_ext. intros k Hk. rewrite <- sumf_scal. apply sumf_ext. intros. ring.
Qed.
Lemma mulv_meq n A B x i : meq n A B -> (i < n)%nat -> mulv n A x i = mulv n B x i.
Proof. intros H Hi. unfold mulv. apply sumf_ext. intros j Hj. rewrite (H i j) by assumption. reflexivity. Qed.

(** Without the shortcut the product is always exact. *)
Lemma m2_mul_raw a b : fIdentity (mf2 a) = false -> fIdentity (mf2 b) = false ->
  meq 2 (ent2 (m2_mul a b)) (mmul 2 (ent2 a) (ent2 b)).
Proof. intros Ha Hb. unfold m2_mul. rewrite Ha, Hb. entries2; msimp; ring. Qed.
Lemma m3_mul_raw a b : fIdentity (mf3 a) = false -> fIdentity (mf3 b) = false ->
  meq 3 (ent3 (m3_mul a b)) (mmul 3 (ent3 a) (ent3 b)).
Proof. intros Ha Hb. unfold m3_mul. rewrite Ha, Hb. entries3; msimp; ring. Qed.
Lemma m4_mul_raw a b : fIdentity (mf4 a) = false -> fIdentity (mf4 b) = false ->
  meq 4 (ent4 (m4_mul a b)) (mmul 4 (ent4 a) (ent4 b)).
Proof. intros Ha Hb. unfold m4_mul. rewrite Ha, Hb. entries4; msimp; ring. Qed.

Lemma prod_l n A B : meq n A ident -> meq n B (mmul n A B).
Proof.
  intros H. apply meq_sym. eapply meq_trans; [apply mmul_ext; [exact H|apply meq_refl]|apply mmul_ident_l].
Qed.
Lemma prod_r n A B : meq n B ident -> meq n A (mmul n A B).
Proof.
  intros H. apply meq_sym. eapply meq_trans; [apply mmul_ext; [apply meq_refl|exact H]|apply mmul_ident_r].
Qed.
Definition tid2 m := true_identity 2 (ent2 m) (mf2 m).
Definition tid3 m := true_identity 3 (ent3 m) (mf3 m).
Definition tid4 m := true_identity 4 (ent4 m) (mf4 m).

Lemma m2_mul_eq a b : tid2 a -> tid2 b -> meq 2 (ent2 (m2_mul a b)) (mmul 2 (ent2 a) (ent2 b)).
Proof.
  intros Ha Hb. destruct (fIdentity (mf2 a)) eqn:Ea; [|destruct (fIdentity (mf2 b)) eqn:Eb].
  - unfold m2_mul. rewrite Ea. apply prod_l. apply Ha. exact Ea.
  - unfold m2_mul. rewrite Ea, Eb. apply prod_r. apply Hb. exact Eb.
  - apply m2_mul_raw; assumption.
Qed.
Lemma m3_mul_eq a b : tid3 a -> tid3 b -> meq 3 (ent3 (m3_mul a b)) (mmul 3 (ent3 a) (ent3 b)).
Proof.
  intros Ha Hb. destruct (fIdentity (mf3 a)) eqn:Ea; [|destruct (fIdentity (mf3 b)) eqn:Eb].
  - unfold m3_mul. rewrite Ea. apply prod_l. apply Ha. exact Ea.
  - unfold m3_mul. rewrite Ea, Eb. apply prod_r. apply Hb. exact Eb.
  - apply m3_mul_raw; assumption.
Qed.
Lemma m4_mul_eq a b : tid4 a -> tid4 b -> meq 4 (ent4 (m4_mul a b)) (mmul 4 (ent4 a) (ent4 b)).
Proof.
  intros Ha Hb. destruct (fIdentity (mf4 a)) eqn:Ea; [|destruct (fIdentity (mf4 b)) eqn:Eb].
  - unfold m4_mul. rewrite Ea. apply prod_l. apply Ha. exact Ea.
  - unfold m4_mul. rewrite Ea, Eb. apply prod_r. apply Hb. exact Eb.
  - apply m4_mul_raw; assumption.
Qed.

(** [a *= b] is the same product, but looks at the second operand first. *)
Lemma m2_mulAssign_raw a b : fIdentity (mf2 a) = false -> fIdentity (mf2 b) = false ->
  m2_mulAssign a b = m2_mul a b.
Proof. intros Ha Hb. unfold m2_mul, m2_mulAssign. rewrite Ha, Hb. reflexivity. Qed.
Lemma m3_mulAssign_raw a b : fIdentity (mf3 a) = false -> fIdentity (mf3 b) = false ->
  m3_mulAssign a b = m3_mul a b.
Proof. intros Ha Hb. unfold m3_mul, m3_mulAssign. rewrite Ha, Hb. reflexivity. Qed.
Lemma m3_rotated_raw a b : fIdentity (mf3 a) = false -> fIdentity (mf3 b) = false ->
  mf3 (m3_rotated_mat a b) = mf3 (m3_mul b a) /\ meq 3 (ent3 (m3_rotated_mat a b)) (ent3 (m3_mul b a)).
Proof.
  intros Ha Hb. unfold m3_mul, m3_rotated_mat. rewrite Ha, Hb. split.
  - cbn [mf3]. unfold flags_and. f_equal; apply andb_comm.
  - entries3; msimp; ring.
Qed.
Lemma m2_mulAssign_eq a b : tid2 a -> tid2 b -> meq 2 (ent2 (m2_mulAssign a b)) (mmul 2 (ent2 a) (ent2 b)).
Proof.
  intros Ha Hb. destruct (fIdentity (mf2 b)) eqn:Eb; [|destruct (fIdentity (mf2 a)) eqn:Ea].
  - unfold m2_mulAssign. rewrite Eb. apply prod_r. apply Hb. exact Eb.
  - unfold m2_mulAssign. rewrite Ea, Eb. apply prod_l. apply Ha. exact Ea.
  - rewrite m2_mulAssign_raw by assumption. apply m2_mul_raw; assumption.
Qed.
Lemma m3_mulAssign_eq a b : tid3 a -> tid3 b -> meq 3 (ent3 (m3_mulAssign a b)) (mmul 3 (ent3 a) (ent3 b)).
Proof.
  intros Ha Hb. destruct (fIdentity (mf3 b)) eqn:Eb; [|destruct (fIdentity (mf3 a)) eqn:Ea].
  - unfold m3_mulAssign. rewrite Eb. apply prod_r. apply Hb. exact Eb.
  - unfold m3_mulAssign. rewrite Ea, Eb. apply prod_l. apply Ha. exact Ea.
  - rewrite m3_mulAssign_raw by assumption. apply m3_mul_raw; assumption.
Qed.
Lemma m3_rotated_eq a b : tid3 a -> tid3 b -> meq 3 (ent3 (m3_rotated_mat a b)) (mmul 3 (ent3 b) (ent3 a)).
Proof.
  intros Ha Hb. destruct (fIdentity (mf3 b)) eqn:Eb; [|destruct (fIdentity (mf3 a)) eqn:Ea].
  - unfold m3_rotated_mat. rewrite Eb. apply prod_l. apply Hb. exact Eb.
  - unfold m3_rotated_mat. rewrite Ea, Eb. apply prod_r. apply Ha. exact Ea.
  - eapply meq_trans; [apply m3_rotated_raw; assumption|]. apply m3_mul_raw; assumption.
Qed.
Lemma m4_transform_eq a b : tid4 a -> tid4 b -> meq 4 (ent4 (m4_transform a b)) (mmul 4 (ent4 b) (ent4 a)).
Proof.
  intros Ha Hb. unfold m4_transform.
  destruct (fIdentity (mf4 b)) eqn:Eb; [|destruct (fIdentity (mf4 a)) eqn:Ea].
  - apply prod_l. apply Hb. exact Eb.
  - apply prod_r. apply Ha. exact Ea.
  - apply m4_mul_raw; assumption.
Qed.
Lemma m4_transformPre_eq a b : tid4 a -> tid4 b -> meq 4 (ent4 (m4_transformPre a b)) (mmul 4 (ent4 a) (ent4 b)).
Proof.
  intros Ha Hb. unfold m4_transformPre.
  destruct (fIdentity (mf4 b)) eqn:Eb; [|destruct (fIdentity (mf4 a)) eqn:Ea].
  - apply prod_r. apply Hb. exact Eb.
  - apply prod_l. apply Ha. exact Ea.
  - apply m4_mul_raw; assumption.
Qed.

Lemma m2_mul_compose a b v : tid2 a -> tid2 b -> m2_apply (m2_mul a b) v = m2_apply a (m2_apply b v).
Proof.
  intros Ha Hb. apply vec2_ext. intros i Hi. rewrite !m2_apply_eq by assumption.
  rewrite (mulv_meq 2 _ _ _ i (m2_mul_eq a b Ha Hb) Hi), mulv_mmul by assumption.
  apply mulv_ext. 1: intros; reflexivity. intros k Hk. rewrite m2_apply_eq by assumption. reflexivity.
Qed.
Lemma m3_mul_compose a b v : tid3 a -> tid3 b -> m3_apply (m3_mul a b) v = m3_apply a (m3_apply b v).
Proof.
  intros Ha Hb. apply vec3_ext. intros i Hi. rewrite !m3_apply_eq by assumption.
  rewrite (mulv_meq 3 _ _ _ i (m3_mul_eq a b Ha Hb) Hi), mulv_mmul by assumption.
  apply mulv_ext. 1: intros; reflexivity. intros k Hk. rewrite m3_apply_eq by assumption. reflexivity.
Qed.
Lemma m4_mul_compose a b v : tid4 a -> tid4 b -> m4_apply4 (m4_mul a b) v = m4_apply4 a (m4_apply4 b v).
Proof.
  intros Ha Hb. apply vec4_ext. intros i Hi. rewrite !m4_apply_eq by assumption.
  rewrite (mulv_meq 4 _ _ _ i (m4_mul_eq a b Ha Hb) Hi), mulv_mmul by assumption.
  apply mulv_ext. 1: intros; reflexivity. intros k Hk. rewrite m4_apply_eq by assumption. reflexivity.
Qed.
