(** Proofs about the cached flags of Mat2, Mat3 and Mat4. *)
From Coq Require Import Reals ZArith Arith Lra Lia Bool Psatz.
From Verif.Base Require Import Outcome Wp Scalar ScalarR RFacts.
From Verif.Model Require Import Types Functions Vec Mat2 Mat3 Quat Mat4 Mat34.
From Verif.Spec Require Import LinAlg VecSpec MatSpec.
From Verif.Proof Require Import LinAlgFacts VecFacts VecProofs MatFacts MatProofs.
Local Open Scope R_scope.

Lemma m2_normalError_eq m : m2_normalError m = unit_defect 2 (ent2 m).
Proof. unfold m2_normalError, v2_dot. msimp. ring. Qed.
Lemma m2_orthogonalError_eq m : m2_orthogonalError m = ortho_defect 2 (ent2 m).
Proof. unfold m2_orthogonalError, v2_dot. msimp. ring. Qed.
Lemma m2_identityError_eq m : m2_identityError m = id_defect 2 (ent2 m).
Proof. unfold m2_identityError, v2_lengthSqr. msimp. ring. Qed.
Lemma m3_normalError_eq m : m3_normalError m = unit_defect 3 (ent3 m).
Proof. unfold m3_normalError, v3_dot. msimp. ring. Qed.
Lemma m3_orthogonalError_eq m : m3_orthogonalError m = ortho_defect 3 (ent3 m).
Proof. unfold m3_orthogonalError, v3_dot. msimp. ring. Qed.
Lemma m3_identityError_eq m : m3_identityError m = id_defect 3 (ent3 m).
Proof. unfold m3_identityError, v3_lengthSqr. msimp. ring. Qed.

Lemma m2_optimize_exact t m :
  exact_flags_tol (tolNormal t) (tolOrthogonal t) (tolIdentity t) 2 (ent2 m) (mf2 (m2_optimize_tol t m)).
Proof.
  unfold m2_optimize_tol. cbn [mf2 fNormal fOrthogonal fIdentity fUninit]. rops.
  rewrite m2_normalError_eq, m2_orthogonalError_eq, m2_identityError_eq.
  unfold exact_flags_tol. cbn [mf2 fNormal fOrthogonal fIdentity fUninit].
  rewrite !andb_true_iff, !Rleb_true. tauto.
Qed.
Lemma m3_optimize_exact t m :
  exact_flags_tol (tolNormal t) (tolOrthogonal t) (tolIdentity t) 3 (ent3 m) (mf3 (m3_optimize_tol t m)).
Proof.
  unfold m3_optimize_tol. cbn [mf3 fNormal fOrthogonal fIdentity fUninit]. rops.
  rewrite m3_normalError_eq, m3_orthogonalError_eq, m3_identityError_eq.
  unfold exact_flags_tol. cbn [mf3 fNormal fOrthogonal fIdentity fUninit].
  rewrite !andb_true_iff, !Rleb_true. tauto.
Qed.
Definition exact2 m := exact_flags 2 (ent2 m) (mf2 m).
Definition exact3 m := exact_flags 3 (ent3 m) (mf3 m).
Lemma m2_optimized m : exact2 (m2_optimize m). Proof. exact (m2_optimize_exact tol_default m). Qed.
Lemma m3_optimized m : exact3 (m3_optimize m). Proof. exact (m3_optimize_exact tol_default m). Qed.

(** Products with the shortcut. *)
Lemma shortcut_bound n A B C : 
  (fro2 n (msub C (mmul n A B)) <= id_defect n A * fro2 n B /\ id_defect n A <= tol) \/
  (fro2 n (msub C (mmul n A B)) <= id_defect n B * fro2 n A /\ id_defect n B <= tol) \/
  meq n C (mmul n A B) ->
  fro2 n (msub C (mmul n A B)) <= tol * Rmax (fro2 n A) (fro2 n B).
Proof.
  pose proof (fro2_nonneg n A). pose proof (fro2_nonneg n B).
  pose proof (Rmax_l (fro2 n A) (fro2 n B)). pose proof (Rmax_r (fro2 n A) (fro2 n B)).
  intros [[K1 K2]|[[K1 K2]|K1]].
  - eapply Rle_trans; [exact K1|]. unfold tol in *. nra.
  - eapply Rle_trans; [exact K1|]. unfold tol in *. nra.
  - replace (fro2 n (msub C (mmul n A B))) with 0.
    + unfold tol. nra.
    + symmetry. unfold fro2. apply sumf_0. intros i Hi. apply sumf_0. intros j Hj. unfold msub. rewrite (K1 i j) by assumption. ring.
Qed.
Lemma m2_mul_bound a b : sound_flags 2 (ent2 a) (mf2 a) -> sound_flags 2 (ent2 b) (mf2 b) ->
  fro2 2 (msub (ent2 (m2_mul a b)) (mmul 2 (ent2 a) (ent2 b))) <= tol * Rmax (fro2 2 (ent2 a)) (fro2 2 (ent2 b)).
Proof.
  intros (_ & _ & Ha) (_ & _ & Hb). apply shortcut_bound.
  destruct (fIdentity (mf2 a)) eqn:Ea; [left|destruct (fIdentity (mf2 b)) eqn:Eb; [right; left|right; right]].
  - unfold m2_mul. rewrite Ea. split; [apply shortcut_l|auto].
  - unfold m2_mul. rewrite Ea, Eb. split; [apply shortcut_r|auto].
  - apply m2_mul_raw; assumption.
Qed.
Lemma m3_mul_bound a b : sound_flags 3 (ent3 a) (mf3 a) -> sound_flags 3 (ent3 b) (mf3 b) ->
  fro2 3 (msub (ent3 (m3_mul a b)) (mmul 3 (ent3 a) (ent3 b))) <= tol * Rmax (fro2 3 (ent3 a)) (fro2 3 (ent3 b)).
Proof.
  intros (_ & _ & Ha) (_ & _ & Hb). apply shortcut_bound.
  destruct (fIdentity (mf3 a)) eqn:Ea; [left|destruct (fIdentity (mf3 b)) eqn:Eb; [right; left|right; right]].
  - unfold m3_mul. rewrite Ea. split; [apply shortcut_l|auto].
  - unfold m3_mul. rewrite Ea, Eb. split; [apply shortcut_r|auto].
  - apply m3_mul_raw; assumption.
Qed.
Lemma m4_mul_bound a b : (fIdentity (mf4 a) = true -> id_defect 4 (ent4 a) <= tol) ->
  (fIdentity (mf4 b) = true -> id_defect 4 (ent4 b) <= tol) ->
  fro2 4 (msub (ent4 (m4_mul a b)) (mmul 4 (ent4 a) (ent4 b))) <= tol * Rmax (fro2 4 (ent4 a)) (fro2 4 (ent4 b)).
Proof.
  intros Ha Hb. apply shortcut_bound.
  destruct (fIdentity (mf4 a)) eqn:Ea; [left|destruct (fIdentity (mf4 b)) eqn:Eb; [right; left|right; right]].
  - unfold m4_mul. rewrite Ea. split; [apply shortcut_l|auto].
  - unfold m4_mul. rewrite Ea, Eb. split; [apply shortcut_r|auto].
  - apply m4_mul_raw; assumption.
Qed.

(** The constructors and the functions that recompute the flags. *)
Lemma unit_defect_nonneg n A : 0 <= unit_defect n A.
Proof. apply sumf_nonneg. intros. apply Rle_0_sqr. Qed.
Lemma ortho_defect_nonneg n A : 0 <= ortho_defect n A.
Proof. apply sumf_nonneg. intros. apply sumf_nonneg. intros. apply Rle_0_sqr. Qed.
Lemma orthonormal_defects n A : orthonormal n A <-> unit_defect n A = 0 /\ ortho_defect n A = 0.
Proof.
  split.
  - intros H. assert (C : forall j k, (j < n)%nat -> (k < n)%nat -> coldot n A j k = ident j k).
    { intros j k Hj Hk. exact (H j k Hj Hk). }
    split.
    + apply sumf_0. intros j Hj. rewrite C by assumption. unfold ident. rewrite Nat.eqb_refl. ring.
    + apply sumf_0. intros k Hk. apply sumf_0. intros j Hj. rewrite C by lia. unfold ident.
      destruct (Nat.eqb_spec j k); [lia|ring].
  - intros [H1 H2].
    assert (U : forall j, (j < n)%nat -> coldot n A j j = 1).
    { intros j Hj. unfold unit_defect in H1.
      rewrite (sumf_split n _ j Hj) in H1.
      assert (0 <= sumf n (fun k => if Nat.eqb k j then 0 else (coldot n A k k - 1) * (coldot n A k k - 1))).
      { apply sumf_nonneg. intros k _. destruct (Nat.eqb k j); [apply Rle_refl|apply Rle_0_sqr]. }
      nra. }
    assert (P : forall k j, (k < n)%nat -> (j < k)%nat -> coldot n A j k = 0).
    { intros k j Hk Hj. unfold ortho_defect in H2.
      rewrite (sumf_split n _ k Hk) in H2.
      set (S1 := sumf n (fun _ => _)) in H2.
      assert (0 <= S1). { apply sumf_nonneg. intros l _. destruct (Nat.eqb l k); [apply Rle_refl|]. apply sumf_nonneg. intros. apply Rle_0_sqr. }
      assert (K : sumf k (fun j => coldot n A j k * coldot n A j k) = 0).
      { assert (0 <= sumf k (fun j => coldot n A j k * coldot n A j k)) by (apply sumf_nonneg; intros; apply Rle_0_sqr). lra. }
      rewrite (sumf_split k _ j Hj) in K.
      set (S2 := sumf k (fun _ => _)) in K.
      assert (0 <= S2). { apply sumf_nonneg. intros l _. destruct (Nat.eqb l j); [apply Rle_refl|apply Rle_0_sqr]. }
      nra. }
    intros j k Hj Hk. change (coldot n A j k = ident j k). unfold ident.
    destruct (Nat.eqb_spec j k) as [->|Hne]; [apply U; assumption|].
    destruct (Nat.lt_ge_cases j k); [apply P; assumption|].
    transitivity (coldot n A k j); [|apply P; lia]. unfold coldot. apply sumf_ext. intros; ring.
Qed.
