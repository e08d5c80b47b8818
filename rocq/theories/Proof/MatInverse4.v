(** Inverse of Mat4 and cached flags of Mat4. *)
From Coq Require Import Reals ZArith Arith Lra Lia Bool Psatz.
From Verif.Base Require Import Outcome Wp Scalar ScalarR RFacts.
From Verif.Model Require Import Types Functions Vec Mat2 Mat3 Quat Mat4 Mat34.
From Verif.Spec Require Import LinAlg VecSpec MatSpec.
From Verif.Proof Require Import LinAlgFacts VecFacts VecProofs MatFacts MatProofs MatFlags MatInverse.
Local Open Scope R_scope.

Lemma m4_inversed_general m : isOrthonormalF (mf4 m) = false ->
  (det 4 (ent4 m) = 0 -> m4_inversed m = Ok m4_zero) /\
  (det 4 (ent4 m) <> 0 -> exists r, m4_inversed m = Ok r /\ inverse 4 (ent4 m) (ent4 r)).
Proof.
  intros F. unfold m4_inversed. rewrite F.
  pose proof (m4_inv_det_eq m) as D. pose proof (m4_adjoint_l m) as JL. pose proof (m4_adjoint_r m) as JR.
  destruct (m4_inv_det m) as [J d]. cbn [fst snd] in D, JL, JR. subst d. rops. split; intros H.
  - destruct (Reqb_spec (det 4 (ent4 m)) 0); [reflexivity|contradiction].
  - destruct (Reqb_spec (det 4 (ent4 m)) 0); [contradiction|].
    destruct (m4_divAssign_ent J _ H) as (r & -> & E). cbn [bind]. eexists; split; [reflexivity|].
    rewrite ent4_optimize. eapply adj_inverse; [exact H|exact JL|exact JR|exact E].
Qed.
Lemma m4_invert_general m : isOrthonormalF (mf4 m) = false ->
  (det 4 (ent4 m) = 0 -> m4_invert m = m4_zero) /\
  (det 4 (ent4 m) <> 0 -> inverse 4 (ent4 m) (ent4 (m4_invert m))).
Proof.
  intros F. unfold m4_invert. rewrite F.
  pose proof (m4_inv_det_eq m) as D. pose proof (m4_adjoint_l m) as JL. pose proof (m4_adjoint_r m) as JR.
  destruct (m4_inv_det m) as [J d]. cbn [fst snd] in D, JL, JR. subst d. rops. split; intros H.
  - destruct (Reqb_spec (det 4 (ent4 m)) 0); [reflexivity|contradiction].
  - destruct (Reqb_spec (det 4 (ent4 m)) 0); [contradiction|].
    eapply adj_inverse; [exact H|exact JL|exact JR|apply m4_div_ent; exact H].
Qed.
Lemma m4_inversed_rigid m : isOrthonormalF (mf4 m) = true -> rigid (ent4 m) ->
  exists r, m4_inversed m = Ok r /\ inverse 4 (ent4 m) (ent4 r) /\ mf4 r = mf4 m.
Proof.
  intros F Hr. unfold m4_inversed. rewrite F. eexists; split; [reflexivity|]. split; [|reflexivity].
  apply rigid_inverse; [exact Hr|]. entries4; cbn; rops; try reflexivity; ring.
Qed.
Lemma m4_invert_rigid m : isOrthonormalF (mf4 m) = true -> rigid (ent4 m) ->
  inverse 4 (ent4 m) (ent4 (m4_invert m)) /\ mf4 (m4_invert m) = mf4 m.
Proof.
  intros F Hr. unfold m4_invert. rewrite F. split; [|reflexivity].
  apply rigid_inverse; [exact Hr|]. destruct Hr as (_ & W0 & W1 & W2 & W3). mdes4 m. mcbn. subst.
  entries4; cbn; rops; try reflexivity; ring.
Qed.
(** Determinant of a rigid matrix. *)
Lemma det4_affine A : A 3%nat 0%nat = 0 -> A 3%nat 1%nat = 0 -> A 3%nat 2%nat = 0 -> A 3%nat 3%nat = 1 ->
  det 4 A = det 3 A.
Proof. intros H0 H1 H2 H3. detx. rewrite H0, H1, H2, H3. ring. Qed.
Lemma m4_inversed_spec m : (isOrthonormalF (mf4 m) = true -> rigid (ent4 m)) ->
  (det 4 (ent4 m) = 0 -> m4_inversed m = Ok m4_zero /\ m4_invert m = m4_zero) /\
  (det 4 (ent4 m) <> 0 -> inverse 4 (ent4 m) (ent4 (m4_invert m)) /\
     exists r, m4_inversed m = Ok r /\ inverse 4 (ent4 m) (ent4 r)).
Proof.
  intros Hr. destruct (isOrthonormalF (mf4 m)) eqn:F.
  - specialize (Hr eq_refl). split; intros D.
    + exfalso. destruct Hr as (Ho & W0 & W1 & W2 & W3). rewrite det4_affine in D by assumption.
      pose proof (orthonormal_det 3 _ det3_mmul det3_trans Ho) as K. rewrite D in K. lra.
    + split; [apply m4_invert_rigid; assumption|].
      destruct (m4_inversed_rigid m F Hr) as (r & E1 & E2 & _). eauto.
  - destruct (m4_inversed_general m F) as [A1 A2]. destruct (m4_invert_general m F) as [B1 B2].
    split; intros D; split; auto.
Qed.

(** The shortcut is taken for a permutation of the four axes, and is wrong. *)
Definition perm4 : Mat4 R := m4_set4 (mkV4 0 0 0 1) (mkV4 0 1 0 0) (mkV4 0 0 1 0) (mkV4 1 0 0 0).
Lemma Rleb_t a b : a <= b -> Rleb a b = true. Proof. intros; apply Rleb_true; assumption. Qed.
Lemma Rleb_f a b : b < a -> Rleb a b = false. Proof. intros; apply Rleb_false; assumption. Qed.
Lemma Reqb_t a b : a = b -> Reqb a b = true. Proof. intros; apply Reqb_true; assumption. Qed.
Lemma Reqb_f a b : a <> b -> Reqb a b = false. Proof. intros; apply Reqb_false; assumption. Qed.
Ltac rlit := repeat match goal with
  | |- context [Reqb ?a ?b] => first [rewrite (Reqb_t a b) by lra | rewrite (Reqb_f a b) by lra]
  | |- context [Rleb ?a ?b] => first [rewrite (Rleb_t a b) by lra | rewrite (Rleb_f a b) by lra]
  | |- context [Rltb ?a ?b] => first [rewrite (proj2 (Rltb_true a b)) by lra | rewrite (proj2 (Rltb_false a b)) by lra]
  end.
(** Evaluate the flags of a matrix with literal entries. *)
Ltac flags4 := unfold m4_set4, m4_set3, m4_scalar, m4_optimize, m4_optimize_tol, m4_normalError, m4_orthogonalError, m4_identityError,
  v4_lengthSqr, v4_dot, v4_of_v3, tol_default, isOrthonormalF; cbn [mx4 my4 mz4 mt4 mf4 x4 y4 z4 w4 x3 y3 z3 fTrs fNormal fOrthogonal fIdentity
  fUninit tolNormal tolOrthogonal tolIdentity]; rops; rlit; cbn [andb orb negb].
Lemma perm4_flags : mf4 perm4 = mkFlags true true false false false.
Proof. unfold perm4. flags4. rlit. reflexivity. Qed.
Lemma perm4_refuted : det 4 (ent4 perm4) <> 0 /\
  ~ exists r, m4_inversed perm4 = Ok r /\ inverse 4 (ent4 perm4) (ent4 r).
Proof.
  split.
  - unfold perm4, m4_set4. rewrite ent4_optimize. detx. mcbn. lra.
  - intros (r & E & [H _]). unfold m4_inversed in E. rewrite perm4_flags in E. cbn [isOrthonormalF fNormal fOrthogonal andb] in E.
    injection E as E. subst r. specialize (H 0%nat 0%nat ltac:(lia) ltac:(lia)). unfold perm4, m4_set4 in H. msimp. cbn in H. lra.
Qed.

(** invert() of a shear leaves the flags uninitialized. *)
Definition shear4 : Mat4 R := m4_set4 (mkV4 1 0 0 0) (mkV4 5 1 0 0) (mkV4 0 0 1 0) (mkV4 0 0 0 1).
Lemma shear4_flags : mf4 shear4 = mkFlags false false false true false.
Proof. unfold shear4. flags4. rlit. reflexivity. Qed.
Lemma shear4_refuted : fUninit (mf4 (m4_invert shear4)) = true /\ exists r, m4_inversed shear4 = Ok r /\ fUninit (mf4 r) = false.
Proof.
  assert (D : snd (m4_inv_det shear4) = 1).
  { rewrite m4_inv_det_eq. unfold shear4, m4_set4. rewrite ent4_optimize. detx. mcbn. ring. }
  unfold m4_invert, m4_inversed. rewrite shear4_flags. cbn [isOrthonormalF fNormal fOrthogonal andb].
  assert (U : fUninit (mf4 (fst (m4_inv_det shear4))) = true) by reflexivity.
  destruct (m4_inv_det shear4) as [J d]. cbn [fst snd] in D, U. subst d. unfold m4_div, m4_divAssign, assert_then. rops.
  rlit. cbn [negb bind]. split; [exact U|]. eexists; split; reflexivity.
Qed.

(** Flags of Mat4. *)
Lemma m4_optimize_trs t m :
  fTrs (mf4 (m4_optimize_tol t m)) = true <-> trs (ent4 m).
Proof.
  unfold m4_optimize_tol. cbn [mf4 fTrs]. rops. rewrite !andb_true_iff, !Reqb_true. unfold trs. mcbn. tauto.
Qed.
(** On affine matrices the defects are those of the 3 by 3 block. *)
Lemma m4_optimize_exact t m : trs (ent4 m) -> let f := mf4 (m4_optimize_tol t m) in
  (fNormal f = true <-> unit_defect 3 (ent4 m) <= tolNormal t) /\
  (fOrthogonal f = true <-> ortho_defect 3 (ent4 m) <= tolOrthogonal t) /\
  (fIdentity f = true <-> unit_defect 3 (ent4 m) <= tolNormal t /\ ortho_defect 3 (ent4 m) <= tolOrthogonal t /\
                          id_defect 4 (ent4 m) <= tolIdentity t) /\
  fTrs f = true /\ fUninit f = false.
Proof.
  intros H f. assert (F : fTrs f = true) by (apply m4_optimize_trs; exact H).
  assert (B : Reqb (w4 (mx4 m)) 0 && Reqb (w4 (my4 m)) 0 && Reqb (w4 (mz4 m)) 0 && Reqb (w4 (mt4 m)) 1 = true) by exact F.
  subst f. unfold m4_optimize_tol in *. cbn zeta. rops. rewrite B. clear F.
  unfold m4_normalError, m4_orthogonalError, m4_identityError. cbn [mf4 mx4 my4 mz4 mt4 fTrs fNormal fOrthogonal fIdentity fUninit]. rops.
  match goal with |- context [Rleb ?a (tolNormal t)] => replace a with (unit_defect 3 (ent4 m)) by (msimp; ring) end.
  match goal with |- context [Rleb ?a (tolOrthogonal t)] => replace a with (ortho_defect 3 (ent4 m)) by (msimp; ring) end.
  match goal with |- context [Rleb ?a (tolIdentity t)] => replace a with (id_defect 4 (ent4 m)) by (unfold v4_lengthSqr; msimp; ring) end.
  rewrite !andb_true_iff, !Rleb_true. tauto.
Qed.
(** On other matrices the perpendicularity of the fourth column is not checked. *)
Lemma m4_optimize_general t m : ~ trs (ent4 m) -> let f := mf4 (m4_optimize_tol t m) in
  (fNormal f = true <-> unit_defect 4 (ent4 m) <= tolNormal t) /\
  (fOrthogonal f = true <-> coldot 4 (ent4 m) 0 1 * coldot 4 (ent4 m) 0 1 + coldot 4 (ent4 m) 0 2 * coldot 4 (ent4 m) 0 2
      + coldot 4 (ent4 m) 1 2 * coldot 4 (ent4 m) 1 2 <= tolOrthogonal t) /\
  (fIdentity f = true -> id_defect 4 (ent4 m) <= tolIdentity t) /\
  fTrs f = false /\ fUninit f = false.
Proof.
  intros H f. assert (F : fTrs f = false).
  { destruct (fTrs f) eqn:E; [|reflexivity]. apply m4_optimize_trs in E. contradiction. }
  assert (B : Reqb (w4 (mx4 m)) 0 && Reqb (w4 (my4 m)) 0 && Reqb (w4 (mz4 m)) 0 && Reqb (w4 (mt4 m)) 1 = false) by exact F.
  subst f. unfold m4_optimize_tol in *. cbn zeta. rops. rewrite B. clear F.
  unfold m4_normalError, m4_orthogonalError, m4_identityError. cbn [mf4 mx4 my4 mz4 mt4 fTrs fNormal fOrthogonal fIdentity fUninit]. rops.
  match goal with |- context [Rleb ?a (tolNormal t)] => replace a with (unit_defect 4 (ent4 m)) by (unfold v4_dot; msimp; ring) end.
  match goal with |- context [Rleb ?a (tolOrthogonal t)] => replace a with
    (coldot 4 (ent4 m) 0 1 * coldot 4 (ent4 m) 0 1 + coldot 4 (ent4 m) 0 2 * coldot 4 (ent4 m) 0 2
      + coldot 4 (ent4 m) 1 2 * coldot 4 (ent4 m) 1 2) by (unfold v4_dot; msimp; ring) end.
  match goal with |- context [Rleb ?a (tolIdentity t)] => replace a with (id_defect 4 (ent4 m)) by (unfold v4_lengthSqr; msimp; ring) end.
  rewrite !andb_true_iff, !Rleb_true. tauto.
Qed.
(** A matrix flagged orthonormal whose columns x and t are equal. *)
Definition skew4 : Mat4 R := m4_set4 (mkV4 1 0 0 0) (mkV4 0 1 0 0) (mkV4 0 0 1 0) (mkV4 1 0 0 0).
Lemma skew4_refuted : isOrthonormalF (mf4 skew4) = true /\ ortho_defect 4 (ent4 skew4) = 1 /\ det 4 (ent4 skew4) = 0 /\
  m4_inversed skew4 <> Ok m4_zero.
Proof.
  assert (F : mf4 skew4 = mkFlags true true false false false) by (unfold skew4; flags4; rlit; reflexivity).
  rewrite F. split; [reflexivity|]. split; [|split].
  - unfold skew4, m4_set4. rewrite ent4_optimize. msimp. ring.
  - unfold skew4, m4_set4. rewrite ent4_optimize. detx. mcbn. ring.
  - unfold m4_inversed. rewrite F. cbn [isOrthonormalF fNormal fOrthogonal andb]. intros [= E _]. unfold skew4, m4_set4 in E. cbn in E.
    unfold m4_zero, m4_set4 in E. cbn in E. lra.
Qed.
