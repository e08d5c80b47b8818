(** The cached identity bit over arbitrary histories of operations. *)
From Coq Require Import Reals ZArith Arith Lra Lia Bool Psatz List.
From Verif.Base Require Import Outcome Array Wp Scalar ScalarR RFacts.
From Verif.Model Require Import Types Functions Interpolation Vec Mat2 Mat3 Quat Mat4 Mat34.
From Verif.Spec Require Import LinAlg VecSpec MatSpec QuatSpec History ArraySpec.
From Verif.Proof Require Import FunctionsProofs LinAlgFacts VecFacts VecProofs MatFacts MatProofs MatFlags MatInverse MatInverse4 MatRotation QuatProofs QuatArc QuatSlerp MatHistory MatMore.
Local Open Scope R_scope.

Definition idok (n : nat) (A : mat) (f : Flags) : Prop := fIdentity f = true -> id_defect n A <= tol.

Lemma idok2_opt m : idok 2 (ent2 (m2_optimize m)) (mf2 (m2_optimize m)).
Proof. destruct (m2_optimized m) as (_ & _ & H & _). intro E. apply H in E. tauto. Qed.
Lemma idok3_opt m : idok 3 (ent3 (m3_optimize m)) (mf3 (m3_optimize m)).
Proof. destruct (m3_optimized m) as (_ & _ & H & _). intro E. apply H in E. tauto. Qed.
Lemma idok4_opt m : idok 4 (ent4 (m4_optimize m)) (mf4 (m4_optimize m)).
Proof.
  intro E. unfold m4_optimize, m4_optimize_tol in E. cbn [mf4 fIdentity] in E.
  apply andb_prop in E. destruct E as [_ E]. rops. apply Rleb_true in E. rewrite (proj2 (proj2 tol_def_eq)) in E.
  rewrite ent4_optimize. unfold m4_identityError in E. unfold id_defect, fro2, msub, ident, ent4, vent4. cbn. rlit.
  unfold v4_lengthSqr, v4_dot in E. cbn in E. lra.
Qed.
Lemma idok_trans n A f : idok n A f -> idok n (mtrans A) f.
Proof. intros H E. rewrite id_defect_trans. exact (H E). Qed.
Lemma idok_false n A f : fIdentity f = false -> idok n A f.
Proof. intros H E. congruence. Qed.
Lemma idok_and n A f g : fIdentity f = false -> idok n A (flags_and f g).
Proof. intro H. apply idok_false. cbn. rewrite H. reflexivity. Qed.
Lemma idok_ext n A B f : meq n A B -> idok n A f -> idok n B f.
Proof. intros H K E. rewrite <- (id_defect_ext n A B H). exact (K E). Qed.
Lemma idok_scalar2 k : idok 2 (ent2 (m2_scalar k)) (mf2 (m2_scalar k)).
Proof. exact (proj2 (proj2 (m2_scalar_sound k))). Qed.
Lemma idok_scalar3 k : idok 3 (ent3 (m3_scalar k)) (mf3 (m3_scalar k)).
Proof. exact (proj2 (proj2 (m3_scalar_sound k))). Qed.
Lemma idok_scalar4 k : idok 4 (ent4 (m4_scalar k)) (mf4 (m4_scalar k)).
Proof.
  intro E. unfold m4_scalar in *. cbn in E. rops. rlit.
  revert E. destruct (Reqb k 1) eqn:D; cbn; intro E; [| discriminate].
  apply Reqb_true in D. subst k. unfold id_defect, fro2, msub, ident, ent4, vent4. cbn. rlit. unfold tol. lra.
Qed.

Lemma idok2_zero : idok 2 (ent2 m2_zero) (mf2 m2_zero).
Proof. unfold m2_zero. first [apply idok_scalar2 | apply idok2_opt]. Qed.
Lemma idok3_zero : idok 3 (ent3 m3_zero) (mf3 m3_zero).
Proof. unfold m3_zero. first [apply idok_scalar3 | apply idok3_opt]. Qed.
Lemma idok4_zero : idok 4 (ent4 m4_zero) (mf4 m4_zero).
Proof. unfold m4_zero. first [apply idok_scalar4 | apply idok4_opt]. Qed.

Definition ok2 (m : Mat2 R) : Prop := idok 2 (ent2 m) (mf2 m).
Definition ok3 (m : Mat3 R) : Prop := idok 3 (ent3 m) (mf3 m).
Definition ok4 (m : Mat4 R) : Prop := idok 4 (ent4 m) (mf4 m).

Lemma ok2_mul a b : ok2 a -> ok2 b -> ok2 (m2_mul a b).
Proof.
  intros A B. unfold m2_mul. destruct (fIdentity (mf2 a)) eqn:Ea; [exact B |].
  destruct (fIdentity (mf2 b)); [exact A |]. apply idok_and. exact Ea.
Qed.
Lemma ok2_mulAssign a b : ok2 a -> ok2 b -> ok2 (m2_mulAssign a b).
Proof.
  intros A B. unfold m2_mulAssign. destruct (fIdentity (mf2 b)) eqn:Eb; [exact A |].
  destruct (fIdentity (mf2 a)) eqn:Ea; [exact B |]. apply idok_and. exact Ea.
Qed.
Lemma ok2_self a : ok2 a -> ok2 (m2_mulAssign_self a).
Proof. intros A. unfold m2_mulAssign_self. destruct (fIdentity (mf2 a)) eqn:Ea; [exact A |]. apply idok_and. exact Ea. Qed.
Lemma ok3_mul a b : ok3 a -> ok3 b -> ok3 (m3_mul a b).
Proof.
  intros A B. unfold m3_mul. destruct (fIdentity (mf3 a)) eqn:Ea; [exact B |].
  destruct (fIdentity (mf3 b)); [exact A |]. apply idok_and. exact Ea.
Qed.
Lemma ok3_mulAssign a b : ok3 a -> ok3 b -> ok3 (m3_mulAssign a b).
Proof.
  intros A B. unfold m3_mulAssign. destruct (fIdentity (mf3 b)) eqn:Eb; [exact A |].
  destruct (fIdentity (mf3 a)) eqn:Ea; [exact B |]. apply idok_and. exact Ea.
Qed.
Lemma ok3_rotated a b : ok3 a -> ok3 b -> ok3 (m3_rotated_mat a b).
Proof.
  intros A B. unfold m3_rotated_mat. destruct (fIdentity (mf3 b)) eqn:Eb; [exact A |].
  destruct (fIdentity (mf3 a)) eqn:Ea; [exact B |]. apply idok_and. exact Ea.
Qed.
Lemma ok3_self a : ok3 a -> ok3 (m3_mulAssign_self a).
Proof. intros A. unfold m3_mulAssign_self. destruct (fIdentity (mf3 a)) eqn:Ea; [exact A |]. apply idok_and. exact Ea. Qed.
Lemma ok4_mul a b : ok4 a -> ok4 b -> ok4 (m4_mul a b).
Proof.
  intros A B. unfold m4_mul. destruct (fIdentity (mf4 a)) eqn:Ea; [exact B |].
  destruct (fIdentity (mf4 b)); [exact A |]. apply idok_and. exact Ea.
Qed.
Lemma ok4_transform a b : ok4 a -> ok4 b -> ok4 (m4_transform a b).
Proof.
  intros A B. unfold m4_transform. destruct (fIdentity (mf4 b)) eqn:Eb; [exact A |].
  destruct (fIdentity (mf4 a)) eqn:Ea; [exact B |]. apply ok4_mul; assumption.
Qed.
Lemma ok4_transformPre a b : ok4 a -> ok4 b -> ok4 (m4_transformPre a b).
Proof.
  intros A B. unfold m4_transformPre. destruct (fIdentity (mf4 b)) eqn:Eb; [exact A |].
  destruct (fIdentity (mf4 a)) eqn:Ea; [exact B |]. apply ok4_mul; assumption.
Qed.

Lemma any2_ok m : any2 m -> ok2 m.
Proof.
  induction 1.
  - apply idok_scalar2.
  - apply idok2_opt.
  - exact (proj1 (conj (idok_scalar2 1) I)) || (intro E; unfold id_defect, fro2, msub, ident, ent2, vent2; cbn; rlit; unfold tol; lra).
  - apply idok2_opt.
  - apply ok2_mul; assumption.
  - apply ok2_mulAssign; assumption.
  - apply ok2_self; assumption.
  - unfold m2_mul_k. destruct (feq _ _); [apply idok2_zero |]. destruct (feq _ _); [assumption | apply idok2_opt].
  - unfold m2_mulAssign_k. destruct (feq _ _); [assumption | apply idok2_opt].
  - revert H0. unfold m2_div. destruct (feq _ _); [intro E; injection E as <-; apply idok2_zero |].
    destruct (feq _ _); [intro E; injection E as <-; assumption |].
    destruct v2_div; cbn [bind]; try discriminate. destruct v2_div; cbn [bind]; try discriminate. intro E; injection E as <-. apply idok2_opt.
  - revert H0. unfold m2_divAssign, assert_then. destruct negb; [| discriminate].
    destruct (feq _ _); [intro E; injection E as <-; assumption |].
    destruct v2_div; cbn [bind]; try discriminate. destruct v2_div; cbn [bind]; try discriminate. intro E; injection E as <-. apply idok2_opt.
  - apply idok2_opt.
  - apply idok2_opt.
  - apply (idok_trans 2 (ent2 m)) in IHany2. refine (idok_ext 2 _ _ _ _ IHany2). mdes2 m; entries2; reflexivity.
  - apply idok2_opt.
  - apply idok2_opt.
  - apply idok2_opt.
  - apply idok2_opt.
  - apply idok2_opt.
  - revert H0. unfold m2_inversed. destruct (feq _ _); [intro E; injection E as <-; apply idok2_zero |].
    unfold m2_div. destruct (feq _ _); [intro E; injection E as <-; apply idok2_zero |].
    destruct (feq _ _); [intro E; injection E as <-; apply idok2_opt |].
    destruct v2_div; cbn [bind]; try discriminate. destruct v2_div; cbn [bind]; try discriminate. intro E; injection E as <-. apply idok2_opt.
  - revert H1. unfold m2_slerp. destruct clerp; cbn [bind]; try discriminate. intro E; injection E as <-. apply idok2_opt.
  - revert H1. unfold m2_slerpMaxAngle. destruct clerpMaxAngle; cbn [bind]; try discriminate. intro E; injection E as <-. apply idok2_opt.
  - apply idok2_opt.
Qed.

Lemma ok3_coord c a m : m3_rotation_coord c a = Ok m -> ok3 m.
Proof. unfold m3_rotation_coord. destruct c; try discriminate; intro E; injection E as <-; apply idok3_opt. Qed.
Lemma ok3_id : ok3 m3_setIdentity.
Proof. intro E. unfold id_defect, fro2, msub, ident, ent3, vent3; cbn; rlit; unfold tol; lra. Qed.
Lemma ok4_id : ok4 m4_setIdentity.
Proof. intro E. unfold id_defect, fro2, msub, ident, ent4, vent4; cbn; rlit; unfold tol; lra. Qed.
Lemma ok3_two e u a v m : m3_set_two e u a v = Ok m -> ok3 m.
Proof.
  unfold m3_set_two. destruct (_ && _)%bool; [intro E; injection E as <-; apply ok3_id |]. cbv zeta.
  destruct (_ && _)%bool; [intro E; injection E as <-; apply ok3_id |].
  destruct e, a; try discriminate; intro E; injection E as <-; apply idok3_opt.
Qed.
Lemma ok4_two e u a v m : m4_set_two e u a v = Ok m -> ok4 m.
Proof.
  unfold m4_set_two. destruct (_ && _)%bool; [intro E; injection E as <-; apply ok4_id |]. cbv zeta.
  destruct (_ && _)%bool; [intro E; injection E as <-; apply ok4_id |].
  destruct e, a; try discriminate; intro E; injection E as <-; apply idok4_opt.
Qed.
Lemma ok4_coord c a m : m4_rotation_coord c a = Ok m -> ok4 m.
Proof. unfold m4_rotation_coord. destruct c; try discriminate; intro E; injection E as <-; apply idok4_opt. Qed.
Lemma ok3_transposed m : ok3 m -> ok3 (m3_transposed m).
Proof. intro H. apply (idok_trans 3 (ent3 m)) in H. refine (idok_ext 3 _ _ _ _ H). mdes3 m; entries3; reflexivity. Qed.
Lemma ok4_transposed m : ok4 m -> ok4 (m4_transposed m).
Proof. intro H. apply (idok_trans 4 (ent4 m)) in H. refine (idok_ext 4 _ _ _ _ H). mdes4 m; entries4; reflexivity. Qed.
Lemma ok3_div m k r : ok3 m -> m3_div m k = Ok r -> ok3 r.
Proof.
  intro H. unfold m3_div. destruct (feq _ _); [intro E; injection E as <-; apply idok3_zero |].
  destruct (feq _ _); [intro E; injection E as <-; assumption |].
  do 3 (destruct v3_div; cbn [bind]; try discriminate). intro E; injection E as <-. apply idok3_opt.
Qed.

Lemma any3_ok m : any3 m -> ok3 m.
Proof.
  induction 1; try (apply idok3_opt).
  - apply idok_scalar3.
  - apply ok3_id.
  - eapply ok3_coord; eassumption.
  - eapply ok3_two; eassumption.
  - apply ok3_mul; assumption.
  - apply ok3_mulAssign; assumption.
  - apply ok3_self; assumption.
  - unfold m3_mul_k. destruct (feq _ _); [apply idok3_zero |]. destruct (feq _ _); [assumption | apply idok3_opt].
  - unfold m3_mulAssign_k. destruct (feq _ _); [assumption | apply idok3_opt].
  - eapply ok3_div; eassumption.
  - revert H0. unfold m3_divAssign, assert_then. destruct negb; [| discriminate].
    destruct (feq _ _); [intro E; injection E as <-; assumption |].
    do 3 (destruct v3_div; cbn [bind]; try discriminate). intro E; injection E as <-. apply idok3_opt.
  - apply ok3_rotated; assumption.
  - apply ok3_rotated; [assumption | apply idok3_opt].
  - apply ok3_rotated; [assumption | apply idok3_opt].
  - apply ok3_mulAssign; [assumption | apply idok3_opt].
  - apply ok3_mulAssign; [assumption | apply idok3_opt].
  - apply ok3_transposed; assumption.
  - revert H0. unfold m3_invert. destruct isOrthonormalF; [intro E; injection E as <-; apply ok3_transposed; assumption |]. cbv zeta.
    destruct (feq _ _); [intro E; injection E as <-; apply idok3_zero |]. apply ok3_div. apply idok3_opt.
  - revert H0. unfold m3_inversed. cbv zeta.
    destruct (feq _ _); [intro E; injection E as <-; apply idok3_zero |]. apply ok3_div. apply idok3_opt.
  - revert H1. unfold m3_slerp. destruct q_slerp; cbn [bind]; try discriminate. intro E; injection E as <-. apply idok3_opt.
  - revert H1. unfold m3_slerpMaxAngle. destruct q_slerpMaxAngle; cbn [bind]; try discriminate. intro E; injection E as <-. apply idok3_opt.
Qed.

Lemma ok4_translate m d : ok4 m -> ok4 (mkM4 (mx4 m) (my4 m) (mz4 m) (v4_add_v3 (mt4 m) d) (mf4 m)) \/ d <> zero3.
Proof.
  intro H. destruct (classic_zero3 d) as [-> | N]; [left | right; exact N].
  refine (idok_ext 4 _ _ _ _ H). destruct m as [[? ? ? ?] [? ? ? ?] [? ? ? ?] [? ? ? ?] f]. entries4; cbn; rlit; lra.
Qed.
Lemma any4_ok m : any4 m -> ok4 m.
Proof.
  induction 1; try (apply idok4_opt).
  - apply idok_scalar4.
  - apply ok4_id.
  - eapply ok4_coord; eassumption.
  - eapply ok4_two; eassumption.
  - apply ok4_mul; assumption.
  - apply ok4_transform; assumption.
  - apply ok4_transformPre; assumption.
  - unfold m4_mul_k. destruct (feq _ _); [apply idok4_zero |]. destruct (feq _ _); [assumption | apply idok4_opt].
  - unfold m4_mulAssign_k. destruct (feq _ _); [assumption | apply idok4_opt].
  - unfold m4_div. destruct (feq _ _); [apply idok4_zero |]. destruct (feq _ _); [assumption | apply idok4_opt].
  - revert H0. unfold m4_divAssign, assert_then. destruct negb; [| discriminate].
    destruct (feq _ _); [intro E; injection E as <-; assumption |].
    intro E; injection E as <-. apply idok4_opt.
  - apply ok4_transform; [assumption | apply idok4_opt].
  - apply ok4_transform; [assumption | apply idok4_opt].
  - revert H0. unfold m4_rotate_coord. destruct m4_rotation_coord eqn:E; cbn [bind]; try discriminate. intro D; injection D as <-.
    apply ok4_transform; [assumption | eapply ok4_coord; eassumption].
  - apply ok4_transformPre; [assumption | apply idok4_opt].
  - apply ok4_transformPre; [assumption | apply idok4_opt].
  - revert H0. unfold m4_rotatePre_coord. destruct m4_rotation_coord eqn:E; cbn [bind]; try discriminate. intro D; injection D as <-.
    apply ok4_transformPre; [assumption | eapply ok4_coord; eassumption].
  - unfold m4_translate. destruct (v3_isNull u) eqn:E; cbn [negb flags_clear_identity]; [| apply idok_false; reflexivity].
    destruct (ok4_translate m u IHany4) as [K | K]; [exact K | apply v3_isNull_true in E; contradiction].
  - unfold m4_translatePre. destruct (v3_isNull u) eqn:E; cbn [negb flags_clear_identity]; [| apply idok_false; reflexivity].
    apply v3_isNull_true in E. subst u. rewrite applyVector_zero. cbv zeta.
    destruct (ok4_translate m zero3 IHany4) as [K | K]; [exact K | contradiction].
  - unfold m4_scale. cbv zeta. destruct (_ || _)%bool eqn:E; [apply idok_false; reflexivity |].
    apply orb_false_iff in E. destruct E as [E E3]. apply orb_false_iff in E. destruct E as [E1 E2].
    rops. apply negb_false_iff in E1, E2, E3. apply Reqb_true in E1, E2, E3. rlit.
    refine (idok_ext 4 _ _ _ _ IHany4). rewrite E1, E2, E3. destruct m as [[? ? ? ?] [? ? ? ?] [? ? ? ?] [? ? ? ?] f]. entries4; cbn; rlit; lra.
  - unfold m4_scalePre. cbv zeta. destruct (_ || _)%bool eqn:E; [apply idok_false; reflexivity |].
    apply orb_false_iff in E. destruct E as [E E3]. apply orb_false_iff in E. destruct E as [E1 E2].
    rops. apply negb_false_iff in E1, E2, E3. apply Reqb_true in E1, E2, E3. rlit.
    refine (idok_ext 4 _ _ _ _ IHany4). rewrite E1, E2, E3. destruct m as [[? ? ? ?] [? ? ? ?] [? ? ? ?] [? ? ? ?] f]. entries4; cbn; rlit; lra.
  - apply ok4_transposed; assumption.
Qed.
