(** Array transforms, row products and the counterexamples on matrices. *)
From Coq Require Import Reals ZArith Arith Lra Lia Bool Psatz List.
From Verif.Base Require Import Outcome Array Wp Scalar ScalarR RFacts.
From Verif.Model Require Import Types Functions Vec Mat2 Mat3 Quat Mat4 Mat34.
From Verif.Spec Require Import LinAlg VecSpec MatSpec QuatSpec History ArraySpec.
From Verif.Proof Require Import FunctionsProofs LinAlgFacts VecFacts VecProofs MatFacts MatProofs MatFlags MatInverse MatInverse4 MatRotation QuatProofs QuatArc QuatSlerp MatHistory.
Local Open Scope R_scope.

(** * Arrays *)
Lemma transform_array_spec {V} (f : V -> V) (dest src : arr V) (g : nat -> V) (count ds ss : nat) :
  (1 <= ds)%nat ->
  (forall i, (i < count)%nat -> (i * ss < alen src)%nat /\ acell src (i * ss) = Some (g i)) ->
  (forall i, (i < count)%nat -> (i * ds < alen dest)%nat) ->
  exists r, transform_array f dest src count ds ss = Ok r /\ alen r = alen dest /\
    (forall i, (i < count)%nat -> acell r (i * ds) = Some (f (g i))) /\
    (forall q, (forall i, (i < count)%nat -> q <> (i * ds)%nat) -> acell r q = acell dest q).
Proof.
  intros Hs Hsrc Hdest. apply wp_inv. unfold transform_array.
  apply (forM_upto_inv (fun k r => alen r = alen dest /\
    (forall i, (i < k)%nat -> acell r (i * ds) = Some (f (g i))) /\
    (forall q, (forall i, (i < k)%nat -> q <> (i * ds)%nat) -> acell r q = acell dest q))).
  - lia.
  - split; [reflexivity|]. split; [lia|]. intros; reflexivity.
  - intros k r Hk (L & A & B). destruct (Hsrc k ltac:(lia)) as [S1 S2]. unfold aget, aset.
    rewrite (proj2 (Nat.ltb_lt _ _) S1), S2. cbn [bind]. rewrite L.
    rewrite (proj2 (Nat.ltb_lt _ _) (Hdest k ltac:(lia))). cbn [wp alen acell]. split; [reflexivity|]. split.
    + intros i Hi. destruct (Nat.eqb_spec (i * ds) (k * ds)) as [E|E].
      * assert (i = k) by (apply Nat.mul_cancel_r with ds; lia). subst; reflexivity.
      * apply A. assert (i <> k) by (intros ->; apply E; reflexivity). lia.
    + intros q Hq. destruct (Nat.eqb_spec q (k * ds)) as [E|E]; [exfalso; apply (Hq k); [lia|exact E]|].
      apply B. intros i Hi. apply Hq. lia.
Qed.
Lemma transform_array_undef {V} (f : V -> V) (dest src : arr V) (count ds ss i : nat) :
  (i < count)%nat -> (alen dest <= i * ds)%nat \/ (alen src <= i * ss)%nat ->
  transform_array f dest src count ds ss = Undef.
Proof.
  intros Hi H. unfold transform_array.
  assert (G : forall l d, In i l -> alen d = alen dest ->
    forM l (fun i dest => let! u := aget src (i * ss) in aset dest (i * ds) (f u)) d = Undef).
  { induction l as [|j l IH]; intros d [] Hl.
    - subst j. cbn [forM]. unfold aget, aset. rewrite Hl. destruct H as [H|H].
      + destruct (Nat.ltb (i * ss) (alen src)); [|reflexivity]. destruct (acell src (i * ss)); [|reflexivity]. cbn [bind].
        rewrite (proj2 (Nat.ltb_ge _ _) H). reflexivity.
      + rewrite (proj2 (Nat.ltb_ge _ _) H). reflexivity.
    - cbn [forM]. unfold aget at 1, aset at 1. destruct (Nat.ltb (j * ss) (alen src)); [|reflexivity]. destruct (acell src (j * ss)); [|reflexivity].
      cbn [bind]. destruct (Nat.ltb (j * ds) (alen d)); [|reflexivity]. cbn [bind]. apply IH; [assumption|exact Hl]. }
  apply G; [|reflexivity]. unfold upto. apply in_seq. lia.
Qed.
Lemma m2_array_eq m dest src n ds ss : m2_transform_array m dest src n ds ss = transform_array (m2_apply m) dest src n ds ss.
Proof. reflexivity. Qed.
Lemma m3_array_eq m dest src n ds ss : m3_transform_array m dest src n ds ss = transform_array (m3_apply m) dest src n ds ss.
Proof. reflexivity. Qed.

(** * Row vectors *)
Lemma v2_mul_mat_eq u m : v2_mul_mat u m = m2_apply (m2_transposed m) u.
Proof. reflexivity. Qed.
Lemma v3_mul_mat_eq u m : v3_mul_mat u m = m3_apply (m3_transposed m) u.
Proof. reflexivity. Qed.
Lemma v2_mul_mat_row u m i : (i < 2)%nat -> vent2 (v2_mul_mat u m) i = sumf 2 (fun k => vent2 u k * ent2 m k i).
Proof. intros Hi. unfold v2_mul_mat. destruct i as [|[|i]]; [| |lia]; msimp; ring. Qed.
Lemma v3_mul_mat_row u m i : (i < 3)%nat -> vent3 (v3_mul_mat u m) i = sumf 3 (fun k => vent3 u k * ent3 m k i).
Proof. intros Hi. unfold v3_mul_mat. destruct i as [|[|[|i]]]; [| | |lia]; msimp; ring. Qed.
Lemma transposed_twice (m2 : Mat2 R) (m3 : Mat3 R) (m4 : Mat4 R) :
  m2_transposed (m2_transposed m2) = m2 /\ m3_transposed (m3_transposed m3) = m3 /\ m4_transposed (m4_transposed m4) = m4.
Proof. mdes2 m2. mdes3 m3. mdes4 m4. repeat split. Qed.

(** * Counterexamples *)
(** m *= m *)
Lemma m2_self_refuted : exists m : Mat2 R, exact2 m /\ ~ meq 2 (ent2 (m2_mulAssign_self m)) (mmul 2 (ent2 m) (ent2 m)).
Proof.
  exists (m2_set (mkV2 1 1) (mkV2 1 0)). split; [apply m2_optimized|].
  intros H. specialize (H 1%nat 0%nat ltac:(lia) ltac:(lia)). revert H.
  unfold m2_mulAssign_self, m2_set, m2_optimize, m2_optimize_tol, m2_normalError, m2_orthogonalError, m2_identityError, v2_dot, v2_lengthSqr, tol_default.
  cbn [mx2 my2 mf2 x2 y2 tolNormal tolOrthogonal tolIdentity fIdentity]. rops. rlit. cbn [andb]. msimp. lra.
Qed.
Lemma m3_self_refuted : exists m : Mat3 R, exact3 m /\ ~ meq 3 (ent3 (m3_mulAssign_self m)) (mmul 3 (ent3 m) (ent3 m)).
Proof.
  exists (m3_set (mkV3 1 1 0) (mkV3 1 0 0) (mkV3 0 0 1)). split; [apply m3_optimized|].
  intros H. specialize (H 1%nat 0%nat ltac:(lia) ltac:(lia)). revert H.
  unfold m3_mulAssign_self, m3_set, m3_optimize, m3_optimize_tol, m3_normalError, m3_orthogonalError, m3_identityError, v3_dot, v3_lengthSqr, tol_default.
  cbn [mx3 my3 mz3 mf3 x3 y3 z3 tolNormal tolOrthogonal tolIdentity fIdentity]. rops. rlit. cbn [andb]. msimp. lra.
Qed.
(** transform with the same source and destination *)
Lemma m2_inplace_refuted : exists (m : Mat2 R) u, exact2 m /\ m2_transform_inplace m u <> m2_apply m u.
Proof.
  exists (m2_set (mkV2 0 1) (mkV2 1 0)), (mkV2 1 2). split; [apply m2_optimized|].
  unfold m2_transform_inplace, m2_apply, m2_set, m2_optimize, m2_optimize_tol. rops. cbn. intros [= E]. lra.
Qed.
Lemma m3_inplace_refuted : exists (m : Mat3 R) u, exact3 m /\ m3_transform_inplace m u <> m3_apply m u.
Proof.
  exists (m3_set (mkV3 0 1 0) (mkV3 1 0 0) (mkV3 0 0 1)), (mkV3 1 2 0). split; [apply m3_optimized|].
  unfold m3_transform_inplace, m3_apply, m3_set, m3_optimize, m3_optimize_tol. rops. cbn. intros [= E E']. lra.
Qed.
(** rotation around a coordinate axis keeps the identity bit *)
Lemma m3_coord_refuted : exists r, m3_rotated_coord m3_one CoZ PI = Ok r /\ m3_rotatedPre_coord m3_one CoZ PI = Ok r /\
  fIdentity (mf3 r) = true /\ id_defect 3 (ent3 r) = 8 /\ m3_mul r m3_one = m3_one /\ ~ meq 3 (ent3 (m3_mul r r)) (mmul 3 (ent3 r) (ent3 r)).
Proof.
  eexists. split; [reflexivity|]. cbn [mf3]. rewrite m3_one_flags. split; [|split; [reflexivity|]].
  - unfold m3_rotatedPre_coord. rewrite m3_one_flags. unfold m3_one, m3_scalar. rops. cbn [mx3 my3 mz3 x3 y3 z3 mf3]. rewrite sin_PI, cos_PI.
    f_equal. f_equal; f_equal; ring.
  - split; [|split].
    + unfold m3_one, m3_scalar. msimp. rewrite sin_PI, cos_PI. ring.
    + reflexivity.
    + intros H. specialize (H 0%nat 0%nat ltac:(lia) ltac:(lia)). revert H. unfold m3_mul. cbn [mf3 fIdentity].
      unfold m3_one, m3_scalar. msimp. rewrite sin_PI, cos_PI. lra.
Qed.
(** transposition keeps a Normal bit that no longer holds *)
Lemma m3_transposed_refuted : exists m : Mat3 R, exact3 m /\ fNormal (mf3 (m3_transposed m)) = true /\ unit_defect 3 (ent3 (m3_transposed m)) = 6.
Proof.
  exists (m3_set (mkV3 1 0 0) (mkV3 1 0 0) (mkV3 1 0 0)). split; [apply m3_optimized|]. split.
  - unfold m3_transposed, m3_set, m3_optimize, m3_optimize_tol, m3_normalError, v3_dot, tol_default.
    cbn [mx3 my3 mz3 mf3 x3 y3 z3 tolNormal tolOrthogonal tolIdentity fNormal]. rops. rlit. reflexivity.
  - unfold m3_transposed, m3_set, m3_optimize, m3_optimize_tol. msimp. ring.
Qed.
Lemma m2_transposed_refuted : exists m : Mat2 R, exact2 m /\ fNormal (mf2 (m2_transposed m)) = true /\ unit_defect 2 (ent2 (m2_transposed m)) = 2.
Proof.
  exists (m2_set (mkV2 1 0) (mkV2 1 0)). split; [apply m2_optimized|]. split.
  - unfold m2_transposed, m2_set, m2_optimize, m2_optimize_tol, m2_normalError, v2_dot, tol_default.
    cbn [mx2 my2 mf2 x2 y2 tolNormal tolOrthogonal tolIdentity fNormal]. rops. rlit. reflexivity.
  - unfold m2_transposed, m2_set, m2_optimize, m2_optimize_tol. msimp. ring.
Qed.
(** the product of two matrices with unit columns is said to have unit columns *)
Lemma m2_product_refuted : exists a b : Mat2 R, exact2 a /\ exact2 b /\
  fNormal (mf2 (m2_mul a b)) = true /\ tol < unit_defect 2 (ent2 (m2_mul a b)).
Proof.
  exists (m2_set (mkV2 1 0) (mkV2 1 0)), (m2_set (mkV2 (3/5) (4/5)) (mkV2 (3/5) (4/5))).
  split; [apply m2_optimized|]. split; [apply m2_optimized|].
  assert (Fa : mf2 (m2_set (mkV2 1 0) (mkV2 1 0)) = mkFlags true false false false false).
  { unfold m2_set, m2_optimize, m2_optimize_tol, m2_normalError, m2_orthogonalError, m2_identityError, v2_dot, v2_lengthSqr, tol_default.
    cbn [mx2 my2 mf2 x2 y2 tolNormal tolOrthogonal tolIdentity]. rops. rlit. reflexivity. }
  assert (Fb : mf2 (m2_set (mkV2 (3/5) (4/5)) (mkV2 (3/5) (4/5))) = mkFlags true false false false false).
  { unfold m2_set, m2_optimize, m2_optimize_tol, m2_normalError, m2_orthogonalError, m2_identityError, v2_dot, v2_lengthSqr, tol_default.
    cbn [mx2 my2 mf2 x2 y2 tolNormal tolOrthogonal tolIdentity]. rops. rlit. reflexivity. }
  unfold m2_mul. rewrite Fa, Fb. cbn [fIdentity]. split; [reflexivity|].
  unfold m2_set, m2_optimize, m2_optimize_tol, tol. msimp. lra.
Qed.
(** transposition of an affine matrix keeps the Trs bit *)
Lemma m4_transposed_refuted : exists m : Mat4 R, built4 m /\ fTrs (mf4 (m4_transposed m)) = true /\ ~ trs (ent4 (m4_transposed m)).
Proof.
  exists (m4_translate m4_one (mkV3 1 0 0)). split; [apply b4_translate, b4_one|].
  split.
  - unfold m4_transposed, m4_translate. cbn [mf4]. rewrite m4_one_flags. unfold flags_clear_identity. destruct (negb _); reflexivity.
  - intros (H & _). revert H. unfold m4_transposed, m4_translate, m4_one, m4_scalar, v4_add_v3. msimp. lra.
Qed.
(** matrices built from one number: flags sound, exact only up to the tolerance *)
Lemma m2_scalar_sound k : sound_flags 2 (ent2 (m2_scalar k)) (mf2 (m2_scalar k)).
Proof.
  unfold m2_scalar, sound_flags. cbn [mf2 fNormal fOrthogonal fIdentity]. rops. pose proof tol_pos.
  split; [|split]; intros F; [apply Reqb_true in F; subst| |apply Reqb_true in F; subst]; msimp; lra.
Qed.
Lemma m3_scalar_sound k : sound_flags 3 (ent3 (m3_scalar k)) (mf3 (m3_scalar k)).
Proof.
  unfold m3_scalar, sound_flags. cbn [mf3 fNormal fOrthogonal fIdentity]. rops. pose proof tol_pos.
  split; [|split]; intros F; [apply Reqb_true in F; subst| |apply Reqb_true in F; subst]; msimp; lra.
Qed.
Lemma m3_scalar_refuted : fNormal (mf3 (m3_scalar (-1))) = false /\ unit_defect 3 (ent3 (m3_scalar (-1))) = 0.
Proof. unfold m3_scalar. cbn [mf3 fNormal]. rops. rlit. split; [reflexivity|]. msimp. ring. Qed.
Lemma m4_scalar_refuted : fTrs (mf4 (m4_scalar 2)) = false /\ trs (ent4 (m4_scalar 2)).
Proof. unfold m4_scalar. cbn [mf4 fTrs]. rops. rlit. split; [reflexivity|]. repeat split. Qed.

(** * Entries of the scalar operations *)
Ltac mentries := intros; repeat match goal with m : Mat2 R |- _ => mdes2 m | m : Mat3 R |- _ => mdes3 m | m : Mat4 R |- _ => mdes4 m end.
Lemma m2_scalar_ops (m : Mat2 R) k s :
  meq 2 (ent2 (m2_opp m)) (mscal (-1) (ent2 m)) /\ meq 2 (ent2 (m2_mul_k m k)) (mscal k (ent2 m)) /\
  meq 2 (ent2 (m2_mulAssign_k m k)) (mscal k (ent2 m)) /\
  meq 2 (ent2 (m2_scaled m s)) (mmul 2 (ent2 m) (mdiag (vent2 s))).
Proof.
  split; [|split; [|split]].
  - unfold m2_opp, m2_set. rewrite ent2_optimize. entries2; msimp; unfold v2_opp; rops; cbn; ring.
  - unfold m2_mul_k, m2_set. rops. destruct (Reqb_spec k 0) as [->|E0]; [entries2; msimp; unfold m2_zero, m2_scalar; cbn; rops; ring|].
    destruct (Reqb_spec k 1) as [->|E1]; [entries2; msimp; ring|]. rewrite ent2_optimize. entries2; msimp; unfold v2_scale; rops; cbn; ring.
  - unfold m2_mulAssign_k. rops. destruct (Reqb_spec k 1) as [->|E1]; [entries2; msimp; ring|].
    rewrite ent2_optimize. entries2; msimp; unfold v2_scale; rops; cbn; ring.
  - unfold m2_scaled. rewrite ent2_optimize. entries2; unfold mdiag; msimp; unfold v2_scale; rops; cbn; ring.
Qed.
Lemma m3_scalar_ops (m : Mat3 R) k s :
  meq 3 (ent3 (m3_opp m)) (mscal (-1) (ent3 m)) /\ meq 3 (ent3 (m3_mul_k m k)) (mscal k (ent3 m)) /\
  meq 3 (ent3 (m3_mulAssign_k m k)) (mscal k (ent3 m)) /\
  meq 3 (ent3 (m3_scaled m s)) (mmul 3 (ent3 m) (mdiag (vent3 s))).
Proof.
  split; [|split; [|split]].
  - unfold m3_opp, m3_set. rewrite ent3_optimize. entries3; msimp; unfold v3_opp; rops; cbn; ring.
  - unfold m3_mul_k, m3_set. rops. destruct (Reqb_spec k 0) as [->|E0]; [entries3; msimp; unfold m3_zero, m3_scalar; cbn; rops; ring|].
    destruct (Reqb_spec k 1) as [->|E1]; [entries3; msimp; ring|]. rewrite ent3_optimize. entries3; msimp; unfold v3_scale; rops; cbn; ring.
  - unfold m3_mulAssign_k. rops. destruct (Reqb_spec k 1) as [->|E1]; [entries3; msimp; ring|].
    rewrite ent3_optimize. entries3; msimp; unfold v3_scale; rops; cbn; ring.
  - unfold m3_scaled. rewrite ent3_optimize. entries3; unfold mdiag; msimp; unfold v3_scale; rops; cbn; ring.
Qed.
Lemma m4_scalar_ops (m : Mat4 R) k :
  meq 4 (ent4 (m4_opp m)) (mscal (-1) (ent4 m)) /\ meq 4 (ent4 (m4_mul_k m k)) (mscal k (ent4 m)) /\
  meq 4 (ent4 (m4_mulAssign_k m k)) (mscal k (ent4 m)).
Proof.
  split; [|split].
  - unfold m4_opp, m4_set4. rewrite ent4_optimize. entries4; msimp; unfold v4_opp; rops; cbn; ring.
  - unfold m4_mul_k, m4_set4. rops. destruct (Reqb_spec k 0) as [->|E0]; [entries4; msimp; unfold m4_zero, m4_scalar; cbn; rops; ring|].
    destruct (Reqb_spec k 1) as [->|E1]; [entries4; msimp; ring|]. rewrite ent4_optimize. entries4; msimp; unfold v4_scale; rops; cbn; ring.
  - unfold m4_mulAssign_k. rops. destruct (Reqb_spec k 1) as [->|E1]; [entries4; msimp; ring|].
    rewrite ent4_optimize. entries4; msimp; unfold v4_scale; rops; cbn; ring.
Qed.
Lemma m2_divAssign_ent (m : Mat2 R) k : k <> 0 -> exists r, m2_divAssign m k = Ok r /\ meq 2 (ent2 r) (mscal (/ k) (ent2 m)).
Proof.
  intros Hk. unfold m2_divAssign, v2_div, assert_then. rops. rewrite (Reqb_f k 0 Hk). cbn [negb bind].
  destruct (Reqb_spec k 1) as [->|E1]; eexists; (split; [reflexivity|]).
  - entries2; msimp; field.
  - rewrite ent2_optimize. entries2; msimp; field; exact Hk.
Qed.
Lemma m3_divAssign_ent (m : Mat3 R) k : k <> 0 -> exists r, m3_divAssign m k = Ok r /\ meq 3 (ent3 r) (mscal (/ k) (ent3 m)).
Proof.
  intros Hk. unfold m3_divAssign, v3_div, assert_then. rops. rewrite (Reqb_f k 0 Hk). cbn [negb bind].
  destruct (Reqb_spec k 1) as [->|E1]; eexists; (split; [reflexivity|]).
  - entries3; msimp; field.
  - rewrite ent3_optimize. entries3; msimp; field; exact Hk.
Qed.
Lemma div_by_zero (m2 : Mat2 R) (m3 : Mat3 R) (m4 : Mat4 R) :
  m2_div m2 0 = Ok m2_zero /\ m3_div m3 0 = Ok m3_zero /\ m4_div m4 0 = m4_zero /\
  m2_divAssign m2 0 = AssertFail /\ m3_divAssign m3 0 = AssertFail /\ m4_divAssign m4 0 = AssertFail.
Proof.
  unfold m2_div, m3_div, m4_div, m2_divAssign, m3_divAssign, m4_divAssign, assert_then. rops. rewrite (Reqb_t 0 0 eq_refl).
  repeat split.
Qed.
(** * Flags of the results *)
Lemma m2_exact_ops (m : Mat2 R) (u v : Vec2 R) (s : Vec2 R) a :
  exact2 (m2_set u v) /\ exact2 (m2_rotation a) /\ exact2 (m2_opp m) /\ exact2 (m2_scaled m s) /\ exact2 (m2_rotated m a) /\
  exact2 (m2_rotatePre m a) /\ exact2 (m2_orthonormalise m) /\ exact2 (m2_cofactors m) /\ exact2 (m2_adjoint m).
Proof. exact (conj (m2_optimized _) (conj (m2_optimized _) (conj (m2_optimized _) (conj (m2_optimized _) (conj (m2_optimized _) (conj (m2_optimized _) (conj (m2_optimized _) (conj (m2_optimized _) (m2_optimized _))))))))). Qed.
Lemma m3_exact_ops (m : Mat3 R) (u v w s : Vec3 R) (q : Quat R) a :
  exact3 (m3_set u v w) /\ exact3 (m3_rotation u a) /\ exact3 (m3_opp m) /\ exact3 (m3_scaled m s) /\ exact3 (m3_of_quat q) /\
  exact3 (m3_orthonormalise m) /\ exact3 (m3_cofactors m) /\ exact3 (m3_adjoint m).
Proof. exact (conj (m3_optimized _) (conj (m3_optimized _) (conj (m3_optimized _) (conj (m3_optimized _) (conj (m3_optimized _) (conj (m3_optimized _) (conj (m3_optimized _) (m3_optimized _)))))))). Qed.
Lemma tol_def_eq : tolNormal (tol_default : Tolerance R) = tol /\ tolOrthogonal (tol_default : Tolerance R) = tol /\ tolIdentity (tol_default : Tolerance R) = tol.
Proof. unfold tol_default, tol. cbn. rops. repeat split; lra. Qed.
