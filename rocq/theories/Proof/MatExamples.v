(** Derived statements and cases for Props/Matrices.v. *)
From Coq Require Import Reals ZArith Arith Lra Lia Bool Psatz.
From Verif.Base Require Import Outcome Array Wp Scalar ScalarR RFacts.
From Verif.Model Require Import Types Functions Vec Mat2 Mat3 Quat Mat4.
From Verif.Spec Require Import LinAlg ArraySpec VecSpec MatSpec QuatSpec History.
From Verif.Proof Require Import FunctionsProofs LinAlgFacts VecFacts VecProofs MatFacts MatProofs MatFlags MatInverse MatInverse4 MatRotation QuatProofs QuatArc MatHistory MatMore.
Local Open Scope R_scope.

Lemma history2 m : built2 m ->
  rotation2 (ent2 m) /\ fNormal (mf2 m) = true /\ fOrthogonal (mf2 m) = true /\ fUninit (mf2 m) = false /\
  (fIdentity (mf2 m) = true -> id_defect 2 (ent2 m) <= tol).
Proof. intros H. destruct (built2_inv m H) as (A & (B & C & D) & E). auto. Qed.
Lemma history3 m : built3 false m ->
  rotation (ent3 m) /\ fNormal (mf3 m) = true /\ fOrthogonal (mf3 m) = true /\ fUninit (mf3 m) = false /\
  (fIdentity (mf3 m) = true -> id_defect 3 (ent3 m) <= tol).
Proof. intros H. destruct (built3_inv false m H) as (A & (B & C & D) & E). repeat split; auto; apply A. Qed.
Lemma history3c m : built3 true m ->
  rotation (ent3 m) /\ fNormal (mf3 m) = true /\ fOrthogonal (mf3 m) = true /\ fUninit (mf3 m) = false.
Proof. intros H. destruct (built3_inv true m H) as (A & (B & C & D) & E). auto. Qed.
Lemma history4 m : built4 m ->
  rigid1 (ent4 m) /\ fNormal (mf4 m) = true /\ fOrthogonal (mf4 m) = true /\ fTrs (mf4 m) = true /\ fUninit (mf4 m) = false /\
  (fIdentity (mf4 m) = true -> id_defect 4 (ent4 m) <= tol).
Proof. intros H. destruct (built4_inv m H) as (A & (B & C & D) & E & F). auto 10. Qed.
Lemma history_case : exists m : Mat4 R, built4 m /\ ~ meq 4 (ent4 m) ident.
Proof.
  exists (m4_translate m4_one (mkV3 1 0 0)). split; [apply b4_translate, b4_one|].
  intros H. specialize (H 0%nat 3%nat ltac:(lia) ltac:(lia)). revert H.
  unfold m4_translate, m4_one, m4_scalar, v4_add_v3. msimp. cbn. lra.
Qed.
Lemma product_case : exists a b : Mat3 R, true_identity 3 (ent3 a) (mf3 a) /\ true_identity 3 (ent3 b) (mf3 b) /\
  a <> b /\ ~ meq 3 (ent3 a) ident /\ ~ meq 3 (ent3 b) ident.
Proof.
  assert (G : forall k, 1 <= k -> true_identity 3 (ent3 (m3_set (mkV3 1 k 0) (mkV3 0 1 0) (mkV3 0 0 1))) (mf3 (m3_set (mkV3 1 k 0) (mkV3 0 1 0) (mkV3 0 0 1))) /\
    ~ meq 3 (ent3 (m3_set (mkV3 1 k 0) (mkV3 0 1 0) (mkV3 0 0 1))) ident).
  { intros k Hk. split.
    - intros F. exfalso. apply (m3_optimized (mkM3 (mkV3 1 k 0) (mkV3 0 1 0) (mkV3 0 0 1) flags_uninit)) in F. destruct F as (_ & _ & F).
      unfold m3_set in F. rewrite ent3_optimize in F. revert F. unfold tol. msimp. intros F. nra.
    - intros H. specialize (H 1%nat 0%nat ltac:(lia) ltac:(lia)). unfold m3_set in H. rewrite ent3_optimize in H. revert H. msimp. lra. }
  exists (m3_set (mkV3 1 1 0) (mkV3 0 1 0) (mkV3 0 0 1)), (m3_set (mkV3 1 2 0) (mkV3 0 1 0) (mkV3 0 0 1)).
  split; [apply G; lra|]. split; [apply G; lra|]. split; [|split; apply G; lra].
  intros E. apply (f_equal (fun m => y3 (mx3 m))) in E. cbn in E. lra.
Qed.
Lemma shortcut_case : exists a : Mat2 R, sound_flags 2 (ent2 a) (mf2 a) /\ fIdentity (mf2 a) = true /\ ~ meq 2 (ent2 a) ident.
Proof.
  set (a := mkM2 (mkV2 1 (1 / 100)) (mkV2 0 1) flags_uninit).
  exists (m2_optimize a). destruct (m2_optimized a) as (N & O & I & _). rewrite ent2_optimize in *.
  split; [|split].
  - split; [apply N|]. split; [apply O|]. intros F. apply I in F. apply F.
  - apply I. unfold a, tol. msimp. repeat split; lra.
  - intros H. specialize (H 1%nat 0%nat ltac:(lia) ltac:(lia)). revert H. unfold a. msimp. lra.
Qed.
Lemma determinant_laws :
  (forall a b : Mat2 R, true_identity 2 (ent2 a) (mf2 a) -> true_identity 2 (ent2 b) (mf2 b) ->
    m2_determinant (m2_mul a b) = m2_determinant a * m2_determinant b) /\
  (forall a b : Mat3 R, true_identity 3 (ent3 a) (mf3 a) -> true_identity 3 (ent3 b) (mf3 b) ->
    m3_determinant (m3_mul a b) = m3_determinant a * m3_determinant b) /\
  (forall a b : Mat4 R, true_identity 4 (ent4 a) (mf4 a) -> true_identity 4 (ent4 b) (mf4 b) ->
    m4_determinant (m4_mul a b) = m4_determinant a * m4_determinant b) /\
  (forall m : Mat2 R, m2_determinant (m2_transposed m) = m2_determinant m) /\
  (forall m : Mat3 R, m3_determinant (m3_transposed m) = m3_determinant m) /\
  (forall m : Mat4 R, m4_determinant (m4_transposed m) = m4_determinant m).
Proof.
  split; [|split; [|split; [|split; [|split]]]].
  - intros a b Ha Hb. rewrite !m2_det_eq, (det_ext _ _ _ (m2_mul_eq a b Ha Hb)). apply det2_mmul.
  - intros a b Ha Hb. rewrite !m3_det_eq, (det_ext _ _ _ (m3_mul_eq a b Ha Hb)). apply det3_mmul.
  - intros a b Ha Hb. rewrite !m4_det_eq, (det_ext _ _ _ (m4_mul_eq a b Ha Hb)). apply det4_mmul.
  - intros m. rewrite !m2_det_eq, (det_ext _ _ _ (ent2_transposed m)). apply det2_trans.
  - intros m. rewrite !m3_det_eq, (det_ext _ _ _ (ent3_transposed m)). apply det3_trans.
  - intros m. rewrite !m4_det_eq, (det_ext _ _ _ (ent4_transposed m)). apply det4_trans.
Qed.
Lemma inverse4 m : (isOrthonormalF (mf4 m) = true -> rigid (ent4 m)) ->
  (det 4 (ent4 m) = 0 -> m4_inversed m = Ok m4_zero) /\
  (det 4 (ent4 m) <> 0 -> exists r, m4_inversed m = Ok r /\ inverse 4 (ent4 m) (ent4 r)).
Proof. intros H. destruct (m4_inversed_spec m H) as [A B]. split; [intros D; apply A; exact D|intros D; apply B; exact D]. Qed.
Lemma invert4 m : (isOrthonormalF (mf4 m) = true -> rigid (ent4 m)) ->
  (det 4 (ent4 m) = 0 -> m4_invert m = m4_zero) /\
  (det 4 (ent4 m) <> 0 -> inverse 4 (ent4 m) (ent4 (m4_invert m)) /\
     exists r, m4_inversed m = Ok r /\ meq 4 (ent4 r) (ent4 (m4_invert m))).
Proof.
  intros H. destruct (m4_inversed_spec m H) as [A B]. split; [intros D; apply A; exact D|]. intros D. destruct (B D) as (C & r & E & I).
  split; [exact C|]. exists r. split; [exact E|]. exact (inverse_unique _ _ _ _ I C).
Qed.
Lemma invert3 m : (isOrthonormalF (mf3 m) = true -> orthonormal 3 (ent3 m)) ->
  (det 3 (ent3 m) = 0 -> m3_invert m = Ok m3_zero /\ m3_inversed m = Ok m3_zero) /\
  (det 3 (ent3 m) <> 0 -> exists r s, m3_invert m = Ok r /\ m3_inversed m = Ok s /\ meq 3 (ent3 r) (ent3 s) /\
     fUninit (mf3 r) = fUninit (mf3 m) && isOrthonormalF (mf3 m))%bool.
Proof.
  intros H. destruct (m3_invert_spec m H) as [A B]. destruct (m3_inversed_spec m) as [C D]. split; [auto|].
  intros Hd. destruct (B Hd) as (r & E & I). destruct (D Hd) as (s & F & J). exists r, s. split; [exact E|]. split; [exact F|].
  split; [exact (inverse_unique _ _ _ _ I J)|]. destruct (m3_invert_cases m) as [K L].
  destruct (isOrthonormalF (mf3 m)) eqn:O.
  - specialize (L eq_refl). rewrite L in E. injection E as <-. rewrite andb_true_r. reflexivity.
  - specialize (K eq_refl). rewrite K in E. rewrite andb_false_r. revert E. unfold m3_inversed. rops. rewrite m3_det_eq, (Reqb_f _ _ Hd).
    unfold m3_div, v3_div, assert_then. rops. rewrite (Reqb_f _ _ Hd). cbn [negb bind].
    destruct (Reqb (det 3 (ent3 m)) 1); intros [= <-]; reflexivity.
Qed.
Lemma inverse_case : exists m : Mat4 R, isOrthonormalF (mf4 m) = true /\ rigid (ent4 m) /\ ~ meq 4 (ent4 m) ident /\ det 4 (ent4 m) <> 0.
Proof.
  destruct history_case as (m & B & N). exists m. pose proof (built4_inv m B) as I. split; [apply inv4_on; exact I|].
  destruct I as (R & _). split; [apply rigid1_rigid; exact R|]. split; [exact N|]. destruct R as ((O & D) & T & U & V & W).
  rewrite (det4_affine _ T U V W), D. lra.
Qed.
Lemma of_quat_turns q : qnorm2 q = 1 ->
  rotation (ent3 (m3_of_quat q)) /\ forall u, m3_apply (m3_of_quat q) u = qturn q u.
Proof.
  intros H. split; [apply m3_of_quat_rotation; exact H|]. intros u. rewrite <- (q_rotated_eq q u H). reflexivity.
Qed.
Lemma m4_rotation_full u a : meq 3 (ent4 (m4_rotation u a)) (ent3 (m3_rotation u a)) /\ trs (ent4 (m4_rotation u a)) /\
  forall i, (i < 3)%nat -> ent4 (m4_rotation u a) i 3%nat = 0.
Proof.
  destruct (m4_rotation_block u a) as [A B]. split; [exact A|]. split; [exact B|].
  intros [|[|[|i]]] Hi; [| | |lia]; reflexivity.
Qed.
Lemma m4_of_quat_full q t : meq 3 (ent4 (m4_of_quat q t)) (ent3 (m3_of_quat q)) /\ trs (ent4 (m4_of_quat q t)) /\
  forall i, (i < 3)%nat -> ent4 (m4_of_quat q t) i 3%nat = vent3 t i.
Proof.
  destruct (m4_of_quat_block q t) as [A B]. split; [exact A|]. split; [exact B|].
  intros [|[|[|i]]] Hi; [| | |lia]; reflexivity.
Qed.
Lemma m2_rotation_turns a u : m2_apply (m2_rotation a) u = mkV2 (cos a * x2 u - sin a * y2 u) (sin a * x2 u + cos a * y2 u).
Proof. unfold m2_apply, m2_rotation, m2_optimize, m2_optimize_tol. cbn [mx2 my2 x2 y2]. rops. f_equal; ring. Qed.
Lemma rotation_case : (mkV3 1 2 3 : Vec3 R) <> zero3 /\ qnorm2 (mkQ (1/2) (1/2) (1/2) (1/2)) = 1 /\
  cross3 (mkV3 0 1 0) (mkV3 1 1 0) <> zero3.
Proof.
  split; [|split].
  - intros E. apply (f_equal (@x3 R)) in E. cbn in E. lra.
  - unfold qnorm2, qdot, qvec, dot3. cbn. lra.
  - intros E. apply (f_equal (@z3 R)) in E. cbn in E. lra.
Qed.
Lemma array_case : exists (src dest : arr (Vec3 R)) (g : nat -> Vec3 R),
  (forall i, (i < 3)%nat -> (i * 2 < alen src)%nat /\ acell src (i * 2) = Some (g i)) /\
  (forall i, (i < 3)%nat -> (i * 1 < alen dest)%nat).
Proof.
  exists (mkArr 6 (fun i => Some (mkV3 (INR i) 0 1))), (mkArr 3 (fun _ => None)), (fun i => mkV3 (INR (i * 2)) 0 1).
  split; cbn [alen acell]; intros i Hi; [split; [lia|reflexivity]|lia].
Qed.
