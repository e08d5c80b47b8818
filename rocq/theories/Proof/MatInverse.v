(** Inverses and transposes of Mat2, Mat3 and Mat4. *)
From Coq Require Import Reals ZArith Arith Lra Lia Bool Psatz Nsatz.
From Verif.Base Require Import Outcome Wp Scalar ScalarR RFacts.
From Verif.Model Require Import Types Functions Vec Mat2 Mat3 Quat Mat4 Mat34.
From Verif.Spec Require Import LinAlg VecSpec MatSpec.
From Verif.Proof Require Import LinAlgFacts VecFacts VecProofs MatFacts MatProofs MatFlags.
Local Open Scope R_scope.

Lemma mmul_scal_l n k A B : meq n (mmul n (mscal k A) B) (mscal k (mmul n A B)).
Proof. intros i j _ _. unfold mmul, mscal. rewrite <- sumf_scal. apply sumf_ext; intros; ring. Qed.
Lemma mmul_scal_r n k A B : meq n (mmul n A (mscal k B)) (mscal k (mmul n A B)).
Proof. intros i j _ _. unfold mmul, mscal. rewrite <- sumf_scal. apply sumf_ext; intros; ring. Qed.
Lemma mscal_ext n k A B : meq n A B -> meq n (mscal k A) (mscal k B).
Proof. intros H i j Hi Hj. unfold mscal. rewrite (H i j) by assumption. reflexivity. Qed.
Lemma mscal_inv n d A : d <> 0 -> meq n (mscal (/ d) (mscal d A)) A.
Proof. intros H i j _ _. unfold mscal. field; exact H. Qed.
Lemma inverse_ext n A B B' : meq n B B' -> inverse n A B -> inverse n A B'.
Proof.
  intros H [K1 K2]. split; (eapply meq_trans; [apply mmul_ext|]).
  - apply meq_refl. - apply meq_sym; exact H. - exact K1.
  - apply meq_sym; exact H. - apply meq_refl. - exact K2.
Qed.
Lemma adj_inverse n A J d B : d <> 0 -> meq n (mmul n A J) (mscal d ident) -> meq n (mmul n J A) (mscal d ident) ->
  meq n B (mscal (/ d) J) -> inverse n A B.
Proof.
  intros Hd H1 H2 HB. apply (inverse_ext _ _ _ _ (meq_sym _ _ _ HB)). split.
  - eapply meq_trans; [apply mmul_scal_r|]. eapply meq_trans; [apply mscal_ext, H1|]. apply mscal_inv; exact Hd.
  - eapply meq_trans; [apply mmul_scal_l|]. eapply meq_trans; [apply mscal_ext, H2|]. apply mscal_inv; exact Hd.
Qed.
Lemma inverse_unique n A B C : inverse n A B -> inverse n A C -> meq n B C.
Proof.
  intros [B1 B2] [C1 C2].
  eapply meq_trans; [apply meq_sym, mmul_ident_r|].
  eapply meq_trans; [apply mmul_ext; [apply meq_refl|apply meq_sym, C1]|].
  eapply meq_trans; [apply meq_sym, mmul_assoc|].
  eapply meq_trans; [apply mmul_ext; [exact B2|apply meq_refl]|]. apply mmul_ident_l.
Qed.

(** Division by a scalar. *)
Lemma m2_div_ent m k : k <> 0 -> exists r, m2_div m k = Ok r /\ meq 2 (ent2 r) (mscal (/ k) (ent2 m)).
Proof.
  intros Hk. unfold m2_div, v2_div, assert_then. rops.
  destruct (Reqb_spec k 0) as [E|E]; [contradiction|]. destruct (Reqb_spec k 1) as [->|E1].
  - eexists; split; [reflexivity|]. entries2; msimp; field.
  - cbn [negb bind]. eexists; split; [reflexivity|]. unfold m2_set, m2_optimize, m2_optimize_tol. cbn zeta.
    entries2; msimp; field; exact Hk.
Qed.
Lemma m3_div_ent m k : k <> 0 -> exists r, m3_div m k = Ok r /\ meq 3 (ent3 r) (mscal (/ k) (ent3 m)).
Proof.
  intros Hk. unfold m3_div, v3_div, assert_then. rops.
  destruct (Reqb_spec k 0) as [E|E]; [contradiction|]. destruct (Reqb_spec k 1) as [->|E1].
  - eexists; split; [reflexivity|]. entries3; msimp; field.
  - cbn [negb bind]. eexists; split; [reflexivity|]. unfold m3_set, m3_optimize, m3_optimize_tol. cbn zeta.
    entries3; msimp; field; exact Hk.
Qed.
Lemma ent2_optimize m : ent2 (m2_optimize m) = ent2 m. Proof. reflexivity. Qed.
Lemma ent3_optimize m : ent3 (m3_optimize m) = ent3 m. Proof. reflexivity. Qed.
Lemma ent4_optimize m : ent4 (m4_optimize m) = ent4 m. Proof. reflexivity. Qed.
Lemma ent4_flags x y z t f g : ent4 (mkM4 x y z t f) = ent4 (mkM4 x y z t g). Proof. reflexivity. Qed.
Lemma m4_div_ent m k : k <> 0 -> meq 4 (ent4 (m4_div m k)) (mscal (/ k) (ent4 m)).
Proof.
  intros Hk. unfold m4_div. rops.
  destruct (Reqb_spec k 0) as [E|E]; [contradiction|]. destruct (Reqb_spec k 1) as [->|E1].
  - entries4; msimp; field.
  - unfold m4_set4. rewrite ent4_optimize. unfold v4_scale. entries4; msimp; field; exact Hk.
Qed.
Lemma m4_divAssign_ent m k : k <> 0 -> exists r, m4_divAssign m k = Ok r /\ meq 4 (ent4 r) (mscal (/ k) (ent4 m)).
Proof.
  intros Hk. unfold m4_divAssign, assert_then. rops.
  destruct (Reqb_spec k 0) as [E|E]; [contradiction|]. cbn [negb]. destruct (Reqb_spec k 1) as [->|E1].
  - eexists; split; [reflexivity|]. entries4; msimp; field.
  - eexists; split; [reflexivity|]. rewrite ent4_optimize. unfold v4_scale. entries4; msimp; field; exact Hk.
Qed.

(** Adjoints. *)
Lemma m2_adjoint_l m : meq 2 (mmul 2 (ent2 m) (ent2 (m2_adjoint m))) (mscal (det 2 (ent2 m)) ident).
Proof. unfold m2_adjoint. rewrite ent2_optimize. detx. entries2; msimp; ring. Qed.
Lemma m2_adjoint_r m : meq 2 (mmul 2 (ent2 (m2_adjoint m)) (ent2 m)) (mscal (det 2 (ent2 m)) ident).
Proof. unfold m2_adjoint. rewrite ent2_optimize. detx. entries2; msimp; ring. Qed.
Lemma m3_adjoint_l m : meq 3 (mmul 3 (ent3 m) (ent3 (m3_adjoint m))) (mscal (det 3 (ent3 m)) ident).
Proof. unfold m3_adjoint. rewrite ent3_optimize. detx. entries3; msimp; ring. Qed.
Lemma m3_adjoint_r m : meq 3 (mmul 3 (ent3 (m3_adjoint m)) (ent3 m)) (mscal (det 3 (ent3 m)) ident).
Proof. unfold m3_adjoint. rewrite ent3_optimize. detx. entries3; msimp; ring. Qed.
Lemma m2_cofactors_eq m : meq 2 (ent2 (m2_cofactors m)) (mtrans (ent2 (m2_adjoint m))).
Proof. unfold m2_cofactors, m2_adjoint. rewrite !ent2_optimize. entries2; reflexivity. Qed.
Lemma m3_cofactors_eq m : meq 3 (ent3 (m3_cofactors m)) (mtrans (ent3 (m3_adjoint m))).
Proof. unfold m3_cofactors, m3_adjoint. rewrite !ent3_optimize. entries3; reflexivity. Qed.
Lemma m4_inv_det_eq m : snd (m4_inv_det m) = det 4 (ent4 m).
Proof. unfold m4_inv_det. cbn zeta. cbn [snd]. detx. msimp. ring. Qed.
Lemma m4_adjoint_l m : meq 4 (mmul 4 (ent4 m) (ent4 (fst (m4_inv_det m)))) (mscal (det 4 (ent4 m)) ident).
Proof. unfold m4_inv_det. cbn zeta. cbn [fst]. detx. mdes4 m. entries4; msimp; ring. Qed.
Lemma m4_adjoint_r m : meq 4 (mmul 4 (ent4 (fst (m4_inv_det m))) (ent4 m)) (mscal (det 4 (ent4 m)) ident).
Proof. unfold m4_inv_det. cbn zeta. cbn [fst]. detx. mdes4 m. entries4; msimp; ring. Qed.

Lemma m2_inversed_spec m :
  (det 2 (ent2 m) = 0 -> m2_inversed m = Ok m2_zero) /\
  (det 2 (ent2 m) <> 0 -> exists r, m2_inversed m = Ok r /\ inverse 2 (ent2 m) (ent2 r)).
Proof.
  unfold m2_inversed. cbn zeta. rewrite m2_det_eq. rops. split; intros H.
  - destruct (Reqb_spec (det 2 (ent2 m)) 0); [reflexivity|contradiction].
  - destruct (Reqb_spec (det 2 (ent2 m)) 0); [contradiction|].
    destruct (m2_div_ent (m2_adjoint m) _ H) as (r & -> & E). exists r. split; [reflexivity|].
    eapply adj_inverse; [exact H|apply m2_adjoint_l|apply m2_adjoint_r|exact E].
Qed.
Lemma m3_inversed_spec m :
  (det 3 (ent3 m) = 0 -> m3_inversed m = Ok m3_zero) /\
  (det 3 (ent3 m) <> 0 -> exists r, m3_inversed m = Ok r /\ inverse 3 (ent3 m) (ent3 r)).
Proof.
  unfold m3_inversed. cbn zeta. rewrite m3_det_eq. rops. split; intros H.
  - destruct (Reqb_spec (det 3 (ent3 m)) 0); [reflexivity|contradiction].
  - destruct (Reqb_spec (det 3 (ent3 m)) 0); [contradiction|].
    destruct (m3_div_ent (m3_adjoint m) _ H) as (r & -> & E). exists r. split; [reflexivity|].
    eapply adj_inverse; [exact H|apply m3_adjoint_l|apply m3_adjoint_r|exact E].
Qed.

(** For square matrices of size 3 a left inverse is a right inverse. *)
Lemma det_ident n : det n ident = 1.
Proof.
  induction n as [|n IH]; [reflexivity|]. cbn [det]. rewrite (sumf_single _ _ 0%nat); [|lia|].
  - cbn. replace (det n (minor ident 0)) with (det n ident); [rewrite IH; ring|]. apply det_ext.
    intros i j _ _. unfold minor, ident. reflexivity.
  - intros i Hi Hne. destruct i; [lia|]. unfold ident at 1. cbn. ring.
Qed.
Lemma left_inverse3 A B : meq 3 (mmul 3 B A) ident -> inverse 3 A B.
Proof.
  intros H. assert (D : det 3 B * det 3 A = 1) by (rewrite <- det3_mmul, (det_ext _ _ _ H); apply det_ident).
  assert (D0 : det 3 A <> 0) by (intros E; rewrite E in D; lra).
  (* the inverse exists through a matrix with the same entries *)
  set (m := mkM3 (mkV3 (A 0%nat 0%nat) (A 1%nat 0%nat) (A 2%nat 0%nat)) (mkV3 (A 0%nat 1%nat) (A 1%nat 1%nat) (A 2%nat 1%nat))
                 (mkV3 (A 0%nat 2%nat) (A 1%nat 2%nat) (A 2%nat 2%nat)) flags_uninit).
  assert (E : meq 3 A (ent3 m)) by (entries3; reflexivity).
  destruct (proj2 (m3_inversed_spec m)) as (r & _ & [R1 R2]); [rewrite <- (det_ext _ _ _ E); exact D0|].
  assert (R1' : meq 3 (mmul 3 A (ent3 r)) ident) by (eapply meq_trans; [apply mmul_ext; [exact E|apply meq_refl]|exact R1]).
  assert (BR : meq 3 B (ent3 r)).
  { eapply meq_trans; [apply meq_sym, mmul_ident_r|].
    eapply meq_trans; [apply mmul_ext; [apply meq_refl|apply meq_sym, R1']|].
    eapply meq_trans; [apply meq_sym, mmul_assoc|].
    eapply meq_trans; [apply mmul_ext; [exact H|apply meq_refl]|]. apply mmul_ident_l. }
  split; [|exact H]. eapply meq_trans; [apply mmul_ext; [apply meq_refl|exact BR]|exact R1'].
Qed.
Lemma orthonormal_inverse3 A : orthonormal 3 A -> inverse 3 A (mtrans A).
Proof. apply left_inverse3. Qed.
Lemma orthonormal_trans3 A : orthonormal 3 A -> orthonormal 3 (mtrans A).
Proof. intros H. destruct (orthonormal_inverse3 A H) as [H1 _]. exact H1. Qed.
Lemma left_inverse2 A B : meq 2 (mmul 2 B A) ident -> inverse 2 A B.
Proof.
  intros H. assert (D : det 2 B * det 2 A = 1) by (rewrite <- det2_mmul, (det_ext _ _ _ H); apply det_ident).
  assert (D0 : det 2 A <> 0) by (intros E; rewrite E in D; lra).
  set (m := mkM2 (mkV2 (A 0%nat 0%nat) (A 1%nat 0%nat)) (mkV2 (A 0%nat 1%nat) (A 1%nat 1%nat)) flags_uninit).
  assert (E : meq 2 A (ent2 m)) by (entries2; reflexivity).
  destruct (proj2 (m2_inversed_spec m)) as (r & _ & [R1 R2]); [rewrite <- (det_ext _ _ _ E); exact D0|].
  assert (R1' : meq 2 (mmul 2 A (ent2 r)) ident) by (eapply meq_trans; [apply mmul_ext; [exact E|apply meq_refl]|exact R1]).
  assert (BR : meq 2 B (ent2 r)).
  { eapply meq_trans; [apply meq_sym, mmul_ident_r|].
    eapply meq_trans; [apply mmul_ext; [apply meq_refl|apply meq_sym, R1']|].
    eapply meq_trans; [apply meq_sym, mmul_assoc|].
    eapply meq_trans; [apply mmul_ext; [exact H|apply meq_refl]|]. apply mmul_ident_l. }
  split; [|exact H]. eapply meq_trans; [apply mmul_ext; [apply meq_refl|exact BR]|exact R1'].
Qed.
Lemma orthonormal_trans2 A : orthonormal 2 A -> orthonormal 2 (mtrans A).
Proof. intros H. destruct (left_inverse2 A _ H) as [H1 _]. exact H1. Qed.
Lemma orthonormal_det n A : (forall A B, det n (mmul n A B) = det n A * det n B) -> (forall A, det n (mtrans A) = det n A) ->
  orthonormal n A -> det n A * det n A = 1.
Proof. intros D T H. rewrite <- (T A) at 1. rewrite <- D, (det_ext _ _ _ H). apply det_ident. Qed.

Lemma ent2_transposed m : meq 2 (ent2 (m2_transposed m)) (mtrans (ent2 m)).
Proof. entries2; reflexivity. Qed.
Lemma ent3_transposed m : meq 3 (ent3 (m3_transposed m)) (mtrans (ent3 m)).
Proof. entries3; reflexivity. Qed.
Lemma ent4_transposed m : meq 4 (ent4 (m4_transposed m)) (mtrans (ent4 m)).
Proof. entries4; reflexivity. Qed.

(** invert: with the orthonormal flags it is the transpose, otherwise inversed. *)
Lemma m3_invert_cases m :
  (isOrthonormalF (mf3 m) = false -> m3_invert m = m3_inversed m) /\
  (isOrthonormalF (mf3 m) = true -> m3_invert m = Ok (m3_transposed m)).
Proof. unfold m3_invert, m3_inversed. destruct (isOrthonormalF (mf3 m)); split; congruence. Qed.
Lemma m3_invert_spec m : (isOrthonormalF (mf3 m) = true -> orthonormal 3 (ent3 m)) ->
  (det 3 (ent3 m) = 0 -> m3_invert m = Ok m3_zero) /\
  (det 3 (ent3 m) <> 0 -> exists r, m3_invert m = Ok r /\ inverse 3 (ent3 m) (ent3 r)).
Proof.
  intros H. destruct (isOrthonormalF (mf3 m)) eqn:E.
  - specialize (H eq_refl). rewrite (proj2 (m3_invert_cases m) E). split; intros D.
    + pose proof (orthonormal_det 3 _ det3_mmul det3_trans H) as K. rewrite D in K. lra.
    + eexists; split; [reflexivity|].
      apply (inverse_ext _ _ _ _ (meq_sym _ _ _ (ent3_transposed m))). apply orthonormal_inverse3. exact H.
  - rewrite (proj1 (m3_invert_cases m) E). apply m3_inversed_spec.
Qed.
(** With flags set within tolerance the transpose is close to a left inverse. *)
Lemma gram_defect3 A : fro2 3 (msub (mmul 3 (mtrans A) A) ident) = unit_defect 3 A + 2 * ortho_defect 3 A.
Proof. munf. cbn [sumf Nat.eqb]. ring. Qed.
Lemma m3_invert_error m : sound_flags 3 (ent3 m) (mf3 m) -> isOrthonormalF (mf3 m) = true ->
  exists r, m3_invert m = Ok r /\ fro2 3 (msub (mmul 3 (ent3 r) (ent3 m)) ident) <= 3 * tol.
Proof.
  intros (Hn & Ho & _) F. rewrite (proj2 (m3_invert_cases m) F). eexists; split; [reflexivity|].
  unfold isOrthonormalF in F. apply andb_prop in F as [F1 F2]. specialize (Hn F1). specialize (Ho F2).
  rewrite (fro2_ext 3 _ (msub (mmul 3 (mtrans (ent3 m)) (ent3 m)) ident)).
  - rewrite gram_defect3. lra.
  - apply msub_ext; [apply mmul_ext; [apply ent3_transposed|apply meq_refl]|apply meq_refl].
Qed.

(** Mat4. *)
Lemma rigid_inverse m r : rigid (ent4 m) ->
  meq 4 (ent4 r) (fun i j => if Nat.ltb i 3 then
     if Nat.ltb j 3 then ent4 m j i else - sumf 3 (fun k => ent4 m k i * ent4 m k 3%nat)
     else if Nat.ltb j 3 then 0 else 1) ->
  inverse 4 (ent4 m) (ent4 r).
Proof.
  intros (Ho & W0 & W1 & W2 & W3) E. apply (inverse_ext _ _ _ _ (meq_sym _ _ _ E)). clear E r.
  pose proof (orthonormal_trans3 _ Ho) as Ht.
  assert (G : forall i j, (i < 3)%nat -> (j < 3)%nat -> sumf 3 (fun k => ent4 m k i * ent4 m k j) = ident i j).
  { intros i j Hi Hj. exact (Ho i j Hi Hj). }
  assert (G' : forall i j, (i < 3)%nat -> (j < 3)%nat -> sumf 3 (fun k => ent4 m i k * ent4 m j k) = ident i j).
  { intros i j Hi Hj. exact (Ht i j Hi Hj). }
  pose proof (G 0%nat 0%nat ltac:(lia) ltac:(lia)) as G00. pose proof (G 0%nat 1%nat ltac:(lia) ltac:(lia)) as G01.
  pose proof (G 0%nat 2%nat ltac:(lia) ltac:(lia)) as G02. pose proof (G 1%nat 1%nat ltac:(lia) ltac:(lia)) as G11.
  pose proof (G 1%nat 2%nat ltac:(lia) ltac:(lia)) as G12. pose proof (G 2%nat 2%nat ltac:(lia) ltac:(lia)) as G22.
  pose proof (G' 0%nat 0%nat ltac:(lia) ltac:(lia)) as K00. pose proof (G' 0%nat 1%nat ltac:(lia) ltac:(lia)) as K01.
  pose proof (G' 0%nat 2%nat ltac:(lia) ltac:(lia)) as K02. pose proof (G' 1%nat 1%nat ltac:(lia) ltac:(lia)) as K11.
  pose proof (G' 1%nat 2%nat ltac:(lia) ltac:(lia)) as K12. pose proof (G' 2%nat 2%nat ltac:(lia) ltac:(lia)) as K22.
  clear Ho Ht G G'. mdes4 m. unfold ident in *. mcbn. subst.
  split; entries4; munf; mcbn; try lra; nsatz.
Qed.
