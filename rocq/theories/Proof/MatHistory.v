(** Invariants of matrices obtained by sequences of operations. *)
From Coq Require Import Reals ZArith Arith Lra Lia Bool Psatz Nsatz.
From Verif.Base Require Import Outcome Wp Scalar ScalarR RFacts.
From Verif.Model Require Import Types Functions Vec Mat2 Mat3 Quat Mat4 Mat34.
From Verif.Spec Require Import LinAlg VecSpec MatSpec QuatSpec History.
From Verif.Proof Require Import FunctionsProofs LinAlgFacts VecFacts VecProofs MatFacts MatProofs MatFlags MatInverse MatInverse4 MatRotation QuatProofs QuatArc QuatSlerp.
Local Open Scope R_scope.

Lemma q_slerp_unit p q t r : qnorm2 p = 1 -> qnorm2 q = 1 -> q_slerp p q t = Ok r -> qnorm2 r = 1.
Proof.
  intros Hp Hq E. destruct (Rlt_le_dec t 0) as [L|L]; [rewrite q_slerp_outside in E by lra; discriminate|].
  destruct (Rlt_le_dec 1 t) as [L'|L']; [rewrite q_slerp_outside in E by lra; discriminate|].
  destruct (Rlt_le_dec (Rabs (qdot p q)) (95 / 100)) as [D|D].
  - destruct (q_slerp_arc p q t Hp Hq ltac:(lra) D) as (r' & _ & _ & E' & N & _). congruence.
  - destruct (q_slerp_near p q t Hp Hq ltac:(lra) D) as (r' & _ & _ & _ & E' & N & _). congruence.
Qed.
Lemma q_slerpMaxAngle_unit p q t r : qnorm2 p = 1 -> qnorm2 q = 1 -> q_slerpMaxAngle p q t = Ok r -> qnorm2 r = 1.
Proof.
  intros Hp Hq. unfold q_slerpMaxAngle. destruct (_ >=? _)%fs; cbn [assert_then]; [|discriminate].
  rewrite q_mul_eq, q_inverse_eq. set (h := hamilton (qconj p) q).
  assert (Hh : qnorm2 h = 1) by (unfold h; rewrite hamilton_norm, conj_norm, Hp, Hq; ring). clearbody h.
  assert (U : forall u a, u <> zero3 -> qnorm2 (q_of_axis u a) = 1) by (intros u a Hu; apply (q_of_axis_spec u a Hu)).
  destruct (Rlt_le_dec q_DELTA (dot3 (qvec h) (qvec h))) as [D|D].
  - destruct (q_toAxisAngle_spec h Hh D) as (axis & angle & -> & Na & _). cbn [bind]. intros [= <-].
    apply U. intros E. apply norm3_zero in E. lra.
  - rewrite q_toAxisAngle_small by assumption. cbn [bind]. intros [= <-]. apply U. intros [= E]. lra.
Qed.

Lemma classic_zero3 u : u = zero3 \/ u <> zero3.
Proof.
  destruct (Req_dec (dot3 u u) 0) as [E|E]; [left; apply dot3_zero; exact E|right; intros H; apply E, dot3_zero; exact H].
Qed.

(** * Rotations *)
Lemma rotation_ext A B : meq 3 A B -> rotation A -> rotation B.
Proof. intros H [O D]. split; [exact (orthonormal_ext _ _ _ H O)|]. rewrite <- (det_ext _ _ _ H). exact D. Qed.
Lemma rotation_mul A B : rotation A -> rotation B -> rotation (mmul 3 A B).
Proof. intros [O D] [O' D']. split; [apply orthonormal_mmul; assumption|]. rewrite det3_mmul, D, D'. ring. Qed.
Lemma rotation_trans A : rotation A -> rotation (mtrans A).
Proof. intros [O D]. split; [apply orthonormal_trans3; exact O|]. rewrite det3_trans. exact D. Qed.
Lemma rotation_ident : rotation ident.
Proof. split; [apply orthonormal_ident|apply det_ident]. Qed.
Lemma rotation_inverse A B : rotation A -> inverse 3 A B -> rotation B.
Proof.
  intros [O D] H. apply (rotation_ext (mtrans A)); [|apply rotation_trans; split; assumption].
  apply (inverse_unique 3 A); [apply orthonormal_inverse3; exact O|exact H].
Qed.
Lemma rotation2_ext A B : meq 2 A B -> rotation2 A -> rotation2 B.
Proof. intros H [O D]. split; [exact (orthonormal_ext _ _ _ H O)|]. rewrite <- (det_ext _ _ _ H). exact D. Qed.
Lemma rotation2_mul A B : rotation2 A -> rotation2 B -> rotation2 (mmul 2 A B).
Proof. intros [O D] [O' D']. split; [apply orthonormal_mmul; assumption|]. rewrite det2_mmul, D, D'. ring. Qed.
Lemma rotation2_trans A : rotation2 A -> rotation2 (mtrans A).
Proof. intros [O D]. split; [apply orthonormal_trans2; exact O|]. rewrite det2_trans. exact D. Qed.
Lemma rotation2_inverse A B : rotation2 A -> inverse 2 A B -> rotation2 B.
Proof.
  intros [O D] H. apply (rotation2_ext (mtrans A)); [|apply rotation2_trans; split; assumption].
  apply (inverse_unique 2 A); [apply left_inverse2; exact O|exact H].
Qed.

(** * Mat2 *)
Lemma m2_rotation_rot a : rotation2 (ent2 (m2_rotation a)).
Proof.
  unfold m2_rotation. rewrite ent2_optimize. pose proof (cs1 a). split; [entries2|detx]; msimp; lra.
Qed.
(** rotate turns after the matrix, rotatePre before it. *)
Lemma m2_rotated_eq m a : meq 2 (ent2 (m2_rotated m a)) (mmul 2 (ent2 (m2_rotation a)) (ent2 m)).
Proof. unfold m2_rotated, m2_rotation. rewrite !ent2_optimize. entries2; msimp; ring. Qed.
Lemma m2_rotatePre_eq m a : meq 2 (ent2 (m2_rotatePre m a)) (mmul 2 (ent2 m) (ent2 (m2_rotation a))).
Proof. unfold m2_rotatePre, m2_rotation. rewrite !ent2_optimize. entries2; msimp; ring. Qed.

Definition good (f : Flags) : Prop := fNormal f = true /\ fOrthogonal f = true /\ fUninit f = false.
Lemma tol_pos : 0 < tol. Proof. unfold tol; lra. Qed.
Lemma exact_good n A f : exact_flags n A f -> orthonormal n A -> good f.
Proof.
  intros (N & Or & _ & U) O. apply orthonormal_defects in O as [O1 O2]. pose proof tol_pos.
  split; [apply N; lra|]. split; [apply Or; lra|exact U].
Qed.
Lemma good_and f g : good f -> good g -> good (flags_and f g).
Proof. intros (N & Or & U) (N' & Or' & U'). unfold good, flags_and. cbn. rewrite N, Or, U, N', Or'. auto. Qed.
Lemma id_defect_trans n A : id_defect n (mtrans A) = id_defect n A.
Proof.
  unfold id_defect. rewrite <- (fro2_trans n (msub A ident)). apply fro2_ext. intros i j Hi Hj.
  unfold mtrans, msub, ident. rewrite Nat.eqb_sym. reflexivity.
Qed.
Lemma id_defect_ext n A B : meq n A B -> id_defect n A = id_defect n B.
Proof. intros H. apply fro2_ext, msub_ext; [exact H|apply meq_refl]. Qed.
Lemma id_defect_ident n : id_defect n ident = 0.
Proof. unfold id_defect, fro2. apply sumf_0. intros. apply sumf_0. intros. unfold msub. ring. Qed.

(** What the history keeps. *)
Definition inv2 (m : Mat2 R) : Prop :=
  rotation2 (ent2 m) /\ good (mf2 m) /\ (fIdentity (mf2 m) = true -> id_defect 2 (ent2 m) <= tol).
Lemma inv2_exact m : rotation2 (ent2 m) -> exact2 m -> inv2 m.
Proof.
  intros H E. split; [exact H|]. split; [exact (exact_good _ _ _ E (proj1 H))|].
  intros F. destruct E as (_ & _ & I & _). apply I in F. apply F.
Qed.
Lemma inv2_id m : meq 2 (ent2 m) ident -> good (mf2 m) -> inv2 m.
Proof.
  intros H G. split.
  { apply (rotation2_ext _ _ (meq_sym _ _ _ H)). split; [apply orthonormal_ident|apply det_ident]. }
  split; [exact G|]. intros _. rewrite (id_defect_ext _ _ _ H), id_defect_ident. apply Rlt_le, tol_pos.
Qed.
Lemma inv2_prod a b m : rotation2 (ent2 a) -> rotation2 (ent2 b) -> good (mf2 a) -> good (mf2 b) ->
  fIdentity (mf2 a) = false -> mf2 m = flags_and (mf2 a) (mf2 b) -> meq 2 (ent2 m) (mmul 2 (ent2 a) (ent2 b)) -> inv2 m.
Proof.
  intros Ra Rb Ga Gb Ia F E. split; [apply (rotation2_ext _ _ (meq_sym _ _ _ E)), rotation2_mul; assumption|].
  rewrite F. split; [apply good_and; assumption|]. unfold flags_and. cbn. rewrite Ia. discriminate.
Qed.
Lemma inv2_mul a b : inv2 a -> inv2 b -> inv2 (m2_mul a b).
Proof.
  intros Ha Hb. destruct (fIdentity (mf2 a)) eqn:Ea; [unfold m2_mul; rewrite Ea; exact Hb|].
  destruct (fIdentity (mf2 b)) eqn:Eb; [unfold m2_mul; rewrite Ea, Eb; exact Ha|].
  destruct Ha as (Ra & Ga & _), Hb as (Rb & Gb & _). apply (inv2_prod a b); try assumption.
  - unfold m2_mul. rewrite Ea, Eb. reflexivity.
  - apply m2_mul_raw; assumption.
Qed.
Lemma inv2_mulAssign a b : inv2 a -> inv2 b -> inv2 (m2_mulAssign a b).
Proof.
  intros Ha Hb. destruct (fIdentity (mf2 b)) eqn:Eb; [unfold m2_mulAssign; rewrite Eb; exact Ha|].
  destruct (fIdentity (mf2 a)) eqn:Ea; [unfold m2_mulAssign; rewrite Ea, Eb; exact Hb|].
  rewrite m2_mulAssign_raw by assumption. apply inv2_mul; assumption.
Qed.
Lemma inv2_transposed m : inv2 m -> inv2 (m2_transposed m).
Proof.
  intros (Rm & G & I). split; [apply (rotation2_ext _ _ (meq_sym _ _ _ (ent2_transposed m))), rotation2_trans; exact Rm|].
  split; [exact G|]. intros F. rewrite (id_defect_ext _ _ _ (ent2_transposed m)), id_defect_trans. apply I. exact F.
Qed.
Lemma m2_rotation_inv a : inv2 (m2_rotation a).
Proof. apply inv2_exact; [apply m2_rotation_rot|apply m2_optimized]. Qed.
Lemma m2_one_flags : mf2 m2_one = mkFlags true true true false false.
Proof. unfold m2_one, m2_scalar. rops. cbn [mf2]. rewrite Reqb_t by reflexivity. reflexivity. Qed.
Lemma built2_inv m : built2 m -> inv2 m.
Proof.
  induction 1 as [| |a|m n _ IHm _ IHn|m n _ IHm _ IHn|m a _ IH|m a _ IH|m _ IH|m r _ IH E|m _ IH|m n w r _ IHm _ IHn E|m n w r _ IHm _ IHn E|m _ IH].
  - apply inv2_id; [entries2; reflexivity|rewrite m2_one_flags; repeat split].
  - apply inv2_id; [entries2; reflexivity|repeat split].
  - apply m2_rotation_inv.
  - apply inv2_mul; assumption.
  - apply inv2_mulAssign; assumption.
  - apply inv2_exact; [|apply m2_optimized]. apply (rotation2_ext _ _ (meq_sym _ _ _ (m2_rotated_eq m a))), rotation2_mul; [apply m2_rotation_rot|apply IH].
  - apply inv2_exact; [|apply m2_optimized]. apply (rotation2_ext _ _ (meq_sym _ _ _ (m2_rotatePre_eq m a))), rotation2_mul; [apply IH|apply m2_rotation_rot].
  - apply inv2_transposed; exact IH.
  - destruct IH as (Rm & G & I). assert (D : det 2 (ent2 m) = 1) by apply Rm.
    destruct (proj2 (m2_inversed_spec m) ltac:(lra)) as (r' & E' & Iv). rewrite E in E'. injection E' as <-.
    apply inv2_exact; [exact (rotation2_inverse _ _ Rm Iv)|].
    unfold m2_inversed in E. rewrite m2_det_eq, D in E. revert E. unfold m2_div. rops. rlit. intros [= <-]. apply m2_optimized.
  - apply m2_rotation_inv.
  - unfold m2_slerp in E. destruct (Interpolation.clerp _ _ _); cbn [bind] in E; [|discriminate|discriminate]. injection E as <-. apply m2_rotation_inv.
  - unfold m2_slerpMaxAngle in E. destruct (Interpolation.clerpMaxAngle _ _ _); cbn [bind] in E; [|discriminate|discriminate]. injection E as <-. apply m2_rotation_inv.
  - apply inv2_exact; [apply IH|apply m2_optimized].
Qed.

(** * Mat3 *)
Definition inv3 (coord : bool) (m : Mat3 R) : Prop :=
  rotation (ent3 m) /\ good (mf3 m) /\ (coord = false -> fIdentity (mf3 m) = true -> id_defect 3 (ent3 m) <= tol).
Lemma inv3_exact coord m : rotation (ent3 m) -> exact3 m -> inv3 coord m.
Proof.
  intros H E. split; [exact H|]. split; [exact (exact_good _ _ _ E (proj1 H))|].
  intros _ F. destruct E as (_ & _ & I & _). apply I in F. apply F.
Qed.
Lemma inv3_id coord m : meq 3 (ent3 m) ident -> good (mf3 m) -> inv3 coord m.
Proof.
  intros H G. split; [apply (rotation_ext _ _ (meq_sym _ _ _ H)), rotation_ident|]. split; [exact G|]. intros _ _.
  rewrite (id_defect_ext _ _ _ H), id_defect_ident. apply Rlt_le, tol_pos.
Qed.
Lemma inv3_mul coord a b : inv3 coord a -> inv3 coord b -> inv3 coord (m3_mul a b).
Proof.
  intros Ha Hb. destruct (fIdentity (mf3 a)) eqn:Ea; [unfold m3_mul; rewrite Ea; exact Hb|].
  destruct (fIdentity (mf3 b)) eqn:Eb; [unfold m3_mul; rewrite Ea, Eb; exact Ha|].
  destruct Ha as (Ra & Ga & _), Hb as (Rb & Gb & _).
  assert (F : mf3 (m3_mul a b) = flags_and (mf3 a) (mf3 b)) by (unfold m3_mul; rewrite Ea, Eb; reflexivity).
  split; [apply (rotation_ext _ _ (meq_sym _ _ _ (m3_mul_raw a b Ea Eb))), rotation_mul; assumption|].
  rewrite F. split; [apply good_and; assumption|]. intros _. unfold flags_and. cbn. rewrite Ea. discriminate.
Qed.
Lemma inv3_mulAssign coord a b : inv3 coord a -> inv3 coord b -> inv3 coord (m3_mulAssign a b).
Proof.
  intros Ha Hb. destruct (fIdentity (mf3 b)) eqn:Eb; [unfold m3_mulAssign; rewrite Eb; exact Ha|].
  destruct (fIdentity (mf3 a)) eqn:Ea; [unfold m3_mulAssign; rewrite Ea, Eb; exact Hb|].
  rewrite m3_mulAssign_raw by assumption. apply inv3_mul; assumption.
Qed.
Lemma inv3_rotated coord a b : inv3 coord a -> inv3 coord b -> inv3 coord (m3_rotated_mat a b).
Proof.
  intros Ha Hb. destruct (fIdentity (mf3 b)) eqn:Eb; [unfold m3_rotated_mat; rewrite Eb; exact Ha|].
  destruct (fIdentity (mf3 a)) eqn:Ea; [unfold m3_rotated_mat; rewrite Ea, Eb; exact Hb|].
  destruct (m3_rotated_raw a b Ea Eb) as [F E]. destruct (inv3_mul coord b a Hb Ha) as (Rm & G & I).
  split; [exact (rotation_ext _ _ (meq_sym _ _ _ E) Rm)|]. rewrite F. split; [exact G|].
  intros C Fi. rewrite (id_defect_ext _ _ _ E). exact (I C Fi).
Qed.
Lemma inv3_quat coord q : qnorm2 q = 1 -> inv3 coord (m3_of_quat q).
Proof. intros H. apply inv3_exact; [apply m3_of_quat_rotation; exact H|apply m3_of_quat_exact]. Qed.
Lemma inv3_axis coord u a : u <> zero3 -> inv3 coord (m3_rotation u a).
Proof. intros H. apply inv3_exact; [apply m3_rotation_spec; exact H|apply m3_optimized]. Qed.
Lemma inv3_two coord e u a v m : m3_set_two e u a v = Ok m -> inv3 coord m.
Proof.
  intros E. assert (Id : inv3 coord m3_setIdentity) by (apply inv3_id; [entries3; reflexivity|repeat split]).
  destruct (classic_zero3 u) as [Z|Z]; [rewrite m3_set_two_degenerate in E by (left; exact Z); injection E as <-; exact Id|].
  destruct (classic_zero3 (cross3 v u)) as [Z'|Z']; [rewrite m3_set_two_degenerate in E by (right; exact Z'); injection E as <-; exact Id|].
  assert (K : coord_vec e <> None /\ coord_vec a <> None /\ e <> a).
  { revert E. unfold m3_set_two. rops. rewrite null3_f by exact Z. rewrite normalized_unitv by exact Z. rewrite v3_cross_eq.
    rewrite null3_f. 2: { rewrite cross_unitv by exact Z. intros F. apply Z'. apply (smul3_zero (/ norm3 u)); [|exact F]. apply Rinv_neq_0_compat. pose proof (norm3_pos u Z). lra. }
    destruct e, a; intros E; try discriminate; repeat split; discriminate. }
  destruct K as (K1 & K2 & K3). destruct (m3_set_two_spec e u a v Z' K1 K2 K3) as (m' & w & E' & Ex & Rm & _).
  rewrite E in E'. injection E' as <-. apply inv3_exact; assumption.
Qed.
Lemma inv3_coord coord c a m : m3_rotation_coord c a = Ok m -> inv3 coord m.
Proof.
  intros E. destruct (coord_vec c) as [n|] eqn:Ec.
  - destruct (m3_rotation_coord_spec c n a Ec) as (m' & E' & Ex & Rm & _). rewrite E in E'. injection E' as <-. apply inv3_exact; assumption.
  - destruct c; try discriminate.
Qed.
(** Around a coordinate axis. *)
Lemma m3_rotated_coord_eq m c a r : m3_rotated_coord m c a = Ok r -> exists k, m3_rotation_coord c a = Ok k /\
  meq 3 (ent3 r) (mmul 3 (ent3 k) (ent3 m)) /\ mf3 r = mf3 m.
Proof.
  unfold m3_rotated_coord, m3_rotation_coord. destruct c; cbn zeta; intros E; try discriminate; injection E as <-;
    (eexists; split; [reflexivity|]; rewrite ent3_optimize; split; [entries3; msimp; ring|reflexivity]).
Qed.
Lemma m3_rotatedPre_coord_eq m c a r : m3_rotatedPre_coord m c a = Ok r -> exists k, m3_rotation_coord c a = Ok k /\
  meq 3 (ent3 r) (mmul 3 (ent3 m) (ent3 k)) /\ mf3 r = mf3 m.
Proof.
  unfold m3_rotatedPre_coord, m3_rotation_coord. destruct c; cbn zeta; intros E; try discriminate; injection E as <-;
    (eexists; split; [reflexivity|]; rewrite ent3_optimize; split; [entries3; msimp; ring|reflexivity]).
Qed.
Lemma inv3_transposed coord m : inv3 coord m -> inv3 coord (m3_transposed m).
Proof.
  intros (Rm & G & I). split; [apply (rotation_ext _ _ (meq_sym _ _ _ (ent3_transposed m))), rotation_trans; exact Rm|].
  split; [exact G|]. intros C F. rewrite (id_defect_ext _ _ _ (ent3_transposed m)), id_defect_trans. apply I; assumption.
Qed.
Lemma m3_one_flags : mf3 m3_one = mkFlags true true true false false.
Proof. unfold m3_one, m3_scalar. rops. cbn [mf3]. rewrite Reqb_t by reflexivity. reflexivity. Qed.
Lemma q_of_rot m : rotation (ent3 m) -> qnorm2 (q_of_mat3 m) = 1.
Proof. intros H. apply q_of_mat3_spec; exact H. Qed.
Lemma built3_inv coord m : built3 coord m -> inv3 coord m.
Proof.
  induction 1 as [| |q Hq|u a Hu|c a m E|e u a v m E|m n _ IHm _ IHn|m n _ IHm _ IHn|m n _ IHm _ IHn|m q _ IH Hq|m u a _ IH Hu|m q _ IH Hq|m u a _ IH Hu
    |m c a r Hc _ IH E|m c a r Hc _ IH E|m _ IH|m r _ IH E|m r _ IH E|m n w r _ IHm _ IHn E|m n w r _ IHm _ IHn E|m _ IH|m _ IH].
  - apply inv3_id; [entries3; reflexivity|rewrite m3_one_flags; repeat split].
  - apply inv3_id; [entries3; reflexivity|repeat split].
  - apply inv3_quat; exact Hq.
  - apply inv3_axis; exact Hu.
  - exact (inv3_coord _ _ _ _ E).
  - exact (inv3_two _ _ _ _ _ _ E).
  - apply inv3_mul; assumption.
  - apply inv3_mulAssign; assumption.
  - apply inv3_rotated; assumption.
  - apply inv3_rotated; [exact IH|apply inv3_quat; exact Hq].
  - apply inv3_rotated; [exact IH|apply inv3_axis; exact Hu].
  - apply inv3_mulAssign; [exact IH|apply inv3_quat; exact Hq].
  - apply inv3_mulAssign; [exact IH|apply inv3_axis; exact Hu].
  - destruct (m3_rotated_coord_eq m c a r E) as (k & Ek & Er & F). destruct IH as (Rm & G & _).
    split; [|rewrite F; split; [exact G|congruence]].
    apply (rotation_ext _ _ (meq_sym _ _ _ Er)), rotation_mul; [|exact Rm]. apply (inv3_coord coord _ _ _ Ek).
  - destruct (m3_rotatedPre_coord_eq m c a r E) as (k & Ek & Er & F). destruct IH as (Rm & G & _).
    split; [|rewrite F; split; [exact G|congruence]].
    apply (rotation_ext _ _ (meq_sym _ _ _ Er)), rotation_mul; [exact Rm|]. apply (inv3_coord coord _ _ _ Ek).
  - apply inv3_transposed; exact IH.
  - destruct IH as (Rm & G & I). rewrite (proj2 (m3_invert_cases m)) in E by (destruct G as (N & O & _); unfold isOrthonormalF; rewrite N, O; reflexivity).
    injection E as <-. apply inv3_transposed. repeat split; assumption || apply Rm || apply G.
  - destruct IH as (Rm & G & I). assert (D : det 3 (ent3 m) = 1) by apply Rm.
    destruct (proj2 (m3_inversed_spec m) ltac:(lra)) as (r' & E' & Iv). rewrite E in E'. injection E' as <-.
    apply inv3_exact; [exact (rotation_inverse _ _ Rm Iv)|].
    unfold m3_inversed in E. rewrite m3_det_eq, D in E. revert E. unfold m3_div. rops. rlit. intros [= <-]. apply m3_optimized.
  - unfold m3_slerp in E. destruct (q_slerp _ _ _) as [q| |] eqn:Eq; cbn [bind] in E; [|discriminate|discriminate]. injection E as <-.
    apply inv3_quat. eapply q_slerp_unit; [| |exact Eq]; apply q_of_rot; [apply IHm|apply IHn].
  - unfold m3_slerpMaxAngle in E. destruct (q_slerpMaxAngle _ _ _) as [q| |] eqn:Eq; cbn [bind] in E; [|discriminate|discriminate]. injection E as <-.
    apply inv3_quat. eapply q_slerpMaxAngle_unit; [| |exact Eq]; apply q_of_rot; [apply IHm|apply IHn].
  - unfold m3_orthonormalise. rewrite q_normalize_unit by (apply q_of_rot, IH). apply inv3_quat, q_of_rot, IH.
  - apply inv3_exact; [apply IH|apply m3_optimized].
Qed.

(** * Mat4 *)
Definition inv4 (m : Mat4 R) : Prop :=
  rigid1 (ent4 m) /\ good (mf4 m) /\ fTrs (mf4 m) = true /\ (fIdentity (mf4 m) = true -> id_defect 4 (ent4 m) <= tol).
Lemma meq43 A B : meq 4 A B -> meq 3 A B.
Proof. intros H i j Hi Hj. apply H; lia. Qed.
Lemma trs_ext A B : meq 4 A B -> trs A -> trs B.
Proof. intros H (H0 & H1 & H2 & H3). unfold trs. rewrite <- !H by lia. auto. Qed.
Lemma rigid1_ext A B : meq 4 A B -> rigid1 A -> rigid1 B.
Proof. intros H [R1 T]. split; [exact (rotation_ext _ _ (meq43 _ _ H) R1)|exact (trs_ext _ _ H T)]. Qed.
Lemma mmul43 A B : trs B -> meq 3 (mmul 4 A B) (mmul 3 A B).
Proof.
  intros (H0 & H1 & H2 & _) i j Hi Hj. unfold mmul. cbn [sumf].
  assert (E : B 3%nat j = 0) by (destruct j as [|[|[|j]]]; [assumption|assumption|assumption|lia]).
  rewrite E. ring.
Qed.
Lemma trs_mul A B : trs A -> trs B -> trs (mmul 4 A B).
Proof.
  intros (A0 & A1 & A2 & A3) (B0 & B1 & B2 & B3). unfold trs, mmul. cbn [sumf].
  rewrite A0, A1, A2, A3, B0, B1, B2, B3. repeat split; ring.
Qed.
Lemma rigid1_mul A B : rigid1 A -> rigid1 B -> rigid1 (mmul 4 A B).
Proof.
  intros [RA TA] [RB TB]. split; [|apply trs_mul; assumption].
  apply (rotation_ext _ _ (meq_sym _ _ _ (mmul43 A B TB))), rotation_mul; assumption.
Qed.
Lemma inv4_optimized m : rigid1 (ent4 m) -> inv4 (m4_optimize m).
Proof.
  intros [Rm T]. destruct (m4_optimize_exact tol_default m T) as (N & Or & I & Tr & U).
  destruct Rm as [Om Dm]. destruct (proj1 (orthonormal_defects 3 (ent4 m)) Om) as [D1 D2]. pose proof tol_pos.
  fold (@m4_optimize R R_ops m) in N, Or, I, Tr, U.
  assert (P : tolNormal tol_default = tol /\ tolOrthogonal tol_default = tol /\ tolIdentity tol_default = tol) by (repeat split).
  destruct P as (P1 & P2 & P3). rewrite P1 in *. rewrite P2 in *. rewrite P3 in *.
  split; [split; [split|]; assumption|]. split; [split; [apply N; lra|split; [apply Or; lra|exact U]]|]. split; [exact Tr|].
  intros F. apply I in F. rewrite ent4_optimize. apply F.
Qed.
Lemma inv4_id m : meq 4 (ent4 m) ident -> good (mf4 m) -> fTrs (mf4 m) = true -> inv4 m.
Proof.
  intros H G Tr. split.
  { split; [apply (rotation_ext _ _ (meq_sym _ _ _ (meq43 _ _ H))), rotation_ident|].
    apply (trs_ext _ _ (meq_sym _ _ _ H)). repeat split. }
  split; [exact G|]. split; [exact Tr|]. intros _. rewrite (id_defect_ext _ _ _ H), id_defect_ident. apply Rlt_le, tol_pos.
Qed.
Lemma inv4_mul a b : inv4 a -> inv4 b -> inv4 (m4_mul a b).
Proof.
  intros Ha Hb. destruct (fIdentity (mf4 a)) eqn:Ea; [unfold m4_mul; rewrite Ea; exact Hb|].
  destruct (fIdentity (mf4 b)) eqn:Eb; [unfold m4_mul; rewrite Ea, Eb; exact Ha|].
  destruct Ha as (Ra & Ga & Ta & _), Hb as (Rb & Gb & Tb & _).
  assert (F : mf4 (m4_mul a b) = flags_and (mf4 a) (mf4 b)) by (unfold m4_mul; rewrite Ea, Eb; reflexivity).
  split; [apply (rigid1_ext _ _ (meq_sym _ _ _ (m4_mul_raw a b Ea Eb))), rigid1_mul; assumption|].
  rewrite F. split; [apply good_and; assumption|]. unfold flags_and. cbn. rewrite Ea, Ta, Tb. split; [reflexivity|discriminate].
Qed.
Lemma inv4_transform a b : inv4 a -> inv4 b -> inv4 (m4_transform a b).
Proof.
  intros Ha Hb. unfold m4_transform. destruct (fIdentity (mf4 b)); [exact Ha|]. destruct (fIdentity (mf4 a)); [exact Hb|].
  apply inv4_mul; assumption.
Qed.
Lemma inv4_transformPre a b : inv4 a -> inv4 b -> inv4 (m4_transformPre a b).
Proof.
  intros Ha Hb. unfold m4_transformPre. destruct (fIdentity (mf4 b)); [exact Ha|]. destruct (fIdentity (mf4 a)); [exact Hb|].
  apply inv4_mul; assumption.
Qed.
Lemma rigid1_block A B : meq 3 A B -> trs A -> rotation B -> rigid1 A.
Proof. intros H T Rb. split; [exact (rotation_ext _ _ (meq_sym _ _ _ H) Rb)|exact T]. Qed.
(** The 3 by 3 block of the Mat4 constructors is the Mat3 of the same name. *)
Lemma m4_of_quat_block q t : meq 3 (ent4 (m4_of_quat q t)) (ent3 (m3_of_quat q)) /\ trs (ent4 (m4_of_quat q t)).
Proof. split; [entries3; reflexivity|repeat split; reflexivity]. Qed.
Lemma m4_rotation_block u a : meq 3 (ent4 (m4_rotation u a)) (ent3 (m3_rotation u a)) /\ trs (ent4 (m4_rotation u a)).
Proof. split; [entries3; reflexivity|repeat split; reflexivity]. Qed.
Lemma inv4_quat q t : qnorm2 q = 1 -> inv4 (m4_of_quat q t).
Proof.
  intros H. apply inv4_optimized. destruct (m4_of_quat_block q t) as [B T].
  apply (rigid1_block _ (ent3 (m3_of_quat q))); [exact B|exact T|apply m3_of_quat_rotation; exact H].
Qed.
Lemma inv4_axis u a : u <> zero3 -> inv4 (m4_rotation u a).
Proof.
  intros H. apply inv4_optimized. destruct (m4_rotation_block u a) as [B T].
  apply (rigid1_block _ (ent3 (m3_rotation u a))); [exact B|exact T|apply m3_rotation_spec; exact H].
Qed.
Lemma m4_rotation_coord_block c a m : m4_rotation_coord c a = Ok m -> exists k m', m3_rotation_coord c a = Ok k /\ m = m4_optimize m' /\
  meq 3 (ent4 m') (ent3 k) /\ trs (ent4 m').
Proof.
  unfold m4_rotation_coord, m3_rotation_coord. destruct c; cbn zeta; intros E; try discriminate; injection E as <-;
    (eexists; eexists; split; [reflexivity|]; split; [reflexivity|]; split; [entries3; reflexivity|repeat split; reflexivity]).
Qed.
Lemma inv4_coord c a m : m4_rotation_coord c a = Ok m -> inv4 m.
Proof.
  intros E. destruct (m4_rotation_coord_block c a m E) as (k & m' & Ek & -> & B & T). apply inv4_optimized.
  apply (rigid1_block _ (ent3 k)); [exact B|exact T|]. apply (inv3_coord true _ _ _ Ek).
Qed.
Lemma m4_set_two_block e u a v m : m4_set_two e u a v = Ok m ->
  m = m4_setIdentity \/ exists k m', m3_set_two e u a v = Ok k /\ m = m4_optimize m' /\ meq 3 (ent4 m') (ent3 k) /\ trs (ent4 m').
Proof.
  unfold m4_set_two, m3_set_two. destruct (_ && _)%bool; [intros [= <-]; left; reflexivity|]. cbn zeta.
  destruct (_ && _)%bool; [intros [= <-]; left; reflexivity|].
  destruct e, a; intros E; try discriminate; injection E as <-; right;
    (eexists; eexists; split; [reflexivity|]; split; [reflexivity|]; split; [entries3; reflexivity|repeat split; reflexivity]).
Qed.
Lemma inv4_two e u a v m : m4_set_two e u a v = Ok m -> inv4 m.
Proof.
  intros E. destruct (m4_set_two_block e u a v m E) as [->|(k & m' & Ek & -> & B & T)].
  - apply inv4_id; [entries4; reflexivity|repeat split|reflexivity].
  - apply inv4_optimized. apply (rigid1_block _ (ent3 k)); [exact B|exact T|]. apply (inv3_two true _ _ _ _ _ Ek).
Qed.
Lemma v3_isNull_true u : v3_isNull u = true -> u = zero3.
Proof.
  unfold v3_isNull. rops. rewrite !andb_true_iff, !Reqb_true. destruct u; cbn. intros [[-> ->] ->]. reflexivity.
Qed.
Lemma inv4_translation m d f : inv4 m -> (f = mf4 m /\ d = zero3 \/ f = flags_clear_identity (mf4 m) true) ->
  inv4 (mkM4 (mx4 m) (my4 m) (mz4 m) (v4_add_v3 (mt4 m) d) f).
Proof.
  intros (Rm & G & Tr & I) F.
  assert (R1 : rigid1 (ent4 (mkM4 (mx4 m) (my4 m) (mz4 m) (v4_add_v3 (mt4 m) d) f))).
  { destruct Rm as [Rm T]. split; [|destruct T as (T0 & T1 & T2 & T3); repeat split; assumption].
    revert Rm. apply rotation_ext. entries3; reflexivity. }
  split; [exact R1|]. destruct F as [[-> ->]| ->].
  - split; [exact G|]. split; [exact Tr|]. intros Fi. rewrite (id_defect_ext 4 _ (ent4 m)); [exact (I Fi)|].
    unfold v4_add_v3, zero3. entries4; msimp; ring.
  - cbn [mf4]. unfold flags_clear_identity. split; [exact G|]. split; [exact Tr|]. discriminate.
Qed.
Lemma applyVector_zero m : m4_applyVector3 m zero3 = zero3.
Proof. unfold m4_applyVector3, zero3. rops. cbn. f_equal; ring. Qed.
Lemma inv4_translated m d : inv4 m -> inv4 (m4_set4 (mx4 m) (my4 m) (mz4 m) (v4_add (mt4 m) (v4_of_v3 d 0))).
Proof.
  intros (Rm & _). apply inv4_optimized. destruct Rm as [Rm (T0 & T1 & T2 & T3)]. split.
  - revert Rm. apply rotation_ext. entries3; reflexivity.
  - split; [exact T0|]. split; [exact T1|]. split; [exact T2|]. revert T3. mdes4 m. unfold v4_add, v4_of_v3. msimp. intros ->. ring.
Qed.

Lemma rigid1_rigid A : rigid1 A -> rigid A.
Proof. intros [[Om _] T]. split; assumption. Qed.
(** The inverse written out. *)
Definition rinv (A : mat) : mat := fun i j =>
  if Nat.ltb i 3 then if Nat.ltb j 3 then A j i else - sumf 3 (fun k => A k i * A k 3%nat)
  else if Nat.ltb j 3 then 0 else 1.
Lemma rinv_rigid A : rigid1 A -> rigid1 (rinv A).
Proof.
  intros [Rm _]. split; [|repeat split]. apply (rotation_ext (mtrans A)); [|apply rotation_trans; exact Rm].
  entries3; reflexivity.
Qed.
Lemma rinv_defect A : rigid1 A -> id_defect 4 (rinv A) = id_defect 4 A.
Proof.
  intros [[Om _] (T0 & T1 & T2 & T3)]. pose proof (orthonormal_trans3 _ Om) as Ot.
  (* |R^T t| = |t| *)
  assert (L : sumf 3 (fun i => sumf 3 (fun k => A k i * A k 3%nat) * sumf 3 (fun k => A k i * A k 3%nat))
              = sumf 3 (fun i => A i 3%nat * A i 3%nat)).
  { pose proof (Ot 0%nat 0%nat) as H00. pose proof (Ot 0%nat 1%nat) as H01. pose proof (Ot 0%nat 2%nat) as H02.
    pose proof (Ot 1%nat 1%nat) as H11. pose proof (Ot 1%nat 2%nat) as H12. pose proof (Ot 2%nat 2%nat) as H22.
    specialize (H00 ltac:(lia) ltac:(lia)). specialize (H01 ltac:(lia) ltac:(lia)). specialize (H02 ltac:(lia) ltac:(lia)).
    specialize (H11 ltac:(lia) ltac:(lia)). specialize (H12 ltac:(lia) ltac:(lia)). specialize (H22 ltac:(lia) ltac:(lia)).
    unfold mmul, mtrans, ident in *. cbn [sumf Nat.eqb] in *.
    set (a := A 0%nat 3%nat). set (b := A 1%nat 3%nat). set (c := A 2%nat 3%nat). clearbody a b c.
    apply (f_equal (Rmult (a * a))) in H00. apply (f_equal (Rmult (b * b))) in H11. apply (f_equal (Rmult (c * c))) in H22.
    apply (f_equal (Rmult (a * b))) in H01. apply (f_equal (Rmult (a * c))) in H02. apply (f_equal (Rmult (b * c))) in H12. lra. }
  unfold id_defect, fro2, msub, rinv, ident. cbn [sumf Nat.eqb Nat.ltb Nat.leb]. rewrite T0, T1, T2, T3.
  cbn [sumf] in L. lra.
Qed.
Lemma inv4_rinv m r : inv4 m -> mf4 r = mf4 m -> meq 4 (ent4 r) (rinv (ent4 m)) -> inv4 r.
Proof.
  intros (Rm & G & Tr & I) F E. split; [apply (rigid1_ext _ _ (meq_sym _ _ _ E)), rinv_rigid; exact Rm|].
  rewrite F. split; [exact G|]. split; [exact Tr|]. intros Fi. rewrite (id_defect_ext _ _ _ E), rinv_defect by exact Rm. exact (I Fi).
Qed.
Lemma inv4_on m : inv4 m -> isOrthonormalF (mf4 m) = true.
Proof. intros (_ & (N & O & _) & _). unfold isOrthonormalF. rewrite N, O. reflexivity. Qed.
Lemma inv4_invert m : inv4 m -> inv4 (m4_invert m).
Proof.
  intros H. apply (inv4_rinv m); [exact H| |]; unfold m4_invert; rewrite (inv4_on m H); [reflexivity|].
  destruct H as ((_ & T) & _). destruct T as (T0 & T1 & T2 & T3). mdes4 m. mcbn. subst. unfold rinv.
  entries4; cbn; rops; try reflexivity; ring.
Qed.
Lemma inv4_inversed m r : inv4 m -> m4_inversed m = Ok r -> inv4 r.
Proof.
  intros H. unfold m4_inversed. rewrite (inv4_on m H). intros [= <-]. apply (inv4_rinv m); [exact H|reflexivity|].
  unfold rinv. entries4; cbn; rops; try reflexivity; ring.
Qed.
Lemma m4_one_flags : mf4 m4_one = mkFlags true true true true false.
Proof. unfold m4_one, m4_scalar. rops. cbn [mf4]. rewrite Reqb_t by reflexivity. reflexivity. Qed.
Lemma built4_inv m : built4 m -> inv4 m.
Proof.
  induction 1 as [| |q t Hq|u a Hu|c a m E|e u a v m E|m n _ IHm _ IHn|m n _ IHm _ IHn|m n _ IHm _ IHn|m q _ IH Hq|m u a _ IH Hu|m c a r _ IH E
    |m q _ IH Hq|m u a _ IH Hu|m c a r _ IH E|m u _ IH|m u _ IH|m u _ IH|m u _ IH|m _ IH|m r _ IH E|m _ IH|m _ IH].
  - apply inv4_id; [entries4; reflexivity|rewrite m4_one_flags; repeat split|rewrite m4_one_flags; reflexivity].
  - apply inv4_id; [entries4; reflexivity|repeat split|reflexivity].
  - apply inv4_quat; exact Hq.
  - apply inv4_axis; exact Hu.
  - exact (inv4_coord _ _ _ E).
  - exact (inv4_two _ _ _ _ _ E).
  - apply inv4_mul; assumption.
  - apply inv4_transform; assumption.
  - apply inv4_transformPre; assumption.
  - apply inv4_transform; [exact IH|apply inv4_quat; exact Hq].
  - apply inv4_transform; [exact IH|apply inv4_axis; exact Hu].
  - unfold m4_rotate_coord in E. destruct (m4_rotation_coord c a) as [k| |] eqn:Ek; cbn [bind] in E; [|discriminate|discriminate].
    injection E as <-. apply inv4_transform; [exact IH|exact (inv4_coord _ _ _ Ek)].
  - apply inv4_transformPre; [exact IH|apply inv4_quat; exact Hq].
  - apply inv4_transformPre; [exact IH|apply inv4_axis; exact Hu].
  - unfold m4_rotatePre_coord in E. destruct (m4_rotation_coord c a) as [k| |] eqn:Ek; cbn [bind] in E; [|discriminate|discriminate].
    injection E as <-. apply inv4_transformPre; [exact IH|exact (inv4_coord _ _ _ Ek)].
  - apply inv4_translation; [exact IH|]. destruct (v3_isNull u) eqn:En; [left|right; reflexivity]. split; [reflexivity|apply v3_isNull_true; exact En].
  - apply inv4_translated; exact IH.
  - apply inv4_translation; [exact IH|]. destruct (v3_isNull u) eqn:En; [left|right; reflexivity]. split; [reflexivity|].
    rewrite (v3_isNull_true u En). apply applyVector_zero.
  - apply inv4_translated; exact IH.
  - apply inv4_invert; exact IH.
  - exact (inv4_inversed _ _ IH E).
  - destruct IH as ((Rm & T) & _). unfold m4_orthonormalise.
    set (m3 := mkM3 (v4_toVec3 (mx4 m)) (v4_toVec3 (my4 m)) (v4_toVec3 (mz4 m)) flags_uninit).
    assert (R3 : rotation (ent3 m3)) by (revert Rm; apply rotation_ext; entries3; reflexivity).
    change (q_of_columns (v4_toVec3 (mx4 m)) (v4_toVec3 (my4 m)) (v4_toVec3 (mz4 m))) with (q_of_mat3 m3).
    rewrite q_normalize_unit by (apply q_of_rot; exact R3). apply inv4_quat, q_of_rot, R3.
  - apply inv4_optimized. apply IH.
Qed.
