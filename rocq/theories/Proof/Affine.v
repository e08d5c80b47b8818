(** Affine transforms: Mat34 and Mat4 acting on points. *)
From Coq Require Import Reals ZArith Arith Lra Lia Bool Psatz List.
From Verif.Base Require Import Outcome Array Wp Scalar ScalarR RFacts.
From Verif.Model Require Import Types Functions Vec Mat2 Mat3 Quat Mat4 Mat34.
From Verif.Spec Require Import LinAlg VecSpec MatSpec QuatSpec History ArraySpec.
From Verif.Proof Require Import FunctionsProofs LinAlgFacts VecFacts VecProofs MatFacts MatProofs MatFlags MatInverse MatInverse4 MatRotation QuatProofs QuatArc QuatSlerp MatHistory MatMore QuatMore MatExamples.
Local Open Scope R_scope.

Lemma m34_apply_eq m u : m34_apply m u = image (ent34 m) u.
Proof. destruct m as [[[? ? ?] [? ? ?] [? ? ?] f] [? ? ?]], u as [? ? ?]. unfold m34_apply, image, ent34. cbn. rops. f_equal; ring. Qed.
Lemma m4_apply3_eq m u : m4_apply3 m u = image (ent4 m) u.
Proof. mdes4 m. destruct u as [? ? ?]. unfold m4_apply3, image. cbn. rops. f_equal; ring. Qed.
Lemma m4_applyVector3_eq m u : m4_applyVector3 m u = image_dir (ent4 m) u.
Proof. mdes4 m. destruct u as [? ? ?]. unfold m4_applyVector3, image_dir. cbn. rops. f_equal; ring. Qed.
Lemma m3_apply_dir m u : m3_apply m u = image_dir (ent3 m) u.
Proof. mdes3 m. destruct u as [? ? ?]. unfold m3_apply, image_dir. cbn. rops. f_equal; ring. Qed.
Lemma m4_applyVector4_eq m u i : (i < 4)%nat ->
  vent4 (m4_applyVector4 m u) i = mulv 4 (ent4 m) (vent4 (mkV4 (x4 u) (y4 u) (z4 u) 0)) i.
Proof.
  intros H. mdes4 m. destruct u as [? ? ? ?]. destruct i as [|[|[|[|i]]]]; [| | | |lia];
  unfold m4_applyVector4, mulv; cbn; rops; ring.
Qed.

Lemma image_ext A B u : meq 4 A B -> image A u = image B u.
Proof.
  intros H. unfold image. cbv zeta. rewrite !(H 0%nat), !(H 1%nat), !(H 2%nat) by lia. reflexivity.
Qed.
Lemma image_dir_ext A B u : meq 3 A B -> image_dir A u = image_dir B u.
Proof.
  intros H. unfold image_dir. cbv zeta. rewrite !(H 0%nat), !(H 1%nat), !(H 2%nat) by lia. reflexivity.
Qed.
Lemma image_mmul A B u : trs B -> image (mmul 4 A B) u = image A (image B u).
Proof.
  intros (H0 & H1 & H2 & H3). unfold image, mmul. cbn [sumf x3 y3 z3]. rewrite H0, H1, H2, H3. f_equal; ring.
Qed.
Lemma image_ident u : image ident u = u.
Proof. destruct u as [? ? ?]. unfold image, ident. cbn. f_equal; ring. Qed.
Lemma trs34 m : trs (ent34 m).
Proof. unfold trs, ent34, ident. cbn. tauto. Qed.

(** * Mat34 *)
Lemma m34_mul_ent a b : tid3 (rs34 a) -> tid3 (rs34 b) -> meq 4 (ent34 (m34_mul a b)) (mmul 4 (ent34 a) (ent34 b)).
Proof.
  intros Ha Hb. pose proof (m3_mul_eq _ _ Ha Hb) as M. intros i j Hi Hj. unfold ent34 at 1. cbn [m34_mul rs34 t34].
  destruct (Nat.ltb_spec i 3) as [I|I].
  - destruct (Nat.ltb_spec j 3) as [J|J].
    + rewrite M by assumption. unfold mmul. cbn [sumf]. unfold ent34. rewrite (proj2 (Nat.ltb_lt i 3) I), (proj2 (Nat.ltb_lt j 3) J).
      cbn. unfold ident. destruct j as [|[|[|j]]]; [| | |lia]; cbn; ring.
    + assert (j = 3)%nat by lia. subst j. unfold mmul. cbn [sumf]. unfold ent34. rewrite (proj2 (Nat.ltb_lt i 3) I). cbn.
      destruct i as [|[|[|i]]]; [| | |lia]; cbn; rops; unfold ident; cbn; ring.
  - assert (i = 3)%nat by lia. subst i. unfold mmul. cbn [sumf]. unfold ent34, ident. cbn.
    destruct j as [|[|[|[|j]]]]; [| | | |lia]; cbn; ring.
Qed.
Lemma m34_mul_image a b u : tid3 (rs34 a) -> tid3 (rs34 b) -> m34_apply (m34_mul a b) u = m34_apply a (m34_apply b u).
Proof.
  intros Ha Hb. rewrite !m34_apply_eq, (image_ext _ _ u (m34_mul_ent a b Ha Hb)). apply image_mmul, trs34.
Qed.
Lemma m34_mk rs t u : m34_apply (mkM34 rs t) u = plus3 (image_dir (ent3 rs) u) t.
Proof. rewrite m34_apply_eq. unfold image, image_dir, plus3, ent34. cbn. f_equal; ring. Qed.
Lemma m34_split m u : m34_apply m u = plus3 (image_dir (ent3 (rs34 m)) u) (t34 m).
Proof. destruct m. apply m34_mk. Qed.
Lemma dir_mmul A B u : image_dir (mmul 3 A B) u = image_dir A (image_dir B u).
Proof. unfold image_dir, mmul. cbn [sumf x3 y3 z3]. f_equal; ring. Qed.
Lemma dir_plus A u v : image_dir A (plus3 u v) = plus3 (image_dir A u) (image_dir A v).
Proof. unfold image_dir, plus3. cbn. f_equal; ring. Qed.
Lemma v3_add_eq u v : v3_add u v = plus3 u v. Proof. reflexivity. Qed.
Lemma plus3_assoc u v w : plus3 (plus3 u v) w = plus3 u (plus3 v w).
Proof. unfold plus3. cbn. f_equal; ring. Qed.
Lemma plus3_comm u v : plus3 u v = plus3 v u.
Proof. unfold plus3. f_equal; ring. Qed.

Lemma m34_transform_image a m u : tid3 (rs34 a) -> tid3 (rs34 m) ->
  m34_apply (m34_transform a m) u = m34_apply m (m34_apply a u).
Proof.
  intros Ha Hm. unfold m34_transform. cbv zeta. rewrite m34_mk, (image_dir_ext _ _ u (m3_rotated_eq _ _ Ha Hm)), dir_mmul.
  rewrite !(m34_split m), (m34_split a), dir_plus, plus3_assoc. reflexivity.
Qed.
Lemma m34_transformPre_image a m u : tid3 (rs34 a) -> tid3 (rs34 m) ->
  m34_apply (m34_transformPre a m) u = m34_apply a (m34_apply m u).
Proof.
  intros Ha Hm. unfold m34_transformPre. cbv zeta. rewrite m34_mk, (image_dir_ext _ _ u (m3_mulAssign_eq _ _ Ha Hm)), dir_mmul.
  rewrite (m34_split a), (m34_split m), dir_plus, m3_apply_dir. rewrite plus3_assoc. f_equal. apply plus3_comm.
Qed.
Lemma m34_transform_m3_image a m u : tid3 (rs34 a) -> tid3 m ->
  m34_apply (m34_transform_m3 a m) u = m3_apply m (m34_apply a u).
Proof.
  intros Ha Hm. unfold m34_transform_m3. rewrite m34_mk, (image_dir_ext _ _ u (m3_rotated_eq _ _ Ha Hm)), dir_mmul.
  rewrite (m34_split a), !m3_apply_dir, dir_plus. reflexivity.
Qed.
Lemma m34_transformPre_m3_image a m u : tid3 (rs34 a) -> tid3 m ->
  m34_apply (m34_transformPre_m3 a m) u = m34_apply a (m3_apply m u) /\
  m34_apply (m34_mul_m3 a m) u = m34_apply a (m3_apply m u).
Proof.
  intros Ha Hm. unfold m34_transformPre_m3, m34_mul_m3.
  rewrite !m34_mk, (image_dir_ext _ _ u (m3_mulAssign_eq _ _ Ha Hm)), (image_dir_ext _ _ u (m3_mul_eq _ _ Ha Hm)), dir_mmul, (m34_split a), m3_apply_dir.
  tauto.
Qed.
Lemma m34_opp_image m u : m34_apply (m34_opp m) u = smul3 (-1) (m34_apply m u).
Proof.
  rewrite (m34_split m). unfold m34_opp. rewrite m34_mk. unfold m3_opp, m3_set. rewrite ent3_optimize.
  destruct m as [[[? ? ?] [? ? ?] [? ? ?] f] [? ? ?]]. unfold image_dir, plus3, smul3. cbn. rops. f_equal; ring.
Qed.
Lemma m34_one_image u : m34_apply m34_one u = u /\ m34_apply m34_setIdentity u = u.
Proof.
  rewrite !m34_apply_eq. unfold image, ent34. destruct u as [? ? ?]. cbn. rops. rlit. split; f_equal; ring.
Qed.
Lemma m34_set_image x y z t u : m34_apply (m34_set x y z t) u =
  plus3 (plus3 (plus3 (smul3 (x3 u) x) (smul3 (y3 u) y)) (smul3 (z3 u) z)) t.
Proof.
  unfold m34_set. rewrite m34_mk. unfold m3_set. rewrite ent3_optimize. unfold image_dir, plus3, smul3. cbn. f_equal; ring.
Qed.
Lemma m34_rotation_image axis a t u : axis <> zero3 ->
  m34_apply (m34_rotation axis a t) u = plus3 (rodrigues (smul3 (/ norm3 axis) axis) a u) t.
Proof.
  intros H. unfold m34_rotation. rewrite m34_mk, <- m3_apply_dir. f_equal.
  destruct (q_of_axis_spec axis a H) as (N & Q & M). rewrite <- (Q u), <- (proj2 (of_quat_turns _ N) u).
  rewrite !m3_apply_dir. symmetry. apply image_dir_ext. exact M.
Qed.
Lemma m34_of_quat_image q t u : qnorm2 q = 1 -> m34_apply (m34_of_quat q t) u = plus3 (qturn q u) t.
Proof. intros H. unfold m34_of_quat. rewrite m34_mk, <- m3_apply_dir, (proj2 (of_quat_turns _ H) u). reflexivity. Qed.

(** * Translation and scaling of Mat34 *)
Lemma m34_translate_image m d u : m34_apply (m34_translate m d) u = plus3 (m34_apply m u) d.
Proof. rewrite (m34_split m). unfold m34_translate. rewrite m34_mk, plus3_assoc. reflexivity. Qed.
Lemma m34_translatePre_image m d u : m34_apply (m34_translatePre m d) u = m34_apply m (plus3 u d).
Proof.
  rewrite (m34_split m). unfold m34_translatePre. rewrite m34_mk, dir_plus, m3_apply_dir. rewrite plus3_assoc. f_equal. apply plus3_comm.
Qed.
Lemma m3_scaled_dir m k u : image_dir (ent3 (m3_scaled m k)) u = image_dir (ent3 m) (stretch k u).
Proof.
  unfold m3_scaled. rewrite ent3_optimize. mdes3 m. unfold image_dir, stretch. cbn. rops. f_equal; ring.
Qed.
Lemma m34_scalePre_image m k u : m34_apply (m34_scalePre m k) u = m34_apply m (stretch k u).
Proof. rewrite (m34_split m). unfold m34_scalePre. rewrite m34_mk, m3_scaled_dir. reflexivity. Qed.
(** What scale needs to be right. *)
Lemma forall_affine (a b c d a' b' c' d' : R) :
  (forall x y z, a * x + b * y + c * z + d = a' * x + b' * y + c' * z + d') <-> a = a' /\ b = b' /\ c = c' /\ d = d'.
Proof.
  split.
  - intros H. pose proof (H 0 0 0). pose proof (H 1 0 0). pose proof (H 0 1 0). pose proof (H 0 0 1).
    split; [|split; [|split]]; lra.
  - intros (-> & -> & -> & ->). reflexivity.
Qed.
Definition commutes (A : mat) (k : Vec3 R) : Prop := forall i j, (i < 3)%nat -> (j < 3)%nat -> A i j * vent3 k j = vent3 k i * A i j.
Lemma scale_iff (A B : mat) k :
  (forall i j, (i < 3)%nat -> (j < 3)%nat -> B i j = A i j * vent3 k j) ->
  (forall i, (i < 3)%nat -> B i 3%nat = vent3 k i * A i 3%nat) ->
  ((forall u, image B u = stretch k (image A u)) <-> commutes A k).
Proof.
  intros HB HT. split.
  - intros H i j Hi Hj.
    assert (P : forall i, (i < 3)%nat -> forall x y z,
      B i 0%nat * x + B i 1%nat * y + B i 2%nat * z + B i 3%nat =
      (vent3 k i * A i 0%nat) * x + (vent3 k i * A i 1%nat) * y + (vent3 k i * A i 2%nat) * z + vent3 k i * A i 3%nat).
    { intros r Hr x y z. specialize (H (mkV3 x y z)). unfold image, stretch in H. cbn [x3 y3 z3] in H.
      injection H as H0 H1 H2. destruct r as [|[|[|r]]]; [| | |lia]; cbn [vent3]; lra. }
    specialize (P i Hi). apply forall_affine in P. destruct P as (P0 & P1 & P2 & _).
    rewrite <- HB by assumption. destruct j as [|[|[|j]]]; [| | |lia]; assumption.
  - intros H u. unfold image, stretch. cbn [x3 y3 z3].
    rewrite !HT, !HB, !H by lia. destruct k as [? ? ?]. cbn. f_equal; ring.
Qed.
Lemma m34_scale_iff m k :
  (forall u, m34_apply (m34_scale m k) u = stretch k (m34_apply m u)) <->
  (forall i j, (i < 3)%nat -> (j < 3)%nat -> ent3 (rs34 m) i j * vent3 k j = vent3 k i * ent3 (rs34 m) i j).
Proof.
  assert (S : (forall u, image (ent34 (m34_scale m k)) u = stretch k (image (ent34 m) u)) <-> commutes (ent34 m) k).
  { apply scale_iff.
    - intros i j Hi Hj. unfold ent34. rewrite (proj2 (Nat.ltb_lt i 3) Hi), (proj2 (Nat.ltb_lt j 3) Hj).
      unfold m34_scale, m3_scaled. cbn [rs34]. rewrite ent3_optimize. destruct m as [n t]. mdes3 n.
      destruct i as [|[|[|i]]]; [| | |lia]; (destruct j as [|[|[|j]]]; [| | |lia]); cbn; rops; reflexivity.
    - intros i Hi. unfold ent34. rewrite (proj2 (Nat.ltb_lt i 3) Hi). destruct m as [n t]. cbn.
      destruct i as [|[|[|i]]]; [| | |lia]; cbn; rops; ring. }
  split.
  - intros H i j Hi Hj. assert (C : commutes (ent34 m) k) by (apply S; intros u; rewrite <- !m34_apply_eq; apply H).
    specialize (C i j Hi Hj). unfold ent34 in C. rewrite (proj2 (Nat.ltb_lt i 3) Hi), (proj2 (Nat.ltb_lt j 3) Hj) in C. exact C.
  - intros H u. rewrite !m34_apply_eq. apply S. intros i j Hi Hj. unfold ent34.
    rewrite (proj2 (Nat.ltb_lt i 3) Hi), (proj2 (Nat.ltb_lt j 3) Hj). apply H; assumption.
Qed.
Lemma m4_scale_iff m k :
  ((forall u, m4_apply3 (m4_scale m k) u = stretch k (m4_apply3 m u)) <->
   (forall i j, (i < 3)%nat -> (j < 3)%nat -> ent4 m i j * vent3 k j = vent3 k i * ent4 m i j)) /\
  meq 4 (ent4 (m4_scaled m k)) (ent4 (m4_scale m k)).
Proof.
  assert (S : (forall u, image (ent4 (m4_scale m k)) u = stretch k (image (ent4 m) u)) <-> commutes (ent4 m) k).
  { apply scale_iff.
    - intros i j Hi Hj. mdes4 m. destruct k as [? ? ?].
      destruct i as [|[|[|i]]]; [| | |lia]; (destruct j as [|[|[|j]]]; [| | |lia]); cbn; rops; reflexivity.
    - intros i Hi. mdes4 m. destruct k as [? ? ?].
      destruct i as [|[|[|i]]]; [| | |lia]; cbn; rops; ring. }
  split.
  - split.
    + intros H i j Hi Hj. assert (C : commutes (ent4 m) k) by (apply S; intros u; rewrite <- !m4_apply3_eq; apply H). exact (C i j Hi Hj).
    + intros H u. rewrite !m4_apply3_eq. apply S. exact H.
  - unfold m4_scaled, m4_set4. rewrite ent4_optimize. entries4; reflexivity.
Qed.

(** * Mat4 *)
Lemma m4_translate_image m d u : m4_apply3 (m4_translate m d) u = plus3 (m4_apply3 m u) d.
Proof. mdes4 m. destruct u as [? ? ?], d as [? ? ?]. unfold m4_apply3, plus3, m4_translate, v4_add_v3. cbn. rops. f_equal; ring. Qed.
Lemma m4_translatePre_image m d u : m4_apply3 (m4_translatePre m d) u = m4_apply3 m (plus3 u d).
Proof. mdes4 m. destruct u as [? ? ?], d as [? ? ?]. unfold m4_apply3, plus3, m4_translatePre, v4_add_v3, m4_applyVector3. cbn. rops. f_equal; ring. Qed.
Lemma m4_scalePre_image m k u : m4_apply3 (m4_scalePre m k) u = m4_apply3 m (stretch k u).
Proof. mdes4 m. destruct u as [? ? ?], k as [? ? ?]. unfold m4_apply3, stretch, m4_scalePre. cbn. rops. f_equal; ring. Qed.
Lemma m4_copies m d k :
  meq 4 (ent4 (m4_translated m d)) (ent4 (m4_translate m d)) /\
  meq 4 (ent4 (m4_translatedPre m d)) (ent4 (m4_translatePre m d)) /\
  meq 4 (ent4 (m4_scaledPre m k)) (ent4 (m4_scalePre m k)).
Proof.
  unfold m4_translated, m4_translatedPre, m4_scaledPre, m4_set4. cbv zeta. rewrite !ent4_optimize.
  mdes4 m. destruct d as [? ? ?], k as [? ? ?].
  split; [|split]; entries4; cbn; rops; rlit; try reflexivity; try ring.
Qed.
Lemma m4_mul_image a b u : tid4 a -> tid4 b -> trs (ent4 b) -> m4_apply3 (m4_mul a b) u = m4_apply3 a (m4_apply3 b u).
Proof.
  intros Ha Hb T. rewrite !m4_apply3_eq, (image_ext _ _ u (m4_mul_eq a b Ha Hb)). apply image_mmul. exact T.
Qed.
Lemma m4_transform_image a m u : tid4 a -> tid4 m -> trs (ent4 a) -> m4_apply3 (m4_transform a m) u = m4_apply3 m (m4_apply3 a u).
Proof.
  intros Ha Hb T. rewrite !m4_apply3_eq, (image_ext _ _ u (m4_transform_eq a m Ha Hb)). apply image_mmul. exact T.
Qed.
Lemma m4_transformPre_image a m u : tid4 a -> tid4 m -> trs (ent4 m) -> m4_apply3 (m4_transformPre a m) u = m4_apply3 a (m4_apply3 m u).
Proof.
  intros Ha Hb T. rewrite !m4_apply3_eq, (image_ext _ _ u (m4_transformPre_eq a m Ha Hb)). apply image_mmul. exact T.
Qed.
Lemma m4_of_quat_image q t u : qnorm2 q = 1 -> m4_apply3 (m4_of_quat q t) u = plus3 (qturn q u) t.
Proof.
  intros H. rewrite m4_apply3_eq, <- (proj2 (of_quat_turns q H) u), m3_apply_dir.
  destruct (m4_of_quat_full q t) as (B & _ & T). unfold image, image_dir, plus3. cbn [x3 y3 z3].
  rewrite !(B 0%nat), !(B 1%nat), !(B 2%nat), !T by lia. reflexivity.
Qed.
Lemma m4_rotation_image axis a u : axis <> zero3 ->
  m4_apply3 (m4_rotation axis a) u = rodrigues (smul3 (/ norm3 axis) axis) a u.
Proof.
  intros H. destruct (q_of_axis_spec axis a H) as (N & Q & M). rewrite <- (Q u), <- (proj2 (of_quat_turns _ N) u), m3_apply_dir, m4_apply3_eq.
  rewrite (image_dir_ext _ _ u M). destruct (m4_rotation_full axis a) as (B & _ & T). unfold image, image_dir. cbn [x3 y3 z3].
  rewrite !(B 0%nat), !(B 1%nat), !(B 2%nat), !T by lia. f_equal; ring.
Qed.

(** * Inverse of Mat34 *)
Lemma inverse_dir A B u : inverse 3 A B -> image_dir A (image_dir B u) = u.
Proof.
  intros [H _]. rewrite <- dir_mmul, (image_dir_ext _ _ u H). destruct u as [? ? ?]. unfold image_dir, ident. cbn. f_equal; ring.
Qed.
Lemma inverse_sym n A B : inverse n A B -> inverse n B A. Proof. intros [H K]. split; assumption. Qed.
Lemma dir_smul A k u : image_dir A (smul3 k u) = smul3 k (image_dir A u).
Proof. unfold image_dir, smul3. cbn. f_equal; ring. Qed.
Lemma plus3_cancel u v : plus3 (plus3 u v) (smul3 (-1) v) = u.
Proof. destruct u as [? ? ?], v as [? ? ?]. unfold plus3, smul3. cbn. f_equal; ring. Qed.
Lemma plus3_zero u : plus3 u zero3 = u.
Proof. destruct u as [? ? ?]. unfold plus3, zero3. cbn. f_equal; ring. Qed.
Lemma v3_opp_eq u : v3_opp u = smul3 (-1) u.
Proof. destruct u as [? ? ?]. unfold v3_opp, smul3. cbn. rops. f_equal; ring. Qed.

Lemma inverse_pair (m : Mat34 R) rs t : inverse 3 (ent3 (rs34 m)) (ent3 rs) -> t = smul3 (-1) (image_dir (ent3 rs) (t34 m)) ->
  forall u, m34_apply (mkM34 rs t) (m34_apply m u) = u /\ m34_apply m (m34_apply (mkM34 rs t) u) = u.
Proof.
  intros I -> u. rewrite !m34_mk, !(m34_split m), !dir_plus, (inverse_dir _ _ u (inverse_sym _ _ _ I)), (inverse_dir _ _ u I).
  rewrite dir_smul, (inverse_dir _ _ (t34 m) I). split; [apply plus3_cancel|].
  rewrite plus3_assoc, (plus3_comm (smul3 _ _)), <- plus3_assoc, plus3_cancel. reflexivity.
Qed.
Lemma m3_transposed_inverse m : orthonormal 3 (ent3 m) -> inverse 3 (ent3 m) (ent3 (m3_transposed m)).
Proof.
  intros H. apply (inverse_ext _ _ _ _ (meq_sym _ _ _ (ent3_transposed m))). apply orthonormal_inverse3. exact H.
Qed.
Lemma row_dir m u : v3_mul_mat u m = image_dir (ent3 (m3_transposed m)) u.
Proof. rewrite <- m3_apply_dir. mdes3 m. destruct u as [? ? ?]. unfold v3_mul_mat, m3_apply. cbn. rops. f_equal; ring. Qed.
Lemma v3_isNull_zero t : v3_isNull t = true -> t = zero3.
Proof.
  destruct t as [x y z]. unfold v3_isNull. cbn. rops. intros H. apply andb_prop in H. destruct H as [H H3].
  apply andb_prop in H. destruct H as [H1 H2]. apply Reqb_true in H1, H2, H3. subst. reflexivity.
Qed.
Lemma m34_invert_spec m :
  (isOrthonormalF (mf3 (rs34 m)) = true -> orthonormal 3 (ent3 (rs34 m))) -> tid3 (rs34 m) ->
  det 3 (ent3 (rs34 m)) <> 0 ->
  exists r, m34_invert m = Ok r /\ forall u, m34_apply r (m34_apply m u) = u /\ m34_apply m (m34_apply r u) = u.
Proof.
  intros HO HI HD. unfold m34_invert. destruct (m34_isIdentity m) eqn:E1.
  - exists m. split; [reflexivity|]. unfold m34_isIdentity in E1. apply andb_prop in E1. destruct E1 as [E1 E2].
    assert (P : forall u, m34_apply m u = u).
    { intros u. rewrite m34_split, (v3_isNull_zero _ E2), (image_dir_ext _ _ u (HI E1)). destruct u as [? ? ?].
      unfold image_dir, plus3, ident, zero3. cbn. f_equal; ring. }
    intros u. rewrite !P. tauto.
  - destruct (isOrthonormalF (mf3 (rs34 m))) eqn:E2.
    + eexists; split; [reflexivity|]. apply inverse_pair; [apply m3_transposed_inverse; auto|].
      rewrite row_dir, v3_opp_eq, dir_smul. reflexivity.
    + destruct (m3_invert_spec (rs34 m)) as [_ S]; [rewrite E2; discriminate|]. destruct (S HD) as (r & Er & I).
      rewrite Er. cbn [bind]. eexists; split; [reflexivity|]. apply inverse_pair; [exact I|].
      rewrite v3_opp_eq, m3_apply_dir. reflexivity.
Qed.
Lemma m34_invert_singular m : (isOrthonormalF (mf3 (rs34 m)) = true -> orthonormal 3 (ent3 (rs34 m))) ->
  tid3 (rs34 m) -> det 3 (ent3 (rs34 m)) = 0 ->
  exists r, m34_invert m = Ok r /\ forall u, m34_apply r u = zero3.
Proof.
  intros HO HI HD.
  assert (D : forall A, orthonormal 3 A -> det 3 A = 0 -> False).
  { intros A H K. pose proof (orthonormal_det 3 _ det3_mmul det3_trans H) as L. rewrite K in L. lra. }
  unfold m34_invert. destruct (m34_isIdentity m) eqn:E1.
  - exfalso. unfold m34_isIdentity in E1. apply andb_prop in E1. destruct E1 as [E1 E2].
    apply (D (ent3 (rs34 m))); [|exact HD]. apply (orthonormal_ext 3 ident); [apply meq_sym; exact (HI E1)|apply orthonormal_ident].
  - destruct (isOrthonormalF (mf3 (rs34 m))) eqn:E2; [exfalso; apply (D _ (HO eq_refl) HD)|].
    destruct (m3_invert_spec (rs34 m)) as [S _]; [rewrite E2; discriminate|]. rewrite (S HD). cbn [bind].
    eexists; split; [reflexivity|]. intros u. rewrite m34_mk, v3_opp_eq, m3_apply_dir.
    unfold image_dir, plus3, smul3, zero3. cbn. rops. rlit. f_equal; ring.
Qed.

(** * Rotating: how small an angle is lost *)
Lemma id_defect_orthonormal A : orthonormal 3 A -> id_defect 3 A = 6 - 2 * (A 0%nat 0%nat + A 1%nat 1%nat + A 2%nat 2%nat).
Proof.
  intros H. assert (C : forall j, (j < 3)%nat -> coldot 3 A j j = 1).
  { intros j Hj. pose proof (H j j Hj Hj) as K. unfold ident in K. rewrite Nat.eqb_refl in K. exact K. }
  pose proof (C 0%nat) as C0. pose proof (C 1%nat) as C1. pose proof (C 2%nat) as C2.
  unfold coldot in C0, C1, C2. cbn [sumf] in C0, C1, C2.
  specialize (C0 ltac:(lia)). specialize (C1 ltac:(lia)). specialize (C2 ltac:(lia)).
  unfold id_defect, fro2, msub, ident. cbn. nra.
Qed.
Lemma identity_bit_rotation m : exact3 m -> orthonormal 3 (ent3 m) ->
  (fIdentity (mf3 m) = true <-> id_defect 3 (ent3 m) <= tol).
Proof.
  intros (_ & _ & H & _) O. rewrite H. apply orthonormal_defects in O. destruct O as [-> ->]. unfold tol. lra.
Qed.
Lemma rodrigues_trace A n a : dot3 n n = 1 -> (forall u, image_dir A u = rodrigues n a u) ->
  A 0%nat 0%nat + A 1%nat 1%nat + A 2%nat 2%nat = 1 + 2 * cos a.
Proof.
  intros N H. pose proof (H (mkV3 1 0 0)) as H0. pose proof (H (mkV3 0 1 0)) as H1. pose proof (H (mkV3 0 0 1)) as H2.
  destruct n as [x y z]. unfold dot3 in N. cbn in N. revert H0 H1 H2.
  unfold image_dir, rodrigues, plus3, smul3, cross3, dot3. cbn. intros [= H0 _ _] [= _ H1 _] [= _ _ H2].
  assert (E : x * x + y * y + z * z = 1) by lra.
  replace (1 + 2 * cos a) with (3 * cos a + (1 - cos a) * (x * x + y * y + z * z)) by (rewrite E; ring). lra.
Qed.
Lemma rotation_id_defect m n a : dot3 n n = 1 -> rotation (ent3 m) -> (forall u, m3_apply m u = rodrigues n a u) ->
  id_defect 3 (ent3 m) = 4 * (1 - cos a).
Proof.
  intros N [O _] H. rewrite (id_defect_orthonormal _ O), (rodrigues_trace _ n a N); [ring|].
  intros u. rewrite <- m3_apply_dir. apply H.
Qed.
Lemma qturn_id_defect q : qnorm2 q = 1 -> id_defect 3 (ent3 (m3_of_quat q)) = 8 * dot3 (qvec q) (qvec q).
Proof.
  intros N. destruct (of_quat_turns q N) as [[O _] _]. rewrite (id_defect_orthonormal _ O).
  destruct q as [w x y z]. unfold qnorm2 in N. cbn in N. unfold m3_of_quat. cbv zeta. rewrite ent3_optimize. unfold dot3, qvec. cbn. rops. rlit. nra.
Qed.

Lemma m3_rotation_bit axis a : axis <> zero3 ->
  id_defect 3 (ent3 (m3_rotation axis a)) = 4 * (1 - cos a) /\
  (fIdentity (mf3 (m3_rotation axis a)) = true <-> 4 * (1 - cos a) <= tol).
Proof.
  intros H. destruct (m3_rotation_spec axis a H) as (Rt & _ & Q).
  assert (D : id_defect 3 (ent3 (m3_rotation axis a)) = 4 * (1 - cos a)).
  { apply (rotation_id_defect _ (smul3 (/ norm3 axis) axis)); [apply unitv_dot; exact H|exact Rt|exact Q]. }
  split; [exact D|]. rewrite <- D. apply identity_bit_rotation; [apply m3_optimized|apply Rt].
Qed.
Lemma m3_rotation_coord_bit c n a m : coord_vec c = Some n -> m3_rotation_coord c a = Ok m ->
  (fIdentity (mf3 m) = true <-> 4 * (1 - cos a) <= tol).
Proof.
  intros H E. destruct (m3_rotation_coord_spec c n a H) as (m' & E' & X & Rt & _ & Q). rewrite E in E'. injection E' as <-.
  assert (N : dot3 n n = 1). { destruct c; cbn in H; injection H as <- || discriminate H; unfold dot3; cbn; ring. }
  rewrite <- (rotation_id_defect m n a N Rt Q). apply identity_bit_rotation; [exact X|apply Rt].
Qed.
Lemma m3_of_quat_bit q : qnorm2 q = 1 -> (fIdentity (mf3 (m3_of_quat q)) = true <-> 8 * dot3 (qvec q) (qvec q) <= tol).
Proof.
  intros N. rewrite <- (qturn_id_defect q N). apply identity_bit_rotation; [apply m3_of_quat_exact|]. apply (of_quat_turns q N).
Qed.
Lemma bit_off P m : (fIdentity (mf3 m) = true <-> P <= tol) -> tol < P -> tid3 m.
Proof. intros H L E. apply H in E. lra. Qed.

Lemma m34_rotate_axis_big m axis a u : axis <> zero3 -> tid3 (rs34 m) -> tol < 4 * (1 - cos a) ->
  m34_apply (m34_rotate_axis m axis a) u = rodrigues (smul3 (/ norm3 axis) axis) a (m34_apply m u) /\
  m34_apply (m34_rotatePre_axis m axis a) u = m34_apply m (rodrigues (smul3 (/ norm3 axis) axis) a u).
Proof.
  intros H T L. destruct (m3_rotation_spec axis a H) as (_ & _ & Q).
  pose proof (bit_off _ _ (proj2 (m3_rotation_bit axis a H)) L) as B.
  unfold m34_rotate_axis, m34_rotatePre_axis. rewrite (m34_transform_m3_image _ _ _ T B), (proj1 (m34_transformPre_m3_image _ _ _ T B)), !Q. tauto.
Qed.
Lemma m34_rotate_axis_small m axis a : axis <> zero3 -> 4 * (1 - cos a) <= tol ->
  m34_rotate_axis m axis a = mkM34 (rs34 m) (rodrigues (smul3 (/ norm3 axis) axis) a (t34 m)) /\
  m34_rotatePre_axis m axis a = m /\
  m3_rotated_axis (rs34 m) axis a = rs34 m /\ m3_rotatedPre_axis (rs34 m) axis a = rs34 m.
Proof.
  intros H L. destruct (m3_rotation_spec axis a H) as (_ & _ & Q).
  apply (m3_rotation_bit axis a H) in L.
  unfold m34_rotate_axis, m34_rotatePre_axis, m34_transform_m3, m34_transformPre_m3, m3_rotated_axis, m3_rotatedPre_axis, m3_rotated_mat, m3_mulAssign.
  rewrite L, Q. destruct m. cbn. tauto.
Qed.
Lemma m34_rotate_quat_big m q u : qnorm2 q = 1 -> tid3 (rs34 m) -> tol < 8 * dot3 (qvec q) (qvec q) ->
  m34_apply (m34_rotate_quat m q) u = qturn q (m34_apply m u) /\
  m34_apply (m34_rotatePre_quat m q) u = m34_apply m (qturn q u).
Proof.
  intros H T L. destruct (of_quat_turns q H) as (_ & Q).
  pose proof (bit_off _ _ (m3_of_quat_bit q H) L) as B.
  unfold m34_rotate_quat, m34_rotatePre_quat. rewrite (m34_transform_m3_image _ _ _ T B), (proj1 (m34_transformPre_m3_image _ _ _ T B)), !Q. tauto.
Qed.
Lemma m34_rotate_coord_big m c n a u : coord_vec c = Some n -> tid3 (rs34 m) -> tol < 4 * (1 - cos a) ->
  (exists r, m34_rotate_coord m c a = Ok r /\ m34_apply r u = rodrigues n a (m34_apply m u)) /\
  (exists r, m34_rotatePre_coord m c a = Ok r /\ m34_apply r u = m34_apply m (rodrigues n a u)).
Proof.
  intros H T L. destruct (m3_rotation_coord_spec c n a H) as (r & E & X & Rt & _ & Q).
  pose proof (bit_off _ _ (m3_rotation_coord_bit c n a r H E) L) as B.
  unfold m34_rotate_coord, m34_rotatePre_coord. rewrite E. cbn [bind].
  split; (eexists; split; [reflexivity|]); rewrite ?(m34_transform_m3_image _ _ _ T B), ?(proj1 (m34_transformPre_m3_image _ _ _ T B)), !Q; reflexivity.
Qed.

(** The same for Mat4. *)
Lemma fro_block A B : meq 3 A B -> trs A -> (forall i, (i < 3)%nat -> A i 3%nat = 0) -> id_defect 4 A = id_defect 3 B.
Proof.
  intros H (T0 & T1 & T2 & T3) Z. unfold id_defect, fro2, msub. cbn [sumf].
  rewrite T0, T1, T2, T3, !Z by lia. rewrite !(H 0%nat), !(H 1%nat), !(H 2%nat) by lia. unfold ident. cbn. ring.
Qed.
Lemma m4_block_bit m m' k : m = m4_optimize m' -> meq 3 (ent4 m') (ent3 k) -> trs (ent4 m') ->
  (forall i, (i < 3)%nat -> ent4 m' i 3%nat = 0) -> exact3 k -> orthonormal 3 (ent3 k) ->
  fIdentity (mf4 m) = fIdentity (mf3 k).
Proof.
  intros -> B T Z X O. pose proof (m4_optimize_exact tol_default m' T) as (_ & _ & I & _).
  fold (@m4_optimize R R_ops m') in I. change (tolNormal tol_default) with tol in I.
  change (tolOrthogonal tol_default) with tol in I. change (tolIdentity tol_default) with tol in I.
  pose proof (orthonormal_ext 3 _ _ (meq_sym _ _ _ B) O) as O'. apply orthonormal_defects in O'. destruct O' as [D1 D2].
  rewrite D1, D2, (fro_block _ _ B T Z) in I. pose proof (identity_bit_rotation k X O) as J. pose proof tol_pos.
  destruct (fIdentity (mf4 (m4_optimize m'))), (fIdentity (mf3 k)); try reflexivity.
  - symmetry. apply J, I. reflexivity.
  - apply I. split; [|split]; [lra|lra|]. apply J. reflexivity.
Qed.
Lemma m4_rotation_bit axis a : axis <> zero3 -> fIdentity (mf4 (m4_rotation axis a)) = fIdentity (mf3 (m3_rotation axis a)).
Proof.
  intros H. destruct (m4_rotation_full axis a) as (B & T & Z). eapply m4_block_bit; [reflexivity|exact B|exact T|exact Z|apply m3_optimized|].
  apply (m3_rotation_spec axis a H).
Qed.
Lemma m4_of_quat_bit q : qnorm2 q = 1 -> fIdentity (mf4 (m4_of_quat q v3_zero)) = fIdentity (mf3 (m3_of_quat q)).
Proof.
  intros H. destruct (m4_of_quat_full q v3_zero) as (B & T & Z). eapply m4_block_bit; [reflexivity|exact B|exact T| |apply m3_of_quat_exact|].
  - intros i Hi. assert (E : ent4 (m4_of_quat q v3_zero) i 3%nat = 0); [|exact E].
    rewrite (Z i Hi). destruct i as [|[|[|i]]]; [| | |lia]; cbn; rops; rlit; reflexivity.
  - apply (of_quat_turns q H).
Qed.
Lemma m4_rotate_axis_big m axis a u : axis <> zero3 -> tid4 m -> tol < 4 * (1 - cos a) ->
  (trs (ent4 m) -> m4_apply3 (m4_rotate_axis m axis a) u = rodrigues (smul3 (/ norm3 axis) axis) a (m4_apply3 m u)) /\
  m4_apply3 (m4_rotatePre_axis m axis a) u = m4_apply3 m (rodrigues (smul3 (/ norm3 axis) axis) a u).
Proof.
  intros H T L.
  assert (B : tid4 (m4_rotation axis a)).
  { intros E. rewrite (m4_rotation_bit axis a H) in E. apply (m3_rotation_bit axis a H) in E. lra. }
  unfold m4_rotate_axis, m4_rotatePre_axis. split.
  - intros Tr. rewrite (m4_transform_image _ _ _ T B Tr). apply m4_rotation_image. exact H.
  - rewrite (m4_transformPre_image _ _ _ T B), (m4_rotation_image _ _ _ H); [reflexivity|]. apply (m4_rotation_full axis a).
Qed.
Lemma m4_rotate_axis_small m axis a : axis <> zero3 -> 4 * (1 - cos a) <= tol ->
  m4_rotate_axis m axis a = m /\ m4_rotatePre_axis m axis a = m.
Proof.
  intros H L. apply (m3_rotation_bit axis a H) in L. rewrite <- (m4_rotation_bit axis a H) in L.
  unfold m4_rotate_axis, m4_rotatePre_axis, m4_transform, m4_transformPre. rewrite L. tauto.
Qed.
Lemma m4_rotate_quat_big m q u : qnorm2 q = 1 -> tid4 m -> tol < 8 * dot3 (qvec q) (qvec q) ->
  (trs (ent4 m) -> m4_apply3 (m4_rotate_quat m q) u = qturn q (m4_apply3 m u)) /\
  m4_apply3 (m4_rotatePre_quat m q) u = m4_apply3 m (qturn q u).
Proof.
  intros H T L.
  assert (B : tid4 (m4_of_quat q v3_zero)).
  { intros E. rewrite (m4_of_quat_bit q H) in E. apply (m3_of_quat_bit q H) in E. lra. }
  assert (P : forall v, m4_apply3 (m4_of_quat q v3_zero) v = qturn q v).
  { intros v. rewrite (m4_of_quat_image q _ v H). apply plus3_zero. }
  unfold m4_rotate_quat, m4_rotatePre_quat. split.
  - intros Tr. rewrite (m4_transform_image _ _ _ T B Tr). apply P.
  - rewrite (m4_transformPre_image _ _ _ T B), P; [reflexivity|]. apply (m4_of_quat_full q v3_zero).
Qed.
(** Every angle below one fiftieth of a radian is lost. *)
Lemma small_angle a : Rabs a <= 1 / 50 -> 4 * (1 - cos a) <= tol.
Proof.
  intros H.
  assert (E : 1 - cos a = 2 * (sin (a / 2) * sin (a / 2))).
  { replace a with (2 * (a / 2)) at 1 by field. rewrite cos_2a_sin. ring. }
  rewrite E. apply Rabs_def2b in H || (assert (- (1/50) <= a <= 1/50) by (split; unfold Rabs in H; destruct (Rcase_abs a); lra)).
  assert (S : Rabs (sin (a / 2)) <= Rabs (a / 2)).
  { destruct (Rle_dec 0 (a / 2)) as [P|P].
    - destruct (Req_dec (a / 2) 0) as [Z|Z].
      + rewrite Z, sin_0, Rabs_R0. lra.
      + pose proof (sin_lt_x (a / 2) ltac:(lra)). assert (0 <= sin (a / 2)) by (apply sin_ge_0; [lra|pose proof PI_4; pose proof PI2_1; lra]).
        rewrite !Rabs_pos_eq by lra. lra.
    - rewrite <- (Rabs_Ropp (sin _)), <- sin_neg, <- (Rabs_Ropp (a / 2)).
      pose proof (sin_lt_x (- (a / 2)) ltac:(lra)). assert (0 <= sin (- (a / 2))) by (apply sin_ge_0; [lra|pose proof PI2_1; lra]).
      rewrite !Rabs_pos_eq by lra. lra. }
  assert (Q : sin (a / 2) * sin (a / 2) <= 1 / 100 * (1 / 100)).
  { replace (sin (a/2) * sin (a/2)) with (Rabs (sin (a/2)) * Rabs (sin (a/2))) by (rewrite <- Rabs_mult; apply Rabs_pos_eq, Rle_0_sqr).
    assert (Rabs (a / 2) <= 1 / 100) by (apply Rabs_le; lra). apply Rmult_le_compat; try apply Rabs_pos; lra. }
  unfold tol. lra.
Qed.
Lemma m4_rotate_lost : exists (m : Mat4 R) axis a u, axis <> zero3 /\ meq 4 (ent4 m) ident /\
  m4_apply3 (m4_rotate_axis m axis a) u <> rodrigues (smul3 (/ norm3 axis) axis) a (m4_apply3 m u).
Proof.
  exists m4_one, (mkV3 0 0 1), (1 / 50), (mkV3 1 0 0).
  assert (N : (mkV3 0 0 1 : Vec3 R) <> zero3) by (intros [= E]; lra).
  split; [exact N|]. split; [entries4; cbn; rops; rlit; reflexivity|].
  rewrite (proj1 (m4_rotate_axis_small m4_one _ (1/50) N ltac:(apply small_angle; rewrite Rabs_pos_eq; lra))).
  assert (U : norm3 (mkV3 0 0 1) = 1) by (unfold norm3, dot3; cbn; replace (0*0+0*0+1*1) with 1 by ring; apply sqrt_1).
  rewrite U. unfold m4_apply3, rodrigues, plus3, smul3, cross3, dot3. cbn. rops. rlit. intros [= E1 E2 E3].
  assert (0 < sin (1/50)) by (apply sin_gt_0; [lra|pose proof PI2_1; lra]). lra.
Qed.

(** scale is wrong as soon as the linear part is not diagonal. *)
Lemma m34_scale_refuted : exists (m : Mat34 R) k u, exact3 (rs34 m) /\ rotation (ent3 (rs34 m)) /\
  m34_apply (m34_scale m k) u <> stretch k (m34_apply m u).
Proof.
  exists (mkM34 (m3_set (mkV3 0 1 0) (mkV3 (-1) 0 0) (mkV3 0 0 1)) zero3), (mkV3 2 1 1), (mkV3 1 0 0).
  split; [apply m3_optimized|]. split.
  - cbn [rs34]. unfold m3_set. rewrite ent3_optimize. split; [entries3; cbn; ring|]. cbn. ring.
  - unfold m34_scale. rewrite m34_mk, m3_scaled_dir, (m34_split). cbn [rs34 t34]. unfold m3_set. rewrite ent3_optimize.
    unfold image_dir, stretch, plus3, zero3. cbn. rops. intros [= E1 E2]. lra.
Qed.
Lemma m4_scale_refuted : exists (m : Mat4 R) k u, rigid (ent4 m) /\
  m4_apply3 (m4_scale m k) u <> stretch k (m4_apply3 m u).
Proof.
  exists (mkM4 (mkV4 0 1 0 0) (mkV4 (-1) 0 0 0) (mkV4 0 0 1 0) (mkV4 0 0 0 1) flags_uninit), (mkV3 2 1 1), (mkV3 1 0 0).
  split.
  - split; [entries3; cbn; ring|]. cbn. tauto.
  - unfold m4_scale, m4_apply3, stretch. cbn. rops. intros [= E1 E2]. lra.
Qed.
(** slerp of Mat34 forgets the translations. *)
Lemma m34_slerp_drops a b w r : m34_slerp a b w = Ok r -> t34 r = zero3.
Proof.
  unfold m34_slerp. destruct (m3_slerp _ _ _); cbn [bind]; try discriminate. intros [= <-]. cbn. unfold v3_zero. rops. rlit. reflexivity.
Qed.
Lemma m34_transpose_keeps m : t34 (m34_transpose m) = t34 m /\ meq 3 (ent3 (rs34 (m34_transpose m))) (mtrans (ent3 (rs34 m))).
Proof. split; [reflexivity|]. apply ent3_transposed. Qed.
Lemma m34_eqb_spec a b : (m34_eqb a b = true <-> (meq 3 (ent3 (rs34 a)) (ent3 (rs34 b)) /\ t34 a = t34 b)) /\ m34_neqb a b = negb (m34_eqb a b).
Proof.
  destruct a as [[[a0 a1 a2] [a3 a4 a5] [a6 a7 a8] f] [ax ay az]], b as [[[b0 b1 b2] [b3 b4 b5] [b6 b7 b8] g] [bx by_ bz]].
  unfold m34_eqb, m34_neqb, m3_eqb, m3_neqb, v3_eqb, v3_neqb. cbn. rops. split.
  - rewrite !andb_true_iff, !Reqb_true. split.
    + intros H. repeat match goal with H : _ /\ _ |- _ => destruct H end. subst. split; [entries3; reflexivity|reflexivity].
    + intros [H [= -> -> ->]]. pose proof (fun i j => H i j) as K. clear H.
      pose proof (K 0%nat 0%nat ltac:(lia) ltac:(lia)). pose proof (K 0%nat 1%nat ltac:(lia) ltac:(lia)). pose proof (K 0%nat 2%nat ltac:(lia) ltac:(lia)).
      pose proof (K 1%nat 0%nat ltac:(lia) ltac:(lia)). pose proof (K 1%nat 1%nat ltac:(lia) ltac:(lia)). pose proof (K 1%nat 2%nat ltac:(lia) ltac:(lia)).
      pose proof (K 2%nat 0%nat ltac:(lia) ltac:(lia)). pose proof (K 2%nat 1%nat ltac:(lia) ltac:(lia)). pose proof (K 2%nat 2%nat ltac:(lia) ltac:(lia)).
      cbn in *. tauto.
  - rewrite !negb_andb. reflexivity.
Qed.
Lemma m34_mul_bound a b :
  sound_flags 3 (ent3 (rs34 a)) (mf3 (rs34 a)) -> sound_flags 3 (ent3 (rs34 b)) (mf3 (rs34 b)) ->
  fro2 3 (msub (ent3 (rs34 (m34_mul a b))) (mmul 3 (ent3 (rs34 a)) (ent3 (rs34 b))))
    <= tol * Rmax (fro2 3 (ent3 (rs34 a))) (fro2 3 (ent3 (rs34 b))) /\
  t34 (m34_mul a b) = m34_apply a (t34 b).
Proof.
  intros Ha Hb. split; [apply m3_mul_bound; assumption|]. rewrite m34_split. unfold m34_mul. cbn [t34].
  rewrite m3_apply_dir, plus3_comm. reflexivity.
Qed.
Lemma affine_constructors (x y z t axis u : Vec3 R) (a : R) (q : Quat R) :
  m34_apply m34_one u = u /\ m34_apply m34_setIdentity u = u /\
  m34_apply (m34_set x y z t) u = plus3 (plus3 (plus3 (smul3 (x3 u) x) (smul3 (y3 u) y)) (smul3 (z3 u) z)) t /\
  (axis <> zero3 -> m34_apply (m34_rotation axis a t) u = plus3 (rodrigues (smul3 (/ norm3 axis) axis) a u) t) /\
  (qnorm2 q = 1 -> m34_apply (m34_of_quat q t) u = plus3 (qturn q u) t) /\
  (axis <> zero3 -> m4_apply3 (m4_rotation axis a) u = rodrigues (smul3 (/ norm3 axis) axis) a u) /\
  (qnorm2 q = 1 -> m4_apply3 (m4_of_quat q t) u = plus3 (qturn q u) t).
Proof.
  exact (conj (proj1 (m34_one_image u)) (conj (proj2 (m34_one_image u)) (conj (m34_set_image x y z t u)
    (conj (m34_rotation_image axis a t u) (conj (m34_of_quat_image q t u) (conj (m4_rotation_image axis a u) (m4_of_quat_image q t u))))))).
Qed.
Lemma block_image m k u : meq 3 (ent4 m) (ent3 k) -> (forall i, (i < 3)%nat -> ent4 m i 3%nat = 0) -> m4_apply3 m u = m3_apply k u.
Proof.
  intros B T. rewrite m4_apply3_eq, m3_apply_dir. unfold image, image_dir. cbn [x3 y3 z3].
  rewrite !(B 0%nat), !(B 1%nat), !(B 2%nat), !T by lia. f_equal; ring.
Qed.
Lemma m4_coord_full c n a : coord_vec c = Some n -> exists r k, m4_rotation_coord c a = Ok r /\ m3_rotation_coord c a = Ok k /\
  fIdentity (mf4 r) = fIdentity (mf3 k) /\ trs (ent4 r) /\ forall u, m4_apply3 r u = rodrigues n a u.
Proof.
  intros H. destruct (m3_rotation_coord_spec c n a H) as (k & Ek & X & Rt & _ & Q).
  destruct (m4_rotation_coord c a) as [r| |] eqn:E; [|destruct c; discriminate|destruct c; discriminate].
  destruct (m4_rotation_coord_block c a r E) as (k' & m' & Ek' & Em & B & T). rewrite Ek in Ek'. injection Ek' as <-.
  assert (Z : forall i, (i < 3)%nat -> ent4 m' i 3%nat = 0).
  { assert (Z : forall i, (i < 3)%nat -> ent4 r i 3%nat = 0); [|subst r; exact Z].
    intros i Hi. destruct c; try discriminate E; injection E as <-; rewrite ent4_optimize; destruct i as [|[|[|i]]]; (reflexivity || lia). }
  exists r, k. split; [reflexivity|]. split; [exact Ek|]. split; [eapply m4_block_bit; try eassumption; apply Rt|].
  subst r. split; [exact T|]. intros u. change (m4_apply3 m' u = rodrigues n a u). rewrite (block_image _ k u B Z). apply Q.
Qed.
Lemma rotation_coord_image c n t u a : coord_vec c = Some n ->
  (exists r, m34_rotation_coord c a t = Ok r /\ m34_apply r u = plus3 (rodrigues n a u) t) /\
  (exists r, m4_rotation_coord c a = Ok r /\ m4_apply3 r u = rodrigues n a u).
Proof.
  intros H. split.
  - destruct (m3_rotation_coord_spec c n a H) as (k & Ek & X & Rt & _ & Q). unfold m34_rotation_coord. rewrite Ek. cbn [bind].
    eexists; split; [reflexivity|]. rewrite m34_mk, <- m3_apply_dir, Q. reflexivity.
  - destruct (m4_coord_full c n a H) as (r & k & E & _ & _ & _ & Q). exists r. split; [exact E|apply Q].
Qed.
Lemma m34_set_two_eq e ex a ap (r : Mat34 R) :
  m34_set_two e ex a ap = Ok r <-> exists rs, m3_set_two e ex a ap = Ok rs /\ r = mkM34 rs zero3.
Proof.
  assert (Z : (v3_zero : Vec3 R) = zero3) by (unfold v3_zero, zero3; rops; rlit; reflexivity).
  unfold m34_set_two. destruct (m3_set_two e ex a ap) as [rs| |]; cbn [bind].
  - rewrite Z. split; [intros [= <-]; eauto|]. intros (rs' & [= <-] & ->). reflexivity.
  - split; [discriminate|]. intros (rs' & E & _). discriminate.
  - split; [discriminate|]. intros (rs' & E & _). discriminate.
Qed.
Lemma m34_slerp_refuted : exists (a b r : Mat34 R),
  rotation (ent3 (rs34 a)) /\ rotation (ent3 (rs34 b)) /\ m34_slerp a b 0 = Ok r /\ t34 r <> t34 a.
Proof.
  assert (Rt : rotation (ent3 m3_one)).
  { apply (of_quat_turns (mkQ 0 0 0 1)) || idtac. split.
    - apply (orthonormal_ext 3 ident); [entries3; cbn; rops; rlit; reflexivity|apply orthonormal_ident].
    - cbn. rops. rlit. ring. }
  destruct (m3_slerp_spec m3_one m3_one 0 Rt Rt ltac:(lra)) as (r & E & _).
  exists (mkM34 m3_one (mkV3 1 0 0)), (mkM34 m3_one (mkV3 1 0 0)), (mkM34 r v3_zero).
  split; [exact Rt|]. split; [exact Rt|]. unfold m34_slerp. cbn [rs34]. rewrite E. split; [reflexivity|].
  cbn. rops. rlit. intros [= K]. lra.
Qed.
Lemma m34_invert_tolerance : exists (m r : Mat34 R) (u : Vec3 R),
  exact3 (rs34 m) /\ det 3 (ent3 (rs34 m)) <> 0 /\ m34_invert m = Ok r /\ m34_apply r (m34_apply m u) <> u.
Proof.
  set (m0 := mkM3 (mkV3 0 (101/100) 0) (mkV3 (-1) 0 0) (mkV3 0 0 1) flags_uninit : Mat3 R).
  assert (X : exact3 (m3_optimize m0)) by apply m3_optimized.
  assert (B : isOrthonormalF (mf3 (m3_optimize m0)) = true).
  { destruct X as (N & O & _). rewrite ent3_optimize in N, O. unfold isOrthonormalF. apply andb_true_iff. split; [apply N|apply O];
    unfold unit_defect, ortho_defect, coldot, tol, m0; cbn; lra. }
  assert (I : fIdentity (mf3 (m3_optimize m0)) = false).
  { destruct X as (_ & _ & I & _). rewrite ent3_optimize in I. destruct (fIdentity _); [|reflexivity]. exfalso.
    destruct (proj1 I eq_refl) as (_ & _ & K). revert K. unfold id_defect, fro2, msub, ident, tol, m0. cbn. lra. }
  exists (mkM34 (m3_optimize m0) zero3), (mkM34 (m3_transposed (m3_optimize m0)) (v3_mul_mat (v3_opp zero3) (m3_optimize m0))), (mkV3 1 0 0).
  split; [exact X|]. split; [cbn [rs34]; rewrite ent3_optimize; cbn; lra|]. split.
  - unfold m34_invert, m34_isIdentity. cbn [rs34 t34]. rewrite I, B. reflexivity.
  - rewrite m34_mk, (m34_split (mkM34 _ _)). cbn [rs34 t34]. rewrite ent3_optimize, row_dir.
    rewrite !(image_dir_ext _ _ _ (ent3_transposed _)), ent3_optimize. unfold image_dir, plus3, mtrans, zero3, m0. cbn. rops. intros [= K _ _]. lra.
Qed.
Lemma affine_case : exists m : Mat34 R,
  exact3 (rs34 m) /\ isOrthonormalF (mf3 (rs34 m)) = false /\ tid3 (rs34 m) /\ det 3 (ent3 (rs34 m)) = 6 /\ t34 m = mkV3 1 2 3.
Proof.
  set (m0 := mkM3 (mkV3 2 0 0) (mkV3 1 3 0) (mkV3 0 0 1) flags_uninit : Mat3 R).
  assert (X : exact3 (m3_optimize m0)) by apply m3_optimized.
  assert (B : fNormal (mf3 (m3_optimize m0)) = false).
  { destruct X as (N & _). rewrite ent3_optimize in N. destruct (fNormal _); [|reflexivity]. exfalso.
    generalize (proj1 N eq_refl). unfold unit_defect, coldot, tol, m0. cbn. lra. }
  exists (mkM34 (m3_optimize m0) (mkV3 1 2 3)). cbn [rs34 t34]. split; [exact X|].
  split; [unfold isOrthonormalF; rewrite B; reflexivity|]. split.
  - intros E. exfalso. destruct X as (N & _ & I & _). apply I in E. destruct E as [E _]. apply N in E. rewrite B in E. discriminate.
  - split; [rewrite ent3_optimize; cbn; ring|reflexivity].
Qed.
Lemma affine_copies m d k :
  meq 4 (ent4 (m4_translated m d)) (ent4 (m4_translate m d)) /\
  meq 4 (ent4 (m4_translatedPre m d)) (ent4 (m4_translatePre m d)) /\
  meq 4 (ent4 (m4_scaledPre m k)) (ent4 (m4_scalePre m k)) /\
  meq 4 (ent4 (m4_scaled m k)) (ent4 (m4_scale m k)).
Proof.
  destruct (m4_copies m d k) as (H1 & H2 & H3). exact (conj H1 (conj H2 (conj H3 (proj2 (m4_scale_iff m k))))).
Qed.
Lemma m4_compose a b u : tid4 a -> tid4 b ->
  (trs (ent4 b) -> m4_apply3 (m4_mul a b) u = m4_apply3 a (m4_apply3 b u) /\
                   m4_apply3 (m4_transformPre a b) u = m4_apply3 a (m4_apply3 b u)) /\
  (trs (ent4 a) -> m4_apply3 (m4_transform a b) u = m4_apply3 b (m4_apply3 a u)).
Proof.
  intros Ha Hb. split; intros T.
  - split; [apply m4_mul_image|apply m4_transformPre_image]; assumption.
  - apply m4_transform_image; assumption.
Qed.
Lemma m4_rotate_coord_big m c n a u : coord_vec c = Some n -> tid4 m -> tol < 4 * (1 - cos a) ->
  (trs (ent4 m) -> exists r, m4_rotate_coord m c a = Ok r /\ m4_apply3 r u = rodrigues n a (m4_apply3 m u)) /\
  (exists r, m4_rotatePre_coord m c a = Ok r /\ m4_apply3 r u = m4_apply3 m (rodrigues n a u)).
Proof.
  intros H T L. destruct (m4_coord_full c n a H) as (r & k & E & Ek & Bt & Tr & Q).
  assert (B : tid4 r). { intros F. rewrite Bt in F. apply (m3_rotation_coord_bit c n a k H Ek) in F. lra. }
  unfold m4_rotate_coord, m4_rotatePre_coord. rewrite E. cbn [bind]. split.
  - intros Tm. eexists; split; [reflexivity|]. rewrite (m4_transform_image _ _ _ T B Tm). apply Q.
  - eexists; split; [reflexivity|]. rewrite (m4_transformPre_image _ _ _ T B Tr), Q. reflexivity.
Qed.
Lemma small_rotation m n axis a : axis <> zero3 -> 4 * (1 - cos a) <= tol ->
  m4_rotate_axis m axis a = m /\ m4_rotatePre_axis m axis a = m /\
  m34_rotate_axis n axis a = mkM34 (rs34 n) (rodrigues (smul3 (/ norm3 axis) axis) a (t34 n)) /\
  m34_rotatePre_axis n axis a = n /\
  m3_rotated_axis (rs34 n) axis a = rs34 n /\ m3_rotatedPre_axis (rs34 n) axis a = rs34 n.
Proof.
  intros H L. destruct (m4_rotate_axis_small m axis a H L) as [A B]. exact (conj A (conj B (m34_rotate_axis_small n axis a H L))).
Qed.
Lemma rotate_case : (mkV3 1 2 3 : Vec3 R) <> zero3 /\ tol < 4 * (1 - cos (PI / 2)) /\
  qnorm2 (mkQ (1/2) (1/2) (1/2) (1/2)) = 1 /\
  tol < 8 * dot3 (qvec (mkQ (1/2) (1/2) (1/2) (1/2))) (qvec (mkQ (1/2) (1/2) (1/2) (1/2))) /\
  (exists m : Mat4 R, trs (ent4 m) /\ tid4 m /\ fIdentity (mf4 m) = false /\ ent4 m 0%nat 3%nat = 5).
Proof.
  split; [intros [= E]; lra|]. split; [rewrite cos_PI2; unfold tol; lra|]. split; [unfold qnorm2, qdot, dot3, qvec; cbn; lra|].
  split; [unfold dot3, tol; cbn; lra|].
  set (m0 := mkM4 (mkV4 1 0 0 0) (mkV4 0 1 0 0) (mkV4 0 0 1 0) (mkV4 5 0 0 1) flags_uninit : Mat4 R).
  assert (T : trs (ent4 m0)) by (unfold trs; cbn; tauto).
  assert (B : fIdentity (mf4 (m4_optimize m0)) = false).
  { destruct (m4_optimize_exact tol_default m0 T) as (_ & _ & I & _). fold (@m4_optimize R R_ops m0) in I.
    destruct (fIdentity _); [|reflexivity]. exfalso. destruct (proj1 I eq_refl) as (_ & _ & K).
    revert K. change (tolIdentity tol_default) with tol. unfold id_defect, fro2, msub, ident, tol, m0. cbn. lra. }
  exists (m4_optimize m0). split; [exact T|]. split; [intros E; rewrite B in E; discriminate|]. split; [exact B|reflexivity].
Qed.
