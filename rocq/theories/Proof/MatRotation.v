(** Rotation matrices. *)
From Coq Require Import Reals ZArith Arith Lra Lia Bool Psatz Nsatz.
From Verif.Base Require Import Outcome Wp Scalar ScalarR RFacts.
From Verif.Model Require Import Types Functions Vec Mat2 Mat3 Quat Mat4 Mat34.
From Verif.Spec Require Import LinAlg VecSpec MatSpec QuatSpec.
From Verif.Proof Require Import LinAlgFacts VecFacts VecProofs MatFacts MatProofs MatFlags MatInverse MatInverse4.
Local Open Scope R_scope.

Definition unitv (u : Vec3 R) : Vec3 R := smul3 (/ norm3 u) u.
Lemma unitv_dot u : u <> zero3 -> dot3 (unitv u) (unitv u) = 1.
Proof.
  intros H. pose proof (norm3_pos u H). unfold unitv.
  replace (dot3 (smul3 (/ norm3 u) u) (smul3 (/ norm3 u) u)) with (dot3 u u / (norm3 u * norm3 u)).
  - rewrite norm3_sqr. field. rewrite <- norm3_sqr. nra.
  - unfold dot3, smul3. cbn [x3 y3 z3]. field. lra.
Qed.
Lemma normalized_unitv u : u <> zero3 -> v3_normalized u 1 = unitv u.
Proof.
  intros H. destruct (v3_normalize_spec u 1) as (v & _ & -> & _ & K). destruct (K H) as [_ ->]. unfold unitv. f_equal. field.
  pose proof (norm3_pos u H); lra.
Qed.
Lemma normalized_zero k : v3_normalized zero3 k = zero3.
Proof. destruct (v3_normalize_spec zero3 k) as (v & _ & -> & K & _). auto. Qed.
Lemma cs1 a : cos a * cos a + sin a * sin a = 1.
Proof. pose proof (sin2_cos2 a). unfold Rsqr in *. lra. Qed.

(** * From an axis and an angle *)
Definition rotmat (n : Vec3 R) (s c : R) : Mat3 R :=
  mkM3
    (mkV3 (c + x3 n * x3 n * (1 - c)) (x3 n * y3 n * (1 - c) + z3 n * s) (z3 n * x3 n * (1 - c) - y3 n * s))
    (mkV3 (x3 n * y3 n * (1 - c) - z3 n * s) (c + y3 n * y3 n * (1 - c)) (y3 n * z3 n * (1 - c) + x3 n * s))
    (mkV3 (z3 n * x3 n * (1 - c) + y3 n * s) (y3 n * z3 n * (1 - c) - x3 n * s) (c + z3 n * z3 n * (1 - c))) flags_uninit.
Lemma rotmat_orthonormal n s c : dot3 n n = 1 -> c * c + s * s = 1 -> orthonormal 3 (ent3 (rotmat n s c)).
Proof.
  intros Hn Hs. destruct n as [x y z]. unfold dot3 in Hn. cbn [x3 y3 z3] in Hn. unfold rotmat. entries3; msimp; nsatz.
Qed.
Lemma rotmat_det n s c : dot3 n n = 1 -> c * c + s * s = 1 -> det 3 (ent3 (rotmat n s c)) = 1.
Proof.
  intros Hn Hs. destruct n as [x y z]. unfold dot3 in Hn. cbn [x3 y3 z3] in Hn. unfold rotmat. detx; msimp; nsatz.
Qed.
Lemma m3_rotation_raw axis a : axis <> zero3 ->
  m3_rotation axis a = m3_optimize (rotmat (unitv axis) (sin a) (cos a)).
Proof. intros H. unfold m3_rotation. rops. rewrite normalized_unitv by exact H. reflexivity. Qed.

Lemma m3_rotation_spec axis a : axis <> zero3 ->
  rotation (ent3 (m3_rotation axis a)) /\
  m3_apply (m3_rotation axis a) axis = axis /\
  (forall u, m3_apply (m3_rotation axis a) u = rodrigues (smul3 (/ norm3 axis) axis) a u).
Proof.
  intros H. rewrite m3_rotation_raw by exact H. pose proof (unitv_dot axis H) as D. pose proof (cs1 a) as C.
  assert (R : forall u, m3_apply (m3_optimize (rotmat (unitv axis) (sin a) (cos a))) u = rodrigues (unitv axis) a u).
  { intros u. destruct (unitv axis) as [x y z], u as [p q r]. unfold dot3 in D. cbn [x3 y3 z3] in D.
    unfold m3_apply, m3_optimize, m3_optimize_tol, rotmat, rodrigues, plus3, smul3, cross3, dot3. msimp. f_equal; nsatz. }
  split; [|split].
  - rewrite ent3_optimize. split; [apply rotmat_orthonormal|apply rotmat_det]; assumption.
  - rewrite R. replace axis with (smul3 (norm3 axis) (unitv axis)) at 2 3.
    + destruct (unitv axis) as [x y z]. unfold dot3 in D. cbn [x3 y3 z3] in D.
      unfold rodrigues, plus3, smul3, cross3, dot3. cbn [x3 y3 z3]. f_equal; nsatz.
    + unfold unitv. pose proof (norm3_pos axis H). destruct axis as [x y z]. unfold smul3 at 1 2. cbn [x3 y3 z3]. f_equal; field; lra.
  - exact R.
Qed.
Lemma m3_rotation_zero a : ent3 (m3_rotation zero3 a) = ent3 (m3_scalar (cos a)).
Proof.
  unfold m3_rotation. rops. rewrite normalized_zero. rewrite ent3_optimize. unfold m3_scalar, zero3. cbn [x3 y3 z3].
  unfold ent3. cbn [mx3 my3 mz3]. rops.
  replace (cos a + 0 * 0 * (1 - cos a)) with (cos a) by ring. replace (0 * 0 * (1 - cos a) + 0 * sin a) with 0 by ring.
  replace (0 * 0 * (1 - cos a) - 0 * sin a) with 0 by ring. reflexivity.
Qed.
Lemma m3_rotation_coord_spec c n a : coord_vec c = Some n ->
  exists m, m3_rotation_coord c a = Ok m /\ exact3 m /\ rotation (ent3 m) /\ m3_apply m n = n /\
    forall u, m3_apply m u = rodrigues n a u.
Proof.
  intros Hc. pose proof (cs1 a) as C.
  destruct c; cbn [coord_vec] in Hc; try discriminate; injection Hc as <-;
  (eexists; split; [reflexivity|]; split; [apply m3_optimized|]; split; [|split;
    [ unfold m3_apply, m3_optimize, m3_optimize_tol; msimp; f_equal; ring
    | intros [p q r]; unfold m3_apply, m3_optimize, m3_optimize_tol, rodrigues, plus3, smul3, cross3, dot3; msimp; f_equal; ring ]]);
  (rewrite ent3_optimize; split; [entries3|detx]; msimp; nra).
Qed.

(** * From a quaternion *)
Lemma m3_of_quat_rotation q : qnorm2 q = 1 -> rotation (ent3 (m3_of_quat q)).
Proof.
  intros H. destruct q as [x y z w]. unfold qnorm2, qdot, dot3, qvec in H. cbn [qx qy qz qw x3 y3 z3] in H. unfold m3_of_quat. cbn zeta.
  rewrite ent3_optimize. split; [entries3|detx]; msimp; nsatz.
Qed.

(** * Orthonormal matrix from two directions *)
Lemma cross_unit u v : dot3 u u = 1 -> dot3 v v = 1 -> dot3 u v = 0 -> dot3 (cross3 u v) (cross3 u v) = 1.
Proof. intros. pose proof (lagrange3 u v). rewrite H, H0, H1 in H2. lra. Qed.

Lemma frame_rotation u v w x y z : dot3 u u = 1 -> dot3 v v = 1 -> dot3 u v = 0 -> w = cross3 u v ->
  (x, y, z) = (u, v, w) \/ (x, y, z) = (v, w, u) \/ (x, y, z) = (w, u, v) \/
  (x, y, z) = (u, w, v3_opp v) \/ (x, y, z) = (v3_opp v, u, w) \/ (x, y, z) = (w, v3_opp v, u) ->
  rotation (ent3 (m3_set x y z)).
Proof.
  intros Hu Hv Huv -> H. unfold m3_set. rewrite ent3_optimize. unfold v3_opp, cross3, dot3 in *.
  destruct u as [a b c], v as [d e f]. cbn [x3 y3 z3] in *.
  repeat match goal with H : _ \/ _ |- _ => destruct H end;
  match goal with H : (_, _, _) = _ |- _ => injection H as -> -> -> end;
  (split; [entries3|detx]; msimp; nsatz).
Qed.
Lemma null3 u : (Reqb (x3 u) 0 && Reqb (y3 u) 0 && Reqb (z3 u) 0)%bool = true <-> u = zero3.
Proof.
  rewrite !andb_true_iff, !Reqb_true. destruct u; cbn. split; [intros [[-> ->] ->]; reflexivity|intros [= -> -> ->]; auto].
Qed.
Lemma null3_f u : u <> zero3 -> (Reqb (x3 u) 0 && Reqb (y3 u) 0 && Reqb (z3 u) 0)%bool = false.
Proof. intros H. destruct (_ && _)%bool eqn:E; [|reflexivity]. apply null3 in E. contradiction. Qed.
Lemma cross_unitv u v : u <> zero3 -> cross3 v (unitv u) = smul3 (/ norm3 u) (cross3 v u).
Proof. intros H. unfold unitv, cross3, smul3. cbn [x3 y3 z3]. f_equal; ring. Qed.
Lemma smul3_zero k u : k <> 0 -> smul3 k u = zero3 -> u = zero3.
Proof.
  intros Hk E. destruct u as [x y z]. injection E as E1 E2 E3.
  apply Rmult_integral in E1, E2, E3. destruct E1, E2, E3; try contradiction. subst; reflexivity.
Qed.
Lemma m3_set_two_degenerate e ex a ap : ex = zero3 \/ cross3 ap ex = zero3 -> m3_set_two e ex a ap = Ok m3_setIdentity.
Proof.
  intros H. unfold m3_set_two. rops. destruct (_ && _)%bool eqn:E; [reflexivity|].
  assert (N : ex <> zero3) by (intros F; apply null3 in F; congruence).
  rewrite normalized_unitv by exact N. rewrite v3_cross_eq, cross_unitv by exact N.
  destruct H as [H|H]; [contradiction|]. rewrite H.
  replace (smul3 (/ norm3 ex) zero3) with zero3 by (unfold smul3, zero3; cbn; f_equal; ring).
  rewrite (proj2 (null3 zero3) eq_refl). reflexivity.
Qed.
Lemma m3_set_two_spec e ex a ap : cross3 ap ex <> zero3 -> coord_vec e <> None -> coord_vec a <> None -> e <> a ->
  exists m w, m3_set_two e ex a ap = Ok m /\ exact3 m /\ rotation (ent3 m) /\
    col3 e m = Some (smul3 (/ norm3 ex) ex) /\ col3 a m = Some w /\ 0 < dot3 w ap /\ dot3 w (cross3 ap ex) = 0.
Proof.
  intros Hn He Ha Hea.
  assert (N : ex <> zero3). { intros ->. apply Hn. unfold cross3, zero3. cbn. f_equal; ring. }
  unfold m3_set_two. rops. rewrite null3_f by exact N. rewrite normalized_unitv by exact N.
  rewrite v3_cross_eq, cross_unitv by exact N. pose proof (norm3_pos ex N) as P.
  set (k := / norm3 ex). assert (K : 0 < k) by (apply Rinv_0_lt_compat; exact P).
  set (q := smul3 k (cross3 ap ex)).
  assert (Q : q <> zero3) by (intros E; apply smul3_zero in E; [contradiction|lra]).
  rewrite null3_f by exact Q.
  destruct (v3_normalize_spec q 1) as (v & -> & _ & _ & Kv). destruct (Kv Q) as [Nv Ev]. cbn [fst].
  pose proof (norm3_pos q Q) as Pq.
  pose proof (unitv_dot ex N) as U. set (u := unitv ex) in *.
  assert (V : dot3 v v = 1) by (rewrite <- norm3_sqr, Nv, Rabs_R1; ring).
  assert (UV : dot3 u v = 0).
  { rewrite Ev. unfold u, q, unitv. destruct ex as [x y z], ap as [x' y' z']. unfold dot3, smul3, cross3. cbn [x3 y3 z3]. ring. }
  rewrite v3_cross_eq. set (w := cross3 u v).
  assert (W : 0 < dot3 w ap /\ dot3 w (cross3 ap ex) = 0).
  { assert (E : cross3 ap ex = smul3 (norm3 ex * norm3 q) v).
    { rewrite Ev. clear - P Pq. unfold q at 3. generalize dependent (norm3 q). intros nq Pq.
      destruct (cross3 ap ex) as [x y z]. unfold smul3. cbn [x3 y3 z3]. unfold k. f_equal; field; split; lra. }
    split.
    - replace (dot3 w ap) with (k * dot3 v (cross3 ap ex)).
      + rewrite E. replace (dot3 v (smul3 (norm3 ex * norm3 q) v)) with (norm3 ex * norm3 q * dot3 v v)
          by (unfold dot3, smul3; cbn; ring). rewrite V. apply Rmult_lt_0_compat; [exact K|]. nra.
      + unfold w, u, unitv. fold k. clear - v. clearbody k. destruct ex as [x y z], ap as [x' y' z'], v as [a1 b1 c1].
        unfold dot3, smul3, cross3. cbn [x3 y3 z3]. ring.
    - rewrite E. unfold w. clear. clearbody u. destruct u, v. unfold dot3, cross3, smul3. cbn. ring. }
  destruct e; try (exfalso; apply He; reflexivity); destruct a; try (exfalso; apply Ha; reflexivity); try congruence;
  (eexists; exists w; split; [reflexivity|]; split; [apply m3_optimized|]; split; [apply (frame_rotation u v w); try assumption; try reflexivity; auto 10|]);
  (split; [reflexivity|split; [reflexivity|exact W]]).
Qed.
