(** Angles of rotation matrices, the path of their interpolation, and
    orthonormalise. *)
From Coq Require Import Reals ZArith Arith Lra Lia Bool Psatz Nsatz.
From Verif.Base Require Import Outcome Scalar ScalarR RFacts.
From Verif.Model Require Import Types Functions Vec Mat2 Mat3 Quat Mat4 Mat34 Interpolation.
From Verif.Spec Require Import LinAlg NumSpec VecSpec MatSpec QuatSpec TrigSpec.
From Verif.Proof Require Import FunctionsProofs InterpolationProofs LinAlgFacts VecFacts VecProofs Polar MatFacts MatProofs MatFlags MatInverse MatInverse4 MatRotation QuatProofs QuatArc QuatSlerp MatHistory MatExamples QuatMore Affine.
Local Open Scope R_scope.

(** * Mat2 *)
Lemma m2_angle_facts m : - PI < m2_angle m <= PI /\
  x2 (mx2 m) = norm2 (mx2 m) * cos (m2_angle m) /\ y2 (mx2 m) = norm2 (mx2 m) * sin (m2_angle m).
Proof.
  unfold m2_angle. rops. split; [apply atan2_range|].
  destruct (atan2_polar (y2 (mx2 m)) (x2 (mx2 m))) as [A B]. split; [exact A|exact B].
Qed.
Lemma m2_angle_of_rotation a : congruent (2 * PI) (m2_angle (m2_rotation a)) a.
Proof.
  destruct (m2_angle_facts (m2_rotation a)) as (_ & C & S).
  assert (N : norm2 (mx2 (m2_rotation a)) = 1).
  { unfold m2_rotation, norm2, dot2. rops. cbn. replace (_ + _) with 1 by (pose proof (sin2_cos2 a); unfold Rsqr in *; lra). apply sqrt_1. }
  rewrite N in C, S. apply trig_congruent; unfold m2_rotation in *; rops; cbn in *; rops; lra.
Qed.
Lemma m2_rotation_apply a u : m2_apply (m2_rotation a) u = turn2 a u.
Proof. unfold m2_apply, m2_rotation, turn2. rops. cbn. f_equal; ring. Qed.
Lemma turn2_add a b u : turn2 (a + b) u = turn2 b (turn2 a u).
Proof. unfold turn2. rewrite cos_plus, sin_plus. cbn. f_equal; ring. Qed.
Lemma turn2_congruent a b u : congruent (2 * PI) a b -> turn2 a u = turn2 b u.
Proof. intros C. destruct (congruent_trig a b C) as [E F]. unfold turn2. rewrite E, F. reflexivity. Qed.
Lemma m2_apply_meq a b u : meq 2 (ent2 a) (ent2 b) -> m2_apply a u = m2_apply b u.
Proof.
  intros E. pose proof (E 0%nat 0%nat ltac:(lia) ltac:(lia)) as E0. pose proof (E 0%nat 1%nat ltac:(lia) ltac:(lia)) as E1.
  pose proof (E 1%nat 0%nat ltac:(lia) ltac:(lia)) as E2. pose proof (E 1%nat 1%nat ltac:(lia) ltac:(lia)) as E3.
  mdes2 a. mdes2 b. unfold m2_apply. revert E0 E1 E2 E3. msimp. intros -> -> -> ->. reflexivity.
Qed.
Lemma m2_angle_apply m u : rotation2 (ent2 m) -> m2_apply m u = turn2 (m2_angle m) u.
Proof. intros H. rewrite <- m2_rotation_apply. symmetry. apply m2_apply_meq, m2_angle_rotation, H. Qed.

Lemma m2_slerp_path a b : rotation2 (ent2 a) -> rotation2 (ent2 b) -> exists d,
  (- PI <= m2_angle b - m2_angle a -> Rabs d <= PI) /\
  (forall u, m2_apply b u = turn2 d (m2_apply a u)) /\
  forall w, exists r, m2_slerp a b w = Ok r /\ exact2 r /\ forall u, m2_apply r u = turn2 (w * d) (m2_apply a u).
Proof.
  intros Ra Rb. destruct (clerp_spec (m2_angle a) (m2_angle b)) as (d & E & C & S). exists d.
  split; [intros H; apply S; exact H|]. split.
  - intros u. rewrite !m2_angle_apply by assumption. rewrite <- turn2_add. symmetry. apply turn2_congruent, C.
  - intros w. exists (m2_rotation (m2_angle a + d * w)). unfold m2_slerp. rewrite E. cbn [bind]. split; [reflexivity|].
    split; [apply m2_optimized|]. intros u. rewrite m2_rotation_apply, m2_angle_apply by assumption.
    rewrite turn2_add. f_equal. ring.
Qed.
Lemma m2_slerpMax_path a b mx : rotation2 (ent2 a) -> rotation2 (ent2 b) -> 0 <= mx -> exists d e r,
  (- PI <= m2_angle b - m2_angle a -> Rabs d <= PI) /\
  (forall u, m2_apply b u = turn2 d (m2_apply a u)) /\
  m2_slerpMaxAngle a b mx = Ok r /\ exact2 r /\
  0 <= e * d /\ Rabs e = Rmin mx (Rabs d) /\ forall u, m2_apply r u = turn2 e (m2_apply a u).
Proof.
  intros Ra Rb Hm. destruct (clerpMaxAngle_turn (m2_angle a) (m2_angle b) mx Hm) as (d & r & E & C & S & _ & G & L).
  exists d, (r - m2_angle a), (m2_rotation r). split; [exact S|]. split.
  { intros u. rewrite !m2_angle_apply by assumption. rewrite <- turn2_add. symmetry. apply turn2_congruent, C. }
  unfold m2_slerpMaxAngle. rewrite E. cbn [bind]. split; [reflexivity|]. split; [apply m2_optimized|].
  split; [exact G|]. split; [exact L|]. intros u. rewrite m2_rotation_apply, m2_angle_apply, <- turn2_add by assumption. f_equal. ring.
Qed.
Lemma m2_slerp_long : m2_slerp (m2_rotation 3) (m2_rotation (-3)) (1 / 2) = Ok (m2_rotation 0) /\
  forall u, m2_apply (m2_rotation (-3)) u = turn2 (2 * PI - 6) (m2_apply (m2_rotation 3) u).
Proof.
  pose proof PI_RGT_0 as P0. pose proof PI_4 as P4. assert (P3 : 3 < PI).
  { pose proof PI2_3_2; lra. }
  assert (A : forall x, -3 <= x <= 3 -> m2_angle (m2_rotation x) = x).
  { intros x Hx. destruct (m2_angle_of_rotation x) as [k Hk]. pose proof (proj1 (m2_angle_facts (m2_rotation x))) as B.
    assert (k = 0)%Z; [|subst k; lra]. assert (-1 < IZR k < 1) by (split; nra). 
    assert (-1 < k < 1)%Z by (split; apply lt_IZR; lra). lia. }
  split.
  - unfold m2_slerp. rewrite !A by lra. unfold clerp. rewrite clerp_delta_ok. cbn [bind]. rops.
    rewrite (Rfmod_small (-3 - 3 + PI)) by lra. do 2 f_equal. lra.
  - intros u. rewrite !m2_rotation_apply, <- turn2_add. apply turn2_congruent. exists (-1)%Z. lra.
Qed.

(** * orthonormalise *)
Lemma m2_orthonormalise_spec m : rotation2 (ent2 (m2_orthonormalise m)) /\ (mx2 m <> zero2 -> mx2 (m2_orthonormalise m) = smul2 (/ norm2 (mx2 m)) (mx2 m)) /\ (rotation2 (ent2 m) -> meq 2 (ent2 (m2_orthonormalise m)) (ent2 m)).
Proof.
  unfold m2_orthonormalise. split; [apply m2_rotation_rot|].
  split; [|apply m2_angle_rotation].
  intros H. destruct (m2_angle_facts m) as (_ & C & S). apply norm2_pos in H. 
  set (n := norm2 (mx2 m)) in *. set (a := m2_angle m) in *. clearbody n a. unfold m2_rotation, smul2. rops. cbn. rewrite C, S. f_equal; field; lra.
Qed.

(** * The arc between two unit quaternions *)
Definition qdiff (p q : Quat R) : Quat R := qcomb 1 p (-1) q.
Lemma arc_point p q a : qnorm2 p = 1 -> qnorm2 q = 1 -> 0 < a <= PI / 2 -> qdot p q = cos a ->
  exists n, dot3 n n = 1 /\ hamilton q (qconj p) = quat (smul3 (sin a) n) (cos a) /\
    forall t r, qnorm2 r = 1 -> qdot p r = cos (t * a) -> qdot r q = cos ((1 - t) * a) ->
      hamilton r (qconj p) = quat (smul3 (sin (t * a)) n) (cos (t * a)).
Proof.
  intros Np Nq Ha D. pose proof PI_RGT_0 as Hpi. assert (S : 0 < sin a) by (apply sin_gt_0; lra).
  set (g := hamilton q (qconj p)). assert (Ng : qnorm2 g = 1) by (unfold g; rewrite hamilton_norm, conj_norm, Np, Nq; ring).
  assert (Wg : qw g = cos a).
  { rewrite <- D. unfold g. clear. qsimp. ring. }
  exists (smul3 (/ sin a) (qvec g)).
  assert (V : dot3 (qvec g) (qvec g) = sin a * sin a).
  { destruct (unit_w g Ng) as [_ V]. rewrite V, Wg. pose proof (sin2_cos2 a); unfold Rsqr in *; lra. }
  assert (Eg : g = quat (smul3 (sin a) (smul3 (/ sin a) (qvec g))) (cos a)).
  { rewrite <- Wg. clear - S. destruct g as [g0 g1 g2 g3]. unfold quat, smul3, qvec. cbn. f_equal; field; lra. }
  split; [|split; [exact Eg|]].
  { replace (dot3 _ _) with (/ sin a * / sin a * dot3 (qvec g) (qvec g)) by (unfold dot3, smul3; cbn; ring). rewrite V. field. lra. }
  intros t r Nr Dr Dq. pose proof (arc_identity a t ltac:(lra)) as [I1 I2].
  set (x := sin (a * (1 - t)) / sin a) in *. set (y := sin (a * t) / sin a) in *.
  replace (t * a) with (a * t) in * by ring. replace ((1 - t) * a) with (a * (1 - t)) in * by ring.
  assert (Ns : qnorm2 (qcomb x p y q) = 1).
  { rewrite qnorm_comb, D by assumption. replace (x * x + y * y + 2 * x * y * cos a) with ((x + y * cos a) * (x + y * cos a) + y * y * (1 - cos a * cos a)) by ring.
    rewrite I1. replace (1 - cos a * cos a) with (sin a * sin a) by (pose proof (sin2_cos2 a); unfold Rsqr in *; lra).
    replace (y * y * (sin a * sin a)) with (sin (a * t) * sin (a * t)) by (unfold y; field; lra).
    pose proof (sin2_cos2 (a * t)); unfold Rsqr in *; lra. }
  assert (E : r = qcomb x p y q).
  { apply qdot_one; [assumption..|]. rewrite qdot_comb_r, (qdot_sym r p), Dr, Dq. rewrite <- I1, <- I2.
    rewrite qnorm_comb, D in Ns by assumption. lra. }
  rewrite E. replace (hamilton (qcomb x p y q) (qconj p)) with (qcomb x qone y g).
  - rewrite <- I1, <- Wg. unfold y. clear - S. destruct g as [g0 g1 g2 g3]. unfold quat, smul3, qvec, qcomb, qone, zero3. cbn. f_equal; field; lra.
  - unfold g. rewrite <- (proj1 (conj_inverse p Np)). clear. unfold qcomb. qsimp. f_equal; ring.
Qed.
Lemma hmat_turn q v : m3_apply (hmat q) v = qturn q v.
Proof.
  unfold m3_apply, hmat. destruct v as [v1 v2 v3]. qdes. cbn [mx3 my3 mz3]. rewrite qturn_mk, !hamilton_mk. unfold qvec. qcbn. rops. f_equal; ring.
Qed.
Lemma qturn_mul p q u : qturn (hamilton p q) u = qturn p (qturn q u).
Proof.
  rewrite <- !hmat_turn. apply vec3_ext. intros i Hi. rewrite !m3_apply_eq by exact Hi.
  rewrite (mulv_meq 3 _ _ _ i (hmat_mul p q)), mulv_mmul by exact Hi. apply mulv_ext; intros j Hj; [reflexivity|]. symmetry. apply m3_apply_eq, Hj.
Qed.
Lemma qturn_rodrigues n a u : dot3 n n = 1 -> qturn (quat (smul3 (sin a) n) (cos a)) u = rodrigues n (2 * a) u.
Proof.
  intros N. rewrite qturn_axis; [|exact N|apply cs1]. unfold rodrigues. rewrite sin_2a, cos_2a_sin.
  destruct n as [x y z], u as [p q r]. unfold plus3, smul3, cross3, dot3 in *. cbn [x3 y3 z3] in *. f_equal; nsatz.
Qed.
Lemma qturn_step g p q u : qnorm2 p = 1 -> hamilton q (qconj p) = g -> qturn q u = qturn g (qturn p u).
Proof.
  intros N <-. rewrite <- qturn_mul, hamilton_assoc, (proj2 (conj_inverse p N)), (proj2 (hamilton_one q)). reflexivity.
Qed.
Lemma qturn_neg q u : qturn (qneg q) u = qturn q u.
Proof. rewrite <- !hmat_turn. f_equal. unfold hmat. destruct q. unfold qneg, quat, smul3, qvec. cbn. f_equal; f_equal; ring. Qed.

Lemma norm3_plus u v : norm3 (plus3 u v) <= norm3 u + norm3 v.
Proof.
  pose proof (norm3_nonneg u). pose proof (norm3_nonneg v). apply Rsqr_incr_0_var; [|lra]. unfold Rsqr.
  rewrite norm3_sqr. pose proof (norm3_sqr u) as A. pose proof (norm3_sqr v) as B.
  assert (C : dot3 u v <= norm3 u * norm3 v).
  { apply Rsqr_incr_0_var; [|nra]. unfold Rsqr. replace (norm3 u * norm3 v * (norm3 u * norm3 v)) with (dot3 u u * dot3 v v) by (rewrite <- A, <- B; ring).
    clear. destruct u as [a b c], v as [x y z]. unfold dot3. cbn.
    pose proof (Rle_0_sqr (a * y - b * x)). pose proof (Rle_0_sqr (a * z - c * x)). pose proof (Rle_0_sqr (b * z - c * y)). unfold Rsqr in *. nra. }
  replace (dot3 (plus3 u v) (plus3 u v)) with (dot3 u u + dot3 v v + 2 * dot3 u v) by (unfold dot3, plus3; cbn; ring). lra.
Qed.
Lemma qvec_norm q : norm3 (qvec q) <= sqrt (qnorm2 q).
Proof. unfold norm3, qnorm2. apply sqrt_le_1_alt. unfold qdot. pose proof (Rle_0_sqr (qw q)). unfold Rsqr in *. lra. Qed.
Lemma qturn_near r s u e : 0 <= e -> qnorm2 r = 1 -> qnorm2 s = 1 -> qdist2 r s <= e * e ->
  norm3 (minus3 (qturn r u) (qturn s u)) <= 2 * e * norm3 u.
Proof.
  intros He Nr Ns D.
  set (d := mkQ (qx r - qx s) (qy r - qy s) (qz r - qz s) (qw r - qw s)).
  assert (Nd : qnorm2 d = qdist2 r s) by (unfold d, qdist2; clear; qsimp; ring).
  assert (E : minus3 (qturn r u) (qturn s u) =
    plus3 (qvec (hamilton (hamilton d (quat u 0)) (qconj r))) (qvec (hamilton (hamilton s (quat u 0)) (qconj d)))).
  { unfold d, qturn, minus3. clear. destruct u as [u0 u1 u2], r as [r0 r1 r2 r3], s as [s0 s1 s2 s3].
    unfold qconj, quat, smul3, qvec, plus3. cbn [qx qy qz qw x3 y3 z3]. rewrite !hamilton_mk. cbn [qx qy qz qw x3 y3 z3]. f_equal; ring. }
  assert (Nu : qnorm2 (quat u 0) = dot3 u u) by (clear; destruct u; qsimp; ring).
  rewrite E. eapply Rle_trans; [apply norm3_plus|].
  assert (A : forall x y, qnorm2 x * qnorm2 y <= e * e -> norm3 (qvec (hamilton (hamilton x (quat u 0)) (qconj y))) <= e * norm3 u).
  { intros x y H. eapply Rle_trans; [apply qvec_norm|]. rewrite !hamilton_norm, conj_norm, Nu.
    rewrite <- (sqrt_Rsqr (e * norm3 u)) by (apply Rmult_le_pos; [exact He|apply norm3_nonneg]). apply sqrt_le_1_alt. unfold Rsqr.
    replace (e * norm3 u * (e * norm3 u)) with (e * e * (norm3 u * norm3 u)) by ring. rewrite norm3_sqr.
    pose proof (dot3_nonneg u). nra. }
  pose proof (A d r ltac:(rewrite Nd, Nr; lra)). pose proof (A s d ltac:(rewrite Nd, Ns; lra)). lra.
Qed.

(** * Mat3 *)
Lemma m3_apply_meq a b u : meq 3 (ent3 a) (ent3 b) -> m3_apply a u = m3_apply b u.
Proof. intros E. apply vec3_ext. intros i Hi. rewrite !m3_apply_eq by exact Hi. apply mulv_meq; assumption. Qed.
Lemma m3_turns m u : rotation (ent3 m) -> qnorm2 (q_of_mat3 m) = 1 /\ m3_apply m u = qturn (q_of_mat3 m) u.
Proof.
  intros H. destruct (q_of_mat3_spec m H) as [N E]. split; [exact N|].
  rewrite <- (m3_apply_meq _ _ u E). apply of_quat_turns, N.
Qed.
Lemma arc_turn p q a : qnorm2 p = 1 -> qnorm2 q = 1 -> 0 <= a <= PI / 2 -> qdot p q = cos a ->
  exists n, dot3 n n = 1 /\ (forall u, qturn q u = rodrigues n (2 * a) (qturn p u)) /\
    forall t r, qnorm2 r = 1 -> qdot p r = cos (t * a) -> qdot r q = cos ((1 - t) * a) ->
      forall u, qturn r u = rodrigues n (t * (2 * a)) (qturn p u).
Proof.
  intros Np Nq [[A0|A0] A1] D.
  - destruct (arc_point p q a Np Nq (conj A0 A1) D) as (n & N & E & F). exists n. split; [exact N|].
    split; [intros u|intros t r Nr Dr Dq u; replace (t * (2 * a)) with (2 * (t * a)) by ring];
      rewrite <- qturn_rodrigues by exact N; apply qturn_step; auto.
  - subst a. rewrite cos_0 in D. exists (mkV3 1 0 0). split; [unfold dot3; cbn; ring|].
    assert (Q : p = q) by (apply qdot_one; assumption). subst q.
    split; [intros u|intros t r Nr Dr Dq u].
    2: rewrite Rmult_0_r, cos_0 in Dr; assert (Q' : p = r) by (apply qdot_one; assumption); subst r.
    all: rewrite ?Rmult_0_r; symmetry; generalize (qturn p u); intros [x y z]; unfold rodrigues, plus3, smul3, cross3, dot3; cbn; rewrite cos_0, sin_0; f_equal; ring.
Qed.
Lemma nearest_turn p q u : qturn (nearest p q) u = qturn q u.
Proof. unfold nearest. destruct (Rltb _ _); [apply qturn_neg|reflexivity]. Qed.
(** Half the angle of the turn from one quaternion to the other. *)
Definition arc_angle (p q : Quat R) : R := acos (Rabs (qdot p q)).
Lemma arc_angle_facts (p q : Quat R) : qnorm2 p = 1 -> qnorm2 q = 1 -> 0 <= arc_angle p q <= PI / 2 /\ cos (arc_angle p q) = Rabs (qdot p q).
Proof.
  intros Np Nq. pose proof (qdot_bound p q Np Nq) as B. assert (A : 0 <= Rabs (qdot p q) <= 1) by (split; [apply Rabs_pos|apply Rabs_le; exact B]).
  unfold arc_angle. rewrite cos_acos by lra. split; [|reflexivity]. pose proof (acos_bound (Rabs (qdot p q))) as C. split; [lra|].
  destruct (Rle_lt_dec (acos (Rabs (qdot p q))) (PI / 2)) as [L|L]; [exact L|exfalso].
  assert (cos (acos (Rabs (qdot p q))) < cos (PI / 2)) by (apply cos_decreasing_1; lra). rewrite cos_acos, cos_PI2 in * by lra. lra.
Qed.
Lemma same_angle a b : 0 <= a <= PI / 2 -> 0 <= b <= PI / 2 -> cos a = cos b -> a = b.
Proof.
  intros A B E. pose proof PI_RGT_0. destruct (Rtotal_order a b) as [L|[L|L]]; [|exact L|].
  - assert (cos b < cos a) by (apply cos_decreasing_1; lra). lra.
  - assert (cos a < cos b) by (apply cos_decreasing_1; lra). lra.
Qed.
Lemma q_slerp_path p q : qnorm2 p = 1 -> qnorm2 q = 1 -> exists n d, dot3 n n = 1 /\ 0 <= d <= PI /\ cos (d / 2) = Rabs (qdot p q) /\
  (forall u, qturn q u = rodrigues n d (qturn p u)) /\
  forall w, 0 <= w <= 1 -> exists r, q_slerp p q w = Ok r /\ qnorm2 r = 1 /\
    (w = 0 -> r = p) /\ (w = 1 -> forall u, qturn r u = qturn q u) /\
    (cos (d / 2) < 95 / 100 -> forall u, qturn r u = rodrigues n (w * d) (qturn p u)) /\
    (forall u, norm3 (minus3 (qturn r u) (rodrigues n (w * d) (qturn p u))) <= 1 / 15 * norm3 u).
Proof.
  intros Np Nq. destruct (arc_angle_facts p q Np Nq) as [A C]. set (a := arc_angle p q) in *.
  destruct (nearest_facts p q Nq) as (Nn & Dn & On). set (q' := nearest p q) in *.
  destruct (arc_turn p q' a Np Nn A ltac:(lra)) as (n & N & E & F).
  assert (Q : forall u, qturn q' u = qturn q u) by (intros u; apply nearest_turn).
  exists n, (2 * a). split; [exact N|]. split; [lra|]. replace (2 * a / 2) with a by field. split; [exact C|].
  split; [intros u; rewrite <- Q; apply E|]. intros w Hw.
  destruct (Rlt_le_dec (Rabs (qdot p q)) (95 / 100)) as [L|L].
  - rewrite q_slerp_eq by exact Hw. destruct (Rltb_spec (Rabs (qdot p q)) (95 / 100)) as [_|?]; [|lra].
    assert (Hd : -1 < qdot p q' < 1) by (rewrite Dn; pose proof (Rabs_pos (qdot p q)); lra).
    destruct (q_arc_spec p q' w Np Nn Hd) as (_ & _ & Nr & Q1 & Q2). destruct (arc_ends p q' Np Nn Hd) as [R0 R1].
    fold q'. rewrite <- Dn. set (r := q_arc p q' (qdot p q') w) in *.
    assert (Ea : acos (qdot p q') = a) by (rewrite Dn; reflexivity). rewrite Ea in *.
    assert (T : forall u, qturn r u = rodrigues n (w * (2 * a)) (qturn p u)).
    { apply F; [exact Nr|rewrite Q1; f_equal; ring|rewrite Q2; f_equal; ring]. }
    exists r. split; [reflexivity|]. split; [exact Nr|].
    split; [intros ->; exact R0|]. split; [intros ->; subst r; rewrite R1; exact Q|]. split; [intros _; exact T|].
    intros u. rewrite T. replace (minus3 _ _) with zero3 by (unfold minus3, zero3; f_equal; ring).
    rewrite (proj2 (norm3_zero zero3) eq_refl). pose proof (norm3_nonneg u). lra.
  - destruct (q_slerp_near p q w Np Nq Hw L) as (r & q2 & s & b & Er & Nr & O2 & B & Db & Ns & S1 & S2 & D2 & R0 & R1).
    assert (Eq2 : q2 = q').
    { assert (Cb : 0 <= cos b) by (apply cos_ge_0; lra). unfold q', nearest. clear - O2 Db Cb L.
      destruct (Rltb_spec (qdot p q) 0) as [H|H]; destruct O2 as [->| ->]; try reflexivity; exfalso; [|rewrite qdot_neg_r in Db];
      destruct (Rcase_abs (qdot p q)) as [G|G]; [rewrite Rabs_left in L by lra|rewrite Rabs_right in L by lra|rewrite Rabs_left in L by lra|rewrite Rabs_right in L by lra]; lra. }
    subst q2. assert (Eb : b = a) by (apply same_angle; lra). subst b.
    exists r. split; [exact Er|]. split; [exact Nr|]. split; [exact R0|]. split; [intros H; rewrite (R1 H); exact Q|]. split; [lra|].
    intros u. rewrite <- (F w s Ns S1 S2). replace (1 / 15) with (2 * (1 / 30)) by field. apply qturn_near; [lra|assumption..].
Qed.
Lemma m3_slerp_path a b : rotation (ent3 a) -> rotation (ent3 b) -> exists n d, dot3 n n = 1 /\ 0 <= d <= PI /\
  (forall u, m3_apply b u = rodrigues n d (m3_apply a u)) /\
  forall w, 0 <= w <= 1 -> exists r, m3_slerp a b w = Ok r /\ rotation (ent3 r) /\ exact3 r /\
    (w = 0 -> forall u, m3_apply r u = m3_apply a u) /\ (w = 1 -> forall u, m3_apply r u = m3_apply b u) /\
    (cos (d / 2) < 95 / 100 -> forall u, m3_apply r u = rodrigues n (w * d) (m3_apply a u)) /\
    (forall u, norm3 (minus3 (m3_apply r u) (rodrigues n (w * d) (m3_apply a u))) <= 1 / 15 * norm3 u).
Proof.
  intros Ra Rb. assert (Ta := fun u => proj2 (m3_turns a u Ra)). assert (Tb := fun u => proj2 (m3_turns b u Rb)).
  destruct (m3_turns a zero3 Ra) as [Na _]. destruct (m3_turns b zero3 Rb) as [Nb _].
  destruct (q_slerp_path _ _ Na Nb) as (n & d & N & D & _ & E & F). exists n, d. split; [exact N|]. split; [exact D|].
  split; [intros u; rewrite Ta, Tb; apply E|]. intros w Hw. destruct (F w Hw) as (r & Er & Nr & R0 & R1 & P & Q).
  destruct (of_quat_turns r Nr) as [Rr Tr]. exists (m3_of_quat r). unfold m3_slerp. rewrite Er. cbn [bind].
  split; [reflexivity|]. split; [exact Rr|]. split; [apply m3_of_quat_exact|].
  split; [intros H u; rewrite Tr, Ta, (R0 H); reflexivity|]. split; [intros H u; rewrite Tr, Tb; apply R1, H|].
  split; [intros H u|intros u]; rewrite Tr, Ta; [apply P, H|apply Q].
Qed.

(** * Interpolation with a limited angle *)
Lemma m3_relative a b : rotation (ent3 a) -> rotation (ent3 b) ->
  let g := hamilton (qconj (q_of_mat3 a)) (q_of_mat3 b) in
  qnorm2 g = 1 /\ id_defect 3 (mmul 3 (mtrans (ent3 a)) (ent3 b)) = 8 * dot3 (qvec g) (qvec g) /\
  forall u, m3_apply b u = m3_apply a (qturn g u).
Proof.
  intros Ra Rb g. destruct (q_of_mat3_spec a Ra) as [Na Ea]. destruct (q_of_mat3_spec b Rb) as [Nb Eb].
  assert (Ng : qnorm2 g = 1) by (unfold g; rewrite hamilton_norm, conj_norm, Na, Nb; ring).
  split; [exact Ng|]. split.
  - rewrite <- (qturn_id_defect g Ng). symmetry. apply id_defect_ext.
    assert (Nc : qnorm2 (qconj (q_of_mat3 a)) = 1) by (rewrite conj_norm; exact Na).
    intros i j Hi Hj. rewrite (hmat_eq g Ng i j Hi Hj). unfold g. rewrite (hmat_mul _ _ i j Hi Hj).
    apply mmul_ext; [| |exact Hi|exact Hj]; intros x y Hx Hy.
    + rewrite <- (hmat_eq _ Nc x y Hx Hy), (m3_of_quat_conj _ x y Hx Hy). unfold mtrans. apply Ea; assumption.
    + rewrite <- (hmat_eq _ Nb x y Hx Hy). apply Eb; assumption.
  - intros u. rewrite (proj2 (m3_turns b u Rb)), (proj2 (m3_turns a _ Ra)), <- qturn_mul. f_equal.
    unfold g. rewrite <- hamilton_assoc, (proj1 (conj_inverse _ Na)). symmetry. apply (proj1 (hamilton_one _)).
Qed.
Lemma rodrigues_0 n u : rodrigues n 0 u = u.
Proof. destruct n as [a b c], u as [x y z]. unfold rodrigues, plus3, smul3, cross3, dot3. cbn. rewrite cos_0, sin_0. f_equal; ring. Qed.
Lemma min_Rmin (x y : R) : min_ x y = Rmin x y.
Proof.
  unfold min_. rops. unfold Rmin. destruct (Rleb_spec x y); destruct (Rle_dec x y); try lra; try reflexivity.
  all: destruct (Rltb_spec x y); try lra; try reflexivity.
Qed.
Lemma m3_slerpMax_path a b mx : rotation (ent3 a) -> rotation (ent3 b) -> 0 <= mx ->
  exists r, m3_slerpMaxAngle a b mx = Ok r /\ rotation (ent3 r) /\ exact3 r /\
    (id_defect 3 (mmul 3 (mtrans (ent3 a)) (ent3 b)) <= 8 * q_DELTA -> forall u, m3_apply r u = u) /\
    (8 * q_DELTA < id_defect 3 (mmul 3 (mtrans (ent3 a)) (ent3 b)) -> exists n d, norm3 n = 1 /\ 0 <= d <= 2 * PI /\
       (forall u, m3_apply b u = m3_apply a (rodrigues n d u)) /\ forall u, m3_apply r u = rodrigues n (Rmin d mx) u).
Proof.
  intros Ra Rb Hm. destruct (m3_relative a b Ra Rb) as (Ng & Dg & Tg). set (g := hamilton _ _) in *.
  unfold m3_slerpMaxAngle, q_slerpMaxAngle. rops. destruct (Rleb_spec 0 mx); [|lra]. cbn [assert_then].
  rewrite q_mul_eq, q_inverse_eq. fold g. rewrite Dg.
  assert (One : forall n, norm3 n = 1 -> n <> zero3) by (intros n H ->; rewrite (proj2 (norm3_zero zero3) eq_refl) in H; lra).
  assert (One' : forall n, norm3 n = 1 -> smul3 (/ norm3 n) n = n) by (intros [x y z] ->; unfold smul3; cbn; rewrite Rinv_1; f_equal; ring).
  destruct (Rle_lt_dec (dot3 (qvec g) (qvec g)) q_DELTA) as [L|L].
  - rewrite (q_toAxisAngle_small g Ng L). cbn [bind]. rewrite min_Rmin, Rmin_left by lra.
    assert (X : mkV3 1 0 0 <> zero3) by (intros [= E]; lra). destruct (q_of_axis_spec (mkV3 1 0 0) 0 X) as (N & T & _).
    destruct (of_quat_turns _ N) as [R' T']. eexists. split; [reflexivity|]. split; [exact R'|]. split; [apply m3_of_quat_exact|].
    split; [intros _ u; rewrite T', T; apply rodrigues_0|lra].
  - destruct (q_toAxisAngle_spec g Ng L) as (n & d & -> & Nn & Bd & E). cbn [bind]. rewrite min_Rmin.
    destruct (q_of_axis_spec n (Rmin d mx) (One n Nn)) as (N & T & _). destruct (q_of_axis_spec n d (One n Nn)) as (_ & Td & _).
    destruct (of_quat_turns _ N) as [R' T']. eexists. split; [reflexivity|]. split; [exact R'|]. split; [apply m3_of_quat_exact|].
    split; [lra|]. intros _. exists n, d. rewrite One' in T, Td by exact Nn. split; [exact Nn|]. split; [exact Bd|].
    split; intros u; [rewrite Tg, <- E, Td; reflexivity|rewrite T'; apply T].
Qed.

(** * orthonormalise in space *)
Lemma q_normalize_norm q : qnorm2 (q_normalize q) = 1.
Proof.
  rewrite q_normalize_eq. destruct (Reqb_spec (sqrt (qnorm2 q)) 0) as [H|H]; [unfold qnorm2, qdot, dot3, qone, quat, qvec, zero3; cbn; ring|].
  rewrite qscale_norm. rewrite <- (sqrt_sqrt (qnorm2 q)) at 3 by apply qnorm2_nonneg. field. exact H.
Qed.
Lemma m3_orthonormalise_spec m : rotation (ent3 (m3_orthonormalise m)) /\
  (rotation (ent3 m) -> meq 3 (ent3 (m3_orthonormalise m)) (ent3 m)).
Proof.
  unfold m3_orthonormalise. split; [apply m3_of_quat_rotation, q_normalize_norm|].
  intros H. destruct (q_of_mat3_spec m H) as [N E]. rewrite q_normalize_unit by exact N. exact E.
Qed.
Lemma m4_orthonormalise_spec m : rotation (ent4 (m4_orthonormalise m)) /\ trs (ent4 (m4_orthonormalise m)) /\
  (forall i, (i < 3)%nat -> ent4 (m4_orthonormalise m) i 3%nat = 0) /\
  (rotation (ent4 m) -> meq 3 (ent4 (m4_orthonormalise m)) (ent4 m)).
Proof.
  unfold m4_orthonormalise. set (q := q_of_columns _ _ _). destruct (m4_of_quat_full (q_normalize q) v3_zero) as (A & B & C).
  pose proof (m3_of_quat_rotation _ (q_normalize_norm q)) as Rq.
  split; [|split; [exact B|split]].
  - apply (rotation_ext (ent3 (m3_of_quat (q_normalize q)))); [intros i j Hi Hj; symmetry; apply A; assumption|exact Rq].
  - intros i Hi. rewrite C by exact Hi. destruct i as [|[|[|i]]]; [reflexivity..|lia].
  - intros H. set (n := mkM3 (v4_toVec3 (mx4 m)) (v4_toVec3 (my4 m)) (v4_toVec3 (mz4 m)) flags_uninit).
    assert (En : meq 3 (ent3 n) (ent4 m)) by (intros [|[|[|i]]] [|[|[|j]]] Hi Hj; try lia; reflexivity).
    assert (Rn : rotation (ent3 n)) by (apply (rotation_ext (ent4 m)); [intros i j Hi Hj; symmetry; apply En; assumption|exact H]).
    destruct (q_of_mat3_spec n Rn) as [N E]. change (q_of_mat3 n) with q in *.
    rewrite q_normalize_unit in * by exact N. intros i j Hi Hj. rewrite (A i j Hi Hj), (E i j Hi Hj). apply En; assumption.
Qed.

(** * The affine matrices: the translation is lost *)
Lemma m34_slerp_loses a b w r : m34_slerp a b w = Ok r -> m3_slerp (rs34 a) (rs34 b) w = Ok (rs34 r) /\ t34 r = zero3.
Proof. unfold m34_slerp. destruct (m3_slerp _ _ _); cbn [bind]; try discriminate. intros [= <-]. split; reflexivity. Qed.
Lemma m34_slerpMax_loses a b mx r : m34_slerpMaxAngle a b mx = Ok r -> m3_slerpMaxAngle (rs34 a) (rs34 b) mx = Ok (rs34 r) /\ t34 r = zero3.
Proof. unfold m34_slerpMaxAngle. destruct (m3_slerpMaxAngle _ _ _); cbn [bind]; try discriminate. intros [= <-]. split; reflexivity. Qed.

(** From the identity to a rotation by less than a half turn, with a limit of a
    half turn: the target is not reached. *)
Definition bq : Quat R := mkQ (12 / 13) 0 0 (- (5 / 13)).
Lemma bq_norm : qnorm2 bq = 1. Proof. unfold bq, qnorm2, qdot, dot3, qvec. cbn. field. Qed.
Lemma q_of_bq : q_of_mat3 (m3_of_quat bq) = bq.
Proof.
  assert (S : sqrt (576 / 169) = 24 / 13) by (replace (576 / 169) with ((24 / 13) * (24 / 13)) by field; apply sqrt_square; lra).
  unfold q_of_mat3, q_of_columns, m3_of_quat. cbv zeta. unfold bq. cbn. rops. rlit.
  repeat match goal with |- context [Rltb ?x ?y] => destruct (Rltb_spec x y) as [?|?]; [try lra|try lra] end.
  cbn [andb]. match goal with |- context [sqrt ?x] => replace x with (576 / 169) by field end. rewrite S. f_equal; field.
Qed.
Lemma q_of_one : q_of_mat3 (m3_one : Mat3 R) = qone.
Proof.
  assert (S : sqrt 4 = 2) by (replace 4 with (2 * 2) by ring; apply sqrt_square; lra).
  unfold q_of_mat3, q_of_columns, m3_one, m3_scalar. cbn. rops. rlit.
  repeat match goal with |- context [Rltb ?x ?y] => destruct (Rltb_spec x y) as [?|?]; [try lra|try lra] end.
  match goal with |- context [sqrt ?x] => replace x with 4 by ring end. rewrite S. unfold qone, quat, zero3. cbn. f_equal; field.
Qed.
Lemma m3_slerpMax_long : exists (b : Mat3 R) n d r, rotation (ent3 b) /\ norm3 n = 1 /\ 0 < d < PI /\
  (forall u, m3_apply b u = rodrigues n d u) /\ m3_slerpMaxAngle m3_one b PI = Ok r /\ exists u, m3_apply r u <> m3_apply b u.
Proof.
  pose proof PI_RGT_0 as Hpi. pose proof bq_norm as N. destruct (of_quat_turns bq N) as [R T].
  pose proof (acos_bound_lt (5 / 13) ltac:(lra)) as A. assert (C : cos (acos (5 / 13)) = 5 / 13) by (apply cos_acos; lra).
  set (a := acos (5 / 13)) in *. clearbody a.
  assert (A2 : a < PI / 2). { destruct (Rlt_le_dec a (PI / 2)) as [L|L]; [exact L|exfalso]. assert (cos a <= 0) by (apply cos_le_0; lra). lra. }
  assert (S : sin a = 12 / 13).
  { assert (0 < sin a) by (apply sin_gt_0; lra). pose proof (sin2_cos2 a) as E. unfold Rsqr in E. rewrite C in E. nra. }
  assert (D : q_DELTA < dot3 (qvec bq) (qvec bq)).
  { unfold bq, dot3, qvec. cbn. unfold q_DELTA. rops. rlit. lra. }
  destruct (q_slerpMaxAngle_one bq PI N D ltac:(lra)) as (axis & angle & E & Na & Ba & F).
  assert (Za : axis <> zero3) by (intros ->; rewrite (proj2 (norm3_zero zero3) eq_refl) in Na; lra).
  pose proof E as E'. rewrite (q_of_axis_eq axis angle Za) in E'.
  assert (Cw : cos (angle / 2) = - (5 / 13)) by (apply (f_equal qw) in E'; cbn in E'; symmetry; exact E').
  assert (L : PI < angle).
  { destruct (Rlt_le_dec PI angle) as [L|L]; [exact L|exfalso]. assert (0 <= cos (angle / 2)) by (apply cos_ge_0; lra). lra. }
  rewrite Rmin_right in F by lra.
  exists (m3_of_quat bq), (mkV3 (-1) 0 0), (2 * a), (m3_of_quat (q_of_axis axis PI)).
  split; [exact R|]. split; [unfold norm3, dot3; cbn; replace (_ + _) with 1 by ring; apply sqrt_1|]. split; [lra|]. split.
  { intros u. rewrite T, <- qturn_neg, <- qturn_rodrigues by (unfold dot3; cbn; ring). f_equal. rewrite S, C.
    unfold qneg, bq, quat, smul3, qvec. cbn. f_equal; ring. }
  split; [unfold m3_slerpMaxAngle; rewrite q_of_one, q_of_bq, F; reflexivity|].
  destruct (q_of_axis_spec axis PI Za) as (N2 & T2 & _). destruct (of_quat_turns _ N2) as [_ T3].
  exists (mkV3 0 1 0). rewrite T, T3, T2, Na. intros H. apply (f_equal (dot3 (mkV3 0 0 1))) in H.
  assert (Y : x3 axis <> 0 /\ y3 axis = 0 /\ z3 axis = 0).
  { unfold unitv in E'. rewrite Na in E'. unfold quat, smul3, bq in E'. injection E' as X1 X2 X3 X4.
    assert (sin (angle / 2) <> 0) by (intros Z; rewrite Z in X1; lra).
    repeat split; [intros Z; rewrite Z in X1; lra| |]; apply (Rmult_eq_reg_l (sin (angle / 2))); lra. }
  destruct axis as [x y z]. cbn in Y. destruct Y as (Y1 & -> & ->). revert H.
  unfold bq. rewrite qturn_mk, !hamilton_mk. unfold rodrigues, plus3, smul3, cross3, dot3, qvec. rewrite sin_PI, cos_PI. cbn. lra.
Qed.

(** Examples: a quarter turn, and an interpolation between two rotations. *)
Lemma slerp2_case : rotation2 (ent2 (m2_rotation 1)) /\ rotation2 (ent2 (m2_rotation 2)) /\ 0 <= 1 / 2 /\
  mx2 (mkM2 (mkV2 3 4) (mkV2 1 1) flags_uninit) <> zero2.
Proof. split; [apply m2_rotation_rot|]. split; [apply m2_rotation_rot|]. split; [lra|]. intros [= E _]. lra. Qed.
Lemma slerp3_case : rotation (ent3 (m3_one : Mat3 R)) /\ rotation (ent3 (m3_of_quat bq)) /\ 0 <= 1 / 3 <= 1 /\
  8 * q_DELTA < id_defect 3 (mmul 3 (mtrans (ent3 (m3_one : Mat3 R))) (ent3 (m3_of_quat bq))).
Proof.
  assert (R1 : rotation (ent3 (m3_one : Mat3 R))).
  { apply (rotation_ext (ent3 (m3_of_quat qone))).
    - rewrite m3_of_quat_ent. unfold qone, quat, zero3. cbn [qx qy qz qw x3 y3 z3]. intros [|[|[|i]]] [|[|[|j]]] Hi Hj; try lia; cbn; rops; ring.
    - apply m3_of_quat_rotation. unfold qnorm2, qdot, dot3, qone, quat, qvec, zero3. cbn. ring. }
  pose proof (m3_of_quat_rotation bq bq_norm) as R2. split; [exact R1|]. split; [exact R2|]. split; [lra|].
  destruct (m3_relative _ _ R1 R2) as (_ & -> & _). rewrite q_of_one, q_of_bq.
  unfold q_DELTA. rops. rlit. unfold qconj, qone, quat, bq, smul3, zero3, qvec. cbn [qx qy qz qw x3 y3 z3]. rewrite hamilton_mk. unfold dot3. cbn. lra.
Qed.
