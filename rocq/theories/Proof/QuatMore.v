(** Division of quaternions and interpolation of rotation matrices. *)
From Coq Require Import Reals ZArith Arith Lra Lia Bool Psatz.
From Verif.Base Require Import Outcome Scalar ScalarR RFacts.
From Verif.Model Require Import Types Functions Vec Mat2 Mat3 Quat Interpolation.
From Verif.Spec Require Import LinAlg NumSpec VecSpec MatSpec QuatSpec.
From Verif.Proof Require Import FunctionsProofs InterpolationProofs LinAlgFacts VecFacts VecProofs Polar MatFacts MatProofs MatFlags MatInverse MatInverse4 MatRotation QuatProofs QuatArc QuatSlerp MatHistory.
Local Open Scope R_scope.

Definition qscale (k : R) (q : Quat R) : Quat R := mkQ (k * qx q) (k * qy q) (k * qz q) (k * qw q).
Lemma q_div_eq a b : qnorm2 b = 1 ->
  q_div a b = qscale (/ (qw b * qw b - dot3 (qvec b) (qvec b))) (hamilton a b).
Proof.
  intros Hb. unfold q_div, q_make.
  assert (E : q_normalize (mkQ (- qx b) (- qy b) (- qz b) (qw b)) = mkQ (- qx b) (- qy b) (- qz b) (qw b)).
  { apply q_normalize_unit. revert Hb. destruct b as [bx b_y bz bw]. unfold qnorm2, qdot, qvec, dot3. cbn. intros <-. ring. }
  rops. rewrite E. cbn [qx qy qz qw]. rewrite q_mul_eq. unfold qscale, dot3, qvec. cbn [x3 y3 z3].
  replace (qw b * qw b - - qx b * - qx b - - qy b * - qy b - - qz b * - qz b)
    with (qw b * qw b - (qx b * qx b + qy b * qy b + qz b * qz b)) by ring.
  f_equal; unfold Rdiv; ring.
Qed.
Lemma hamilton_scale_l k a b : hamilton (qscale k a) b = qscale k (hamilton a b).
Proof. destruct a as [ax ay az aw], b as [bx b_y bz bw]. unfold qscale. cbn [qx qy qz qw]. rewrite !hamilton_mk. cbn [qx qy qz qw]. f_equal; ring. Qed.
(** Exactly which unit divisors work. *)
Lemma q_div_iff b : qnorm2 b = 1 -> qw b * qw b <> dot3 (qvec b) (qvec b) ->
  ((forall a, q_mul (q_div a b) b = a) <-> qw b = 0 \/ qvec b = zero3).
Proof.
  intros Hb Hd. set (d := qw b * qw b - dot3 (qvec b) (qvec b)). assert (D : d <> 0) by (unfold d; lra).
  assert (E : forall a, q_mul (q_div a b) b = qscale (/ d) (hamilton a (hamilton b b))).
  { intros a. rewrite (q_div_eq a b Hb), q_mul_eq, hamilton_scale_l, hamilton_assoc. reflexivity. }
  assert (B2 : hamilton b b = quat (smul3 (2 * qw b) (qvec b)) d).
  { unfold d. destruct b as [x y z w]. rewrite hamilton_mk. unfold quat, qvec, smul3, dot3. cbn. f_equal; ring. }
  split.
  - intros H. specialize (H qone). rewrite E, (proj1 (hamilton_one _)), B2 in H.
    destruct (Req_dec (qw b) 0) as [W|W]; [left; exact W|right].
    assert (K : forall c, / d * (2 * qw b * c) = 0 -> c = 0).
    { intros c Hc. apply Rmult_integral in Hc as [Hc|Hc]; [apply Rinv_neq_0_compat in D; contradiction|].
      apply Rmult_integral in Hc as [Hc|Hc]; [lra|exact Hc]. }
    unfold qscale, quat, smul3, qvec, qone, zero3 in H. cbn in H. injection H as H1 H2 H3 H4.
    apply K in H1. apply K in H2. apply K in H3. unfold qvec, zero3. rewrite H1, H2, H3. reflexivity.
  - intros H a. rewrite E, B2.
    assert (Z : smul3 (2 * qw b) (qvec b) = zero3).
    { destruct H as [-> | ->]; unfold smul3, zero3; cbn [x3 y3 z3]; f_equal; ring. }
    rewrite Z. destruct a as [x y z w]. unfold quat, zero3. cbn [x3 y3 z3]. rewrite hamilton_mk. unfold qscale. cbn [qx qy qz qw].
    f_equal; field; exact D.
Qed.

(** Interpolation of rotation matrices. *)
Lemma m3_slerp_spec a b w : rotation (ent3 a) -> rotation (ent3 b) -> 0 <= w <= 1 ->
  exists r, m3_slerp a b w = Ok r /\ rotation (ent3 r) /\ exact3 r /\
    (w = 0 -> meq 3 (ent3 r) (ent3 a)) /\ (w = 1 -> meq 3 (ent3 r) (ent3 b)).
Proof.
  intros Ra Rb Hw. destruct (q_of_mat3_spec a Ra) as [Na Ea]. destruct (q_of_mat3_spec b Rb) as [Nb Eb].
  assert (S : exists r q', q_slerp (q_of_mat3 a) (q_of_mat3 b) w = Ok r /\ qnorm2 r = 1 /\
     (q' = q_of_mat3 b \/ q' = qneg (q_of_mat3 b)) /\ (w = 0 -> r = q_of_mat3 a) /\ (w = 1 -> r = q')).
  { destruct (Rlt_dec (Rabs (qdot (q_of_mat3 a) (q_of_mat3 b))) (95 / 100)) as [L|L].
    - destruct (q_slerp_arc _ _ w Na Nb Hw L) as (r & q' & x & E & N & Q & _ & _ & _ & _ & H0 & H1). exists r, q'. auto.
    - destruct (q_slerp_near _ _ w Na Nb Hw ltac:(lra)) as (r & q' & s & x & E & N & Q & _ & _ & _ & _ & _ & _ & H0 & H1). exists r, q'. auto. }
  destruct S as (r & q' & E & N & Q & H0 & H1). exists (m3_of_quat r). unfold m3_slerp. rewrite E. cbn [bind].
  split; [reflexivity|]. split; [apply m3_of_quat_rotation; exact N|]. split; [apply m3_of_quat_exact|]. split; intros W.
  - rewrite (H0 W). exact Ea.
  - rewrite (H1 W). destruct Q as [-> | ->]; [exact Eb|]. eapply meq_trans; [apply m3_of_quat_neg|exact Eb].
Qed.
Lemma m2_rotation_congruent a b : congruent (2 * PI) a b -> m2_rotation a = m2_rotation b.
Proof. 
  intros [k H]. assert (E : a = b + 2 * IZR k * PI \/ a = b - 2 * IZR k * PI) by lra.
  unfold m2_rotation. rops. assert (C : cos a = cos b /\ sin a = sin b).
  { assert (P : forall x (z : Z), cos (x + 2 * IZR z * PI) = cos x /\ sin (x + 2 * IZR z * PI) = sin x).
    { intros x z. destruct (Z_le_gt_dec 0 z) as [L|L].
      - replace (IZR z) with (INR (Z.to_nat z)) by (rewrite INR_IZR_INZ, Z2Nat.id by lia; reflexivity). split; [apply cos_period|apply sin_period].
      - rewrite <- (cos_period (x + 2 * IZR z * PI) (Z.to_nat (- z))), <- (sin_period (x + 2 * IZR z * PI) (Z.to_nat (- z))).
        rewrite INR_IZR_INZ, Z2Nat.id, opp_IZR by lia. split; f_equal; ring. }
    destruct E as [E|E]; rewrite E; [apply P|]. replace (b - 2 * IZR k * PI) with (b + 2 * IZR (- k) * PI) by (rewrite opp_IZR; ring). apply P. }
  destruct C as [-> ->]. reflexivity.
Qed.
Lemma m2_angle_rotation m : rotation2 (ent2 m) -> meq 2 (ent2 (m2_rotation (m2_angle m))) (ent2 m).
Proof.
  intros [O D]. mdes2 m. revert O D. unfold orthonormal. intros O D.
  pose proof (O 0%nat 0%nat ltac:(lia) ltac:(lia)) as O1. pose proof (O 1%nat 1%nat ltac:(lia) ltac:(lia)) as O2. pose proof (O 0%nat 1%nat ltac:(lia) ltac:(lia)) as O3.
  revert O1 O2 O3 D. msimp. intros O1 O2 O3 D. clear O.
  assert (Y1 : yx = - xy).
  { pose proof (f_equal (Rmult yx) O1). pose proof (f_equal (Rmult xx) O3). pose proof (f_equal (Rmult xy) D). lra. }
  assert (Y2 : yy = xx).
  { pose proof (f_equal (Rmult yy) O1). pose proof (f_equal (Rmult xy) O3). pose proof (f_equal (Rmult xx) D). lra. }
  destruct (atan2_polar xy xx) as [P1 P2]. cbv zeta in *.
  replace (xx * xx + xy * xy) with 1 in P1, P2 by lra. rewrite sqrt_1, Rmult_1_l in P1, P2.
  unfold m2_rotation, m2_angle. rewrite ent2_optimize. entries2; msimp; rewrite <- ?P1, <- ?P2; lra.
Qed.
Lemma m2_slerp_spec a b w : rotation2 (ent2 a) -> rotation2 (ent2 b) ->
  exists r, m2_slerp a b w = Ok r /\ rotation2 (ent2 r) /\ exact2 r /\
    (w = 0 -> meq 2 (ent2 r) (ent2 a)) /\ (w = 1 -> meq 2 (ent2 r) (ent2 b)).
Proof.
  intros Ra Rb. destruct (clerp_spec (m2_angle a) (m2_angle b)) as (d & E & C & _).
  exists (m2_rotation (m2_angle a + d * w)). unfold m2_slerp. rewrite E. cbn [bind]. split; [reflexivity|].
  split; [apply m2_rotation_rot|]. split; [apply m2_optimized|]. split; intros ->.
  - replace (m2_angle a + d * 0) with (m2_angle a) by ring. apply m2_angle_rotation; exact Ra.
  - rewrite Rmult_1_r, (m2_rotation_congruent _ _ C). apply m2_angle_rotation; exact Rb.
Qed.
