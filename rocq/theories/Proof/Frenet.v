(** Frenet frame of a Bezier segment. *)
From Coq Require Import Reals ZArith Arith Lra Lia Bool Psatz Nsatz List.
From Verif.Base Require Import Outcome Array Wp Scalar ScalarR RFacts.
From Verif.Model Require Import Types Functions Vec Mat2 Mat3 Quat Mat4 Mat34 Spline Frenet.
From Verif.Spec Require Import NumSpec LinAlg VecSpec MatSpec QuatSpec Curve.
From Verif.Proof Require Import LinAlgFacts VecFacts VecProofs MatFacts MatProofs MatFlags MatInverse MatInverse4 MatRotation CurveProofs SplineProofs Components.
Local Open Scope R_scope.

Lemma acceleration_unique p1 p2 p3 p4 t a :
  has_acceleration (bez p1 p2 p3 p4) t a -> a = bacc p1 p2 p3 p4 t.
Proof.
  intros (c' & H & V). apply (velocity_unique (bvel p1 p2 p3 p4) t).
  - destruct V as (V1 & V2 & V3).
    assert (E : forall s, c' s = bvel p1 p2 p3 p4 s) by (intros s; apply (velocity_unique (bez p1 p2 p3 p4) s); [apply H|apply bez_velocity]).
    split; [|split]; (eapply deriv_ext; [|eassumption]); intros s; cbv beta; rewrite E; reflexivity.
  - eapply (velocity_cubic _ (smul3 3 (minus3 p2 p1)) (smul3 6 (plus3 (minus3 p3 (smul3 2 p2)) p1))
      (smul3 3 (plus3 (minus3 (minus3 p4 p1) (smul3 3 p3)) (smul3 3 p2))) zero3).
    + intros s. unfold bvel. cring.
    + unfold bacc. cring.
Qed.

Lemma dot3_zero_inv u : dot3 u u = 0 -> u = zero3.
Proof. intros H. apply norm3_eq0. unfold norm3. rewrite H. apply sqrt_0. Qed.

Lemma lagrange3 u v : dot3 (cross3 u v) (cross3 u v) = dot3 u u * dot3 v v - dot3 u v * dot3 u v.
Proof. vring. Qed.

Definition frenet_of (v a : Vec3 R) (frame : Mat3 R) : outcome (bool * Mat3 R) :=
  let binormal := v3_cross v a in
  let (tangent, lt) := v3_normalize v 1 in
  if feq lt 0 then Ok (false, frame)
  else
    let (binormal, lb) := v3_normalize binormal 1 in
    if feq lb 0 then Ok (false, frame)
    else
      let n := v3_cross binormal tangent in
      if v3_isNull n then Ok (false, frame)
      else Ok (true, m3_set binormal tangent n).

Lemma frenet_unfold (b : Bezier R) frame t : 0 <= t <= 1 ->
  bezier_frenetFrameAt b frame t =
  frenet_of (bvel (bP1 b) (bP2 b) (bP3 b) (bP4 b) t) (bacc (bP1 b) (bP2 b) (bP3 b) (bP4 b) t) frame.
Proof.
  intros Ht. unfold bezier_frenetFrameAt, frenet_of. rops. rewrite assert_unit by exact Ht.
  replace (sum4 (bP1 b) (bP2 b) (bP3 b) (bP4 b) (- (3) * (t * t) + 6 * t - 3) (9 * (t * t) - 12 * t + 3) (- (9) * (t * t) + 6 * t) (3 * (t * t)))
    with (bvel (bP1 b) (bP2 b) (bP3 b) (bP4 b) t) by (unfold bvel; cring).
  replace (sum4 (bP1 b) (bP2 b) (bP3 b) (bP4 b) (- (6) * t + 6) (18 * t - 12) (- (18) * t + 6) (6 * t))
    with (bacc (bP1 b) (bP2 b) (bP3 b) (bP4 b) t) by (unfold bacc; cring).
  reflexivity.
Qed.

Lemma frenet_false v a frame : cross3 v a = zero3 -> frenet_of v a frame = Ok (false, frame).
Proof.
  intros H. unfold frenet_of. rewrite v3_cross_eq, H.
  destruct (v3_normalize_spec v 1) as (w & -> & _). rops. destruct (Reqb (norm3 v) 0); [reflexivity|].
  destruct (v3_normalize_spec zero3 1) as (z & -> & _). rewrite (proj2 (norm3_zero zero3) eq_refl).
  rewrite (proj2 (Reqb_true 0 0) eq_refl). reflexivity.
Qed.

Lemma frenet_true v a frame : cross3 v a <> zero3 ->
  let B := unitv (cross3 v a) in let T := unitv v in
  frenet_of v a frame = Ok (true, m3_set B T (cross3 B T)) /\
  dot3 B B = 1 /\ dot3 T T = 1 /\ dot3 B T = 0 /\
  cross3 B T = smul3 (/ (norm3 (cross3 v a) * norm3 v)) (minus3 (smul3 (dot3 v v) a) (smul3 (dot3 v a) v)).
Proof.
  intros H. cbv zeta.
  assert (Hv : v <> zero3). { intros ->. apply H. vring. }
  pose proof (norm3_pos _ H) as PB. pose proof (norm3_pos _ Hv) as PT.
  assert (DB := unitv_dot _ H). assert (DT := unitv_dot _ Hv).
  assert (D0 : dot3 (unitv (cross3 v a)) (unitv v) = 0).
  { unfold unitv. set (k := / norm3 (cross3 v a)). set (l := / norm3 v). clearbody k l. vring. }
  assert (X : cross3 (unitv (cross3 v a)) (unitv v) =
    smul3 (/ (norm3 (cross3 v a) * norm3 v)) (minus3 (smul3 (dot3 v v) a) (smul3 (dot3 v a) v))).
  { rewrite Rinv_mult. unfold unitv. set (k := / norm3 (cross3 v a)). set (l := / norm3 v). clearbody k l. vring. }
  split; [|repeat (split; [assumption|]); exact X].
  unfold frenet_of. rewrite v3_cross_eq.
  destruct (v3_normalize_spec v 1) as (w & -> & _ & _ & K1). destruct (K1 Hv) as [_ ->].
  destruct (v3_normalize_spec (cross3 v a) 1) as (z & -> & _ & _ & K2). destruct (K2 H) as [_ ->].
  rops. rewrite !(proj2 (Reqb_false _ 0)) by lra. rewrite v3_cross_eq.
  replace (smul3 (1 / norm3 (cross3 v a)) (cross3 v a)) with (unitv (cross3 v a)) by (unfold unitv; f_equal; field; lra).
  replace (smul3 (1 / norm3 v) v) with (unitv v) by (unfold unitv; f_equal; field; lra).
  destruct (v3_isNull (cross3 (unitv (cross3 v a)) (unitv v))) eqn:E; [exfalso|reflexivity].
  apply (proj1 (proj2 (proj2 (v3_eqb_spec _ zero3)))) in E.
  pose proof (lagrange3 (unitv (cross3 v a)) (unitv v)) as L. rewrite E, DB, DT, D0 in L.
  unfold dot3, zero3 in L. cbn in L. lra.
Qed.

Lemma frame_rotation B T : dot3 B B = 1 -> dot3 T T = 1 -> dot3 B T = 0 ->
  rotation (ent3 (m3_set B T (cross3 B T))).
Proof.
  destruct B as [a b c], T as [p q r]. unfold dot3. cbn [x3 y3 z3]. intros H1 H2 H3.
  assert (L : (b * r - c * q) * (b * r - c * q) + (c * p - a * r) * (c * p - a * r) + (a * q - b * p) * (a * q - b * p) = 1).
  { replace 1 with (1 * 1 - 0 * 0) by ring. rewrite <- H1 at 1. rewrite <- H2, <- H3. ring. }
  unfold m3_set. rewrite ent3_optimize. split.
  - unfold cross3. entries3; msimp; first [ring | lra].
  - unfold cross3. detx. msimp. lra.
Qed.

Lemma smul3_smul3 k l u : smul3 k (smul3 l u) = smul3 (k * l) u.
Proof. vring. Qed.

Theorem frenet_spec (b : Bezier R) (frame : Mat3 R) t v a :
  0 <= t <= 1 ->
  has_velocity (bez (bP1 b) (bP2 b) (bP3 b) (bP4 b)) t v ->
  has_acceleration (bez (bP1 b) (bP2 b) (bP3 b) (bP4 b)) t a ->
  (cross3 v a = zero3 -> bezier_frenetFrameAt b frame t = Ok (false, frame)) /\
  (cross3 v a <> zero3 -> exists m, bezier_frenetFrameAt b frame t = Ok (true, m) /\
     rotation (ent3 m) /\ exact_flags 3 (ent3 m) (mf3 m) /\
     cross3 v a = smul3 (norm3 (cross3 v a)) (mx3 m) /\
     v = smul3 (norm3 v) (my3 m) /\
     0 < dot3 (mz3 m) a /\ dot3 (mz3 m) v = 0 /\ mz3 m = cross3 (mx3 m) (my3 m)).
Proof.
  intros Ht Hv Ha. rewrite frenet_unfold by exact Ht.
  apply (velocity_unique _ _ _ _ (bez_velocity _ _ _ _ _)) in Hv. rewrite Hv. rewrite <- (acceleration_unique _ _ _ _ _ _ Ha).
  split; [apply frenet_false|]. intros H.
  destruct (frenet_true v a frame H) as (E & B1 & T1 & BT & X).
  assert (Hv0 : v <> zero3). { intros ->. apply H. vring. }
  pose proof (norm3_pos _ H) as PB. pose proof (norm3_pos _ Hv0) as PT.
  eexists. split; [exact E|]. split; [apply frame_rotation; assumption|].
  split; [apply m3_optimized|]. cbn [m3_set m3_optimize m3_optimize_tol mx3 my3 mz3].
  split. { unfold unitv. rewrite smul3_smul3. rewrite Rinv_r by lra. symmetry. vring. }
  split. { unfold unitv. rewrite smul3_smul3. rewrite Rinv_r by lra. symmetry. vring. }
  split; [|split; [|reflexivity]].
  - rewrite X.
    replace (dot3 _ a) with (/ (norm3 (cross3 v a) * norm3 v) * dot3 (cross3 v a) (cross3 v a)) by (rewrite lagrange3; vring).
    apply Rmult_lt_0_compat; [apply Rinv_0_lt_compat; apply Rmult_lt_0_compat; assumption|].
    rewrite <- norm3_sqr. apply Rmult_lt_0_compat; assumption.
  - rewrite X. set (k := / _). clearbody k. vring.
Qed.

Lemma frenet_assert (b : Bezier R) frame t : ~ 0 <= t <= 1 -> bezier_frenetFrameAt b frame t = AssertFail.
Proof. intros H. unfold bezier_frenetFrameAt. rops. apply assert_unit_fail. exact H. Qed.

Lemma frenet_case : let b := mkBezier zero3 (mkV3 1 0 0) (mkV3 1 1 0) (mkV3 1 1 1) in
  (exists v a, has_velocity (bez (bP1 b) (bP2 b) (bP3 b) (bP4 b)) 0 v /\
     has_acceleration (bez (bP1 b) (bP2 b) (bP3 b) (bP4 b)) 0 a /\ cross3 v a <> zero3) /\
  bezier_frenetFrameAt b (m3_set zero3 zero3 zero3) 0 =
    Ok (true, m3_set (mkV3 0 0 1) (mkV3 1 0 0) (mkV3 0 1 0)).
Proof.
  intros b.
  assert (V : bvel (bP1 b) (bP2 b) (bP3 b) (bP4 b) 0 = mkV3 3 0 0) by (unfold b, bvel; cring).
  assert (A : bacc (bP1 b) (bP2 b) (bP3 b) (bP4 b) 0 = mkV3 (-6) 6 0) by (unfold b, bacc; cring).
  assert (X : cross3 (mkV3 3 0 0) (mkV3 (-6) 6 0) = mkV3 0 0 18) by vring.
  assert (N : mkV3 0 0 18 <> zero3) by (unfold zero3; intros E; injection E; lra).
  split.
  - do 2 eexists. split; [apply bez_velocity|]. split; [apply bez_acceleration|]. rewrite V, A, X. exact N.
  - rewrite frenet_unfold by lra. rewrite V, A. rewrite <- X in N. destruct (frenet_true _ _ (m3_set zero3 zero3 zero3) N) as (-> & _).
    rewrite X.
    assert (N1 : norm3 (mkV3 0 0 18) = 18).
    { unfold norm3, dot3. cbn [x3 y3 z3]. replace (0 * 0 + 0 * 0 + 18 * 18) with (18 * 18) by ring. apply sqrt_square; lra. }
    assert (N2 : norm3 (mkV3 3 0 0) = 3).
    { unfold norm3, dot3. cbn [x3 y3 z3]. replace (3 * 3 + 0 * 0 + 0 * 0) with (3 * 3) by ring. apply sqrt_square; lra. }
    unfold unitv. rewrite N1, N2. do 3 f_equal; unfold cross3, smul3; cbn [x3 y3 z3]; f_equal; lra.
Qed.
