(** Quaternions: axis and angle, rotation between directions, slerp. *)
From Coq Require Import Reals ZArith Arith Lra Lia Bool Psatz Nsatz.
From Verif.Base Require Import Outcome Wp Scalar ScalarR RFacts.
From Verif.Model Require Import Types Functions Vec Mat2 Mat3 Quat Mat4 Mat34.
From Verif.Spec Require Import LinAlg VecSpec MatSpec QuatSpec.
From Verif.Proof Require Import FunctionsProofs LinAlgFacts VecFacts VecProofs MatFacts MatProofs MatFlags MatInverse MatInverse4 MatRotation QuatProofs.
Local Open Scope R_scope.

(** The unit quaternion of axis n and half angle with cosine w and sine s. *)
Lemma qturn_axis n s w u : dot3 n n = 1 -> w * w + s * s = 1 ->
  qturn (quat (smul3 s n) w) u =
  plus3 (plus3 u (smul3 (2 * w * s) (cross3 n u))) (smul3 (2 * s * s) (cross3 n (cross3 n u))).
Proof.
  intros Hn Hs. destruct n as [x y z], u as [p q r]. unfold quat, smul3, dot3, cross3, plus3 in *. cbn [x3 y3 z3] in *.
  rewrite qturn_mk, !hamilton_mk. unfold qvec. qcbn.
  assert (W : w * w = 1 - s * s) by lra.
  f_equal.
  1: transitivity (p * (w * w) + 2 * w * s * (y * r - z * q) + 2 * s * s * x * (x * p + y * q + z * r) - s * s * p * (x * x + y * y + z * z)); [ring|].
  2: transitivity (q * (w * w) + 2 * w * s * (z * p - x * r) + 2 * s * s * y * (x * p + y * q + z * r) - s * s * q * (x * x + y * y + z * z)); [ring|].
  3: transitivity (r * (w * w) + 2 * w * s * (x * q - y * p) + 2 * s * s * z * (x * p + y * q + z * r) - s * s * r * (x * x + y * y + z * z)); [ring|].
  all: rewrite W, Hn.
  1: transitivity (p + 2 * w * s * (y * r - z * q) + 2 * s * s * (x * (x * p + y * q + z * r) - p * (x * x + y * y + z * z))); [rewrite Hn; ring|ring].
  1: transitivity (q + 2 * w * s * (z * p - x * r) + 2 * s * s * (y * (x * p + y * q + z * r) - q * (x * x + y * y + z * z))); [rewrite Hn; ring|ring].
  1: transitivity (r + 2 * w * s * (x * q - y * p) + 2 * s * s * (z * (x * p + y * q + z * r) - r * (x * x + y * y + z * z))); [rewrite Hn; ring|ring].
Qed.
Lemma quat_axis_norm n s w : dot3 n n = 1 -> w * w + s * s = 1 -> qnorm2 (quat (smul3 s n) w) = 1.
Proof.
  intros Hn Hs. unfold qnorm2, qdot, quat, qvec. cbn [qx qy qz qw].
  replace (dot3 _ _) with (s * s * dot3 n n) by (unfold dot3, smul3; cbn; ring). rewrite Hn. lra.
Qed.

(** * set(axis, angle) *)
Lemma q_of_axis_eq axis a : axis <> zero3 -> q_of_axis axis a = quat (smul3 (sin (a / 2)) (unitv axis)) (cos (a / 2)).
Proof.
  intros H. unfold q_of_axis. rops. rewrite v3_length_eq. pose proof (norm3_pos axis H).
  destruct (Reqb_spec (norm3 axis) 0) as [E|E]; [lra|]. cbn zeta. replace (a * (5 / 10)) with (a / 2) by field.
  unfold quat, unitv, smul3. cbn [x3 y3 z3]. f_equal; try reflexivity; field; exact E.
Qed.
Lemma q_of_axis_spec axis a : axis <> zero3 ->
  qnorm2 (q_of_axis axis a) = 1 /\
  (forall u, qturn (q_of_axis axis a) u = rodrigues (smul3 (/ norm3 axis) axis) a u) /\
  meq 3 (ent3 (m3_of_quat (q_of_axis axis a))) (ent3 (m3_rotation axis a)).
Proof.
  intros H. pose proof (unitv_dot axis H) as D. pose proof (cs1 (a / 2)) as C.
  assert (N : qnorm2 (q_of_axis axis a) = 1) by (rewrite q_of_axis_eq by exact H; apply quat_axis_norm; assumption).
  assert (T : forall u, qturn (q_of_axis axis a) u = rodrigues (unitv axis) a u).
  { intros u. rewrite q_of_axis_eq by exact H. rewrite qturn_axis by assumption. unfold rodrigues.
    assert (Ec : cos a = 1 - 2 * sin (a / 2) * sin (a / 2)) by (rewrite <- cos_2a_sin; f_equal; field).
    assert (Es : sin a = 2 * sin (a / 2) * cos (a / 2)) by (rewrite <- sin_2a; f_equal; field).
    rewrite Ec, Es.
    destruct (unitv axis) as [x y z], u as [p q r]. unfold plus3, smul3, cross3, dot3 in *. cbn [x3 y3 z3] in *. f_equal; nsatz. }
  split; [exact N|]. split; [exact T|].
  assert (E : forall u, m3_apply (m3_of_quat (q_of_axis axis a)) u = m3_apply (m3_rotation axis a) u).
  { intros u. rewrite (proj2 (proj2 (m3_rotation_spec axis a H))). 
    fold (unitv axis). rewrite <- T. rewrite <- q_rotated_eq by exact N. reflexivity. }
  pose proof (E (mkV3 1 0 0)) as E0. pose proof (E (mkV3 0 1 0)) as E1. pose proof (E (mkV3 0 0 1)) as E2.
  destruct (m3_of_quat (q_of_axis axis a)) as [[? ? ?] [? ? ?] [? ? ?] ?], (m3_rotation axis a) as [[? ? ?] [? ? ?] [? ? ?] ?].
  unfold m3_apply in *. mcbn. rops. injection E0 as A1 A2 A3. injection E1 as A4 A5 A6. injection E2 as A7 A8 A9.
  entries3; mcbn; lra.
Qed.
Lemma q_of_axis_zero a : q_of_axis zero3 a = qone.
Proof. unfold q_of_axis. rops. rewrite v3_length_eq. rewrite (proj2 (norm3_zero zero3) eq_refl). destruct (Reqb_spec 0 0); [reflexivity|contradiction]. Qed.

(** * Rotation between two directions *)
Lemma q_between_cost a b : v3_dot (v3_normalized a 1) (v3_normalized b 1) = dot3 (v3_normalized a 1) (v3_normalized b 1).
Proof. reflexivity. Qed.
Lemma cross_cross u v w : cross3 u (cross3 v w) = minus3 (smul3 (dot3 u w) v) (smul3 (dot3 u v) w).
Proof. vring. Qed.
Lemma dot_unitv a b : dot3 (unitv a) (unitv b) = dot3 a b / (norm3 a * norm3 b).
Proof.
  unfold unitv, dot3, smul3. cbn [x3 y3 z3]. unfold Rdiv. rewrite Rinv_mult. ring.
Qed.
Lemma q_between_spec a b : a <> zero3 -> b <> zero3 ->
  - (99999 / 100000) <= dot3 a b / (norm3 a * norm3 b) <= 99999 / 100000 ->
  qnorm2 (q_between a b) = 1 /\ qturn (q_between a b) (unitv a) = unitv b.
Proof.
  intros Ha Hb Hc. unfold q_between. rops. rewrite !normalized_unitv by assumption. rewrite v3_dot_eq, v3_cross_eq, dot_unitv.
  set (c := dot3 a b / (norm3 a * norm3 b)) in *.
  destruct (Rltb_spec (99999 / 100000) c); [lra|]. destruct (Rltb_spec c (-99999 / 100000)); [lra|].
  pose proof (unitv_dot a Ha) as Ua. pose proof (unitv_dot b Hb) as Ub. pose proof (dot_unitv a b) as Ud. fold c in Ud.
  set (f := unitv a) in *. set (t := unitv b) in *.
  pose proof (lagrange3 f t) as L. rewrite Ua, Ub, Ud in L.
  assert (N : cross3 f t <> zero3).
  { intros E. apply dot3_zero in E. rewrite E in L. nra. }
  rewrite normalized_unitv by exact N. pose proof (unitv_dot _ N) as Un.
  pose proof (norm3_pos _ N) as Pn. pose proof (norm3_sqr (cross3 f t)) as Sn.
  set (k := norm3 (cross3 f t)) in *.
  set (s := sqrt (5 / 10 * (1 - c))). set (w := sqrt (5 / 10 * (1 + c))).
  assert (S2 : s * s = (1 - c) / 2) by (unfold s; rewrite sqrt_sqrt by lra; field).
  assert (W2 : w * w = (1 + c) / 2) by (unfold w; rewrite sqrt_sqrt by lra; field).
  assert (Ps : 0 <= s) by apply sqrt_pos. assert (Pw : 0 <= w) by apply sqrt_pos.
  assert (WS : 2 * w * s = k).
  { apply Rsqr_inj; [nra|lra|]. unfold Rsqr. rewrite Sn. replace (2 * w * s * (2 * w * s)) with (4 * (w * w) * (s * s)) by ring.
    rewrite S2, W2. lra. }
  assert (WS1 : w * w + s * s = 1) by lra.
  change (mkQ _ _ _ w) with (mkQ (x3 (unitv (cross3 f t)) * s) (y3 (unitv (cross3 f t)) * s) (z3 (unitv (cross3 f t)) * s) w).
  replace (mkQ _ _ _ w) with (quat (smul3 s (unitv (cross3 f t))) w) by (unfold quat, smul3; cbn; f_equal; ring).
  split; [apply quat_axis_norm; assumption|].
  rewrite qturn_axis by assumption. rewrite WS. replace (2 * s * s) with (1 - c) by lra.
  assert (E1 : smul3 k (cross3 (unitv (cross3 f t)) f) = minus3 t (smul3 c f)).
  { transitivity (minus3 (smul3 (dot3 f f) t) (smul3 (dot3 f t) f)).
    - unfold unitv. fold k. clearbody k f t. clear - Pn. destruct f as [a1 a2 a3], t as [b1 b2 b3].
      unfold minus3, smul3, cross3, dot3. cbn [x3 y3 z3]. f_equal; field; lra.
    - rewrite Ua, Ud. clearbody f t. destruct f, t. unfold minus3, smul3. cbn. f_equal; ring. }
  assert (E2 : cross3 (unitv (cross3 f t)) (cross3 (unitv (cross3 f t)) f) = smul3 (-1) f).
  { rewrite cross_cross, Un. replace (dot3 (unitv (cross3 f t)) f) with 0.
    - clearbody f t. destruct (unitv (cross3 f t)), f. unfold minus3, smul3. cbn. f_equal; ring.
    - unfold unitv. fold k. clearbody k f t. destruct f as [a1 a2 a3], t as [b1 b2 b3].
      unfold smul3, cross3, dot3. cbn [x3 y3 z3]. ring. }
  rewrite E1, E2. clearbody f t. destruct f as [a1 a2 a3], t as [b1 b2 b3]. unfold plus3, minus3, smul3. cbn [x3 y3 z3]. f_equal; ring.
Qed.

(** Almost parallel directions: the identity, off by less than the square root of 2/100000. *)
Lemma q_between_near a b : a <> zero3 -> b <> zero3 -> 99999 / 100000 < dot3 a b / (norm3 a * norm3 b) ->
  q_between a b = qone /\ dot3 (minus3 (unitv a) (unitv b)) (minus3 (unitv a) (unitv b)) < 2 / 100000.
Proof.
  intros Ha Hb Hc. unfold q_between. rops. rewrite !normalized_unitv by assumption. rewrite v3_dot_eq, dot_unitv.
  destruct (Rltb_spec (99999 / 100000) (dot3 a b / (norm3 a * norm3 b))); [|lra]. split; [reflexivity|].
  replace (dot3 (minus3 (unitv a) (unitv b)) (minus3 (unitv a) (unitv b)))
    with (dot3 (unitv a) (unitv a) + dot3 (unitv b) (unitv b) - 2 * dot3 (unitv a) (unitv b)).
  - rewrite !unitv_dot, dot_unitv by assumption. lra.
  - generalize (unitv a) (unitv b). vring.
Qed.
(** Opposite directions: the rotation does nothing. *)
Lemma q_between_opposite a b : a <> zero3 -> b <> zero3 -> dot3 a b / (norm3 a * norm3 b) < - (99999 / 100000) ->
  q_between a b = qneg qone /\ forall u, qturn (q_between a b) u = u.
Proof.
  intros Ha Hb Hc. unfold q_between. rops. rewrite !normalized_unitv by assumption. rewrite v3_dot_eq, dot_unitv.
  destruct (Rltb_spec (99999 / 100000) (dot3 a b / (norm3 a * norm3 b))); [lra|].
  destruct (Rltb_spec (dot3 a b / (norm3 a * norm3 b)) (-99999 / 100000)); [|lra]. split.
  - unfold qneg, qone, quat, qvec, smul3, zero3. cbn. f_equal; ring.
  - intros [x y z]. rewrite qturn_mk, !hamilton_mk. unfold qvec. cbn. f_equal; ring.
Qed.

(** * Axis and angle back *)
Lemma sin_acos_sqr w : -1 <= w <= 1 -> sin (acos w) * sin (acos w) = 1 - w * w /\ 0 <= sin (acos w).
Proof.
  intros H. pose proof (cs1 (acos w)) as C. rewrite cos_acos in C by exact H.
  pose proof (acos_bound w). split; [lra|]. apply sin_ge_0; lra.
Qed.
Lemma unit_w q : qnorm2 q = 1 -> -1 <= qw q <= 1 /\ dot3 (qvec q) (qvec q) = 1 - qw q * qw q.
Proof.
  intros H. unfold qnorm2, qdot in H. pose proof (dot3_nonneg (qvec q)). split; [split; nra|lra].
Qed.
Lemma q_toAxisAngle_spec q : qnorm2 q = 1 -> q_DELTA < dot3 (qvec q) (qvec q) ->
  exists axis angle, q_toAxisAngle q = Ok (axis, angle) /\ norm3 axis = 1 /\ 0 <= angle <= 2 * PI /\ q_of_axis axis angle = q.
Proof.
  intros H Hd. destruct (unit_w q H) as [Hw Hv]. unfold q_toAxisAngle. rops.
  assert (D0 : 0 < q_DELTA) by (unfold q_DELTA; rops; lra).
  change (qx q * qx q + qy q * qy q + qz q * qz q) with (dot3 (qvec q) (qvec q)).
  destruct (Rleb_spec (-1) (qw q)); [|lra]. destruct (Rleb_spec (qw q) 1); [|lra]. cbn [andb assert_then].
  destruct (Rltb_spec q_DELTA (dot3 (qvec q) (qvec q))); [|contradiction].
  destruct (Rltb_spec 0 (1 - qw q * qw q)); [|lra]. cbn [andb].
  assert (Nz : qvec q <> zero3) by (intros E; apply dot3_zero in E; lra).
  pose proof (norm3_pos _ Nz) as Pn.
  assert (Es : sqrt (1 - qw q * qw q) = norm3 (qvec q)) by (unfold norm3; rewrite Hv; reflexivity).
  rewrite Es.
  replace (mkV3 (qx q * (1 / norm3 (qvec q))) (qy q * (1 / norm3 (qvec q))) (qz q * (1 / norm3 (qvec q)))) with (unitv (qvec q)).
  2: { unfold unitv. generalize dependent (norm3 (qvec q)). intros k _ _. unfold smul3, qvec. cbn [x3 y3 z3]. unfold Rdiv. f_equal; ring. }
  assert (Nu : norm3 (unitv (qvec q)) = 1) by (unfold norm3; rewrite unitv_dot by exact Nz; apply sqrt_1).
  assert (Uz : unitv (qvec q) <> zero3) by (intros E; apply norm3_zero in E; lra).
  destruct (v3_normalize_spec (unitv (qvec q)) 1) as (v & -> & _ & _ & K). destruct (K Uz) as [Nv Ev]. cbn [fst].
  rewrite Nu in Ev. assert (Ev' : v = unitv (qvec q)) by (rewrite Ev; generalize (unitv (qvec q)); intros [x y z]; unfold smul3; cbn; f_equal; field).
  clear Ev. subst v. eexists; eexists; split; [reflexivity|]. split; [exact Nu|].
  rewrite acos_clamp, clamp1_id by exact Hw. pose proof (acos_bound (qw q)). split; [lra|].
  rewrite q_of_axis_eq by exact Uz. replace (2 * acos (qw q) / 2) with (acos (qw q)) by field.
  rewrite cos_acos by exact Hw. destruct (sin_acos_sqr (qw q) Hw) as [S1 S2].
  assert (Sn : sin (acos (qw q)) = norm3 (qvec q)).
  { apply Rsqr_inj; [exact S2|lra|]. unfold Rsqr. rewrite norm3_sqr. lra. }
  rewrite Sn. unfold unitv at 1. rewrite Nu.
  replace (smul3 (norm3 (qvec q)) (smul3 (/ 1) (unitv (qvec q)))) with (qvec q).
  - destruct q; reflexivity.
  - unfold unitv. clear - Pn. generalize dependent (norm3 (qvec q)). intros k Pk. destruct (qvec q). unfold smul3. cbn. f_equal; field; lra.
Qed.
Lemma q_toAxisAngle_small q : qnorm2 q = 1 -> dot3 (qvec q) (qvec q) <= q_DELTA ->
  q_toAxisAngle q = Ok (mkV3 1 0 0, 0).
Proof.
  intros H Hd. destruct (unit_w q H) as [Hw Hv]. unfold q_toAxisAngle. rops.
  change (qx q * qx q + qy q * qy q + qz q * qz q) with (dot3 (qvec q) (qvec q)).
  destruct (Rleb_spec (-1) (qw q)); [|lra]. destruct (Rleb_spec (qw q) 1); [|lra]. cbn [andb assert_then].
  destruct (Rltb_spec q_DELTA (dot3 (qvec q) (qvec q))); [lra|]. reflexivity.
Qed.

(** * Logarithm and exponential *)
Lemma q_exp_log q : qnorm2 q = 1 -> qw q <> -1 -> q_exp (q_log q) = q.
Proof.
  intros H Hn. destruct (unit_w q H) as [Hw Hv]. unfold q_log. rops. rewrite acos_clamp, clamp1_id by exact Hw.
  destruct (sin_acos_sqr (qw q) Hw) as [S1 S2]. pose proof (acos_bound (qw q)) as Ba. pose proof (cos_acos (qw q) Hw) as Ca.
  set (a := acos (qw q)) in *.
  destruct (Rltb_spec 0 (sin a)) as [Ps|Ps].
  - assert (Pa : 0 < a) by (destruct (Req_dec a 0) as [E|E]; [rewrite E, sin_0 in Ps; lra|lra]).
    unfold q_exp. cbn [qx qy qz qw]. rops.
    assert (E : sqrt (a * qx q / sin a * (a * qx q / sin a) + a * qy q / sin a * (a * qy q / sin a) + a * qz q / sin a * (a * qz q / sin a)) = a).
    { replace (_ + _ + _) with (a * a).
      - apply sqrt_square; lra.
      - transitivity (a * a * (dot3 (qvec q) (qvec q)) / (sin a * sin a)).
        + rewrite Hv, <- S1. field. lra.
        + unfold dot3, qvec. cbn. field. lra. }
    rewrite E. destruct (Rltb_spec 0 a); [|lra]. rewrite Ca. destruct q as [x y z w]. cbn [qx qy qz qw] in *.
    f_equal; field; lra.
  - assert (Z : sin a = 0) by lra. rewrite Z in S1.
    assert (W : qw q = 1) by (destruct (Rmult_integral (qw q - 1) (qw q + 1)) as [I|I]; [lra|lra|exfalso; apply Hn; lra]).
    assert (V : qvec q = zero3) by (apply dot3_zero; lra).
    unfold q_exp. cbn [qx qy qz qw]. rops. replace (0 * 0 + 0 * 0 + 0 * 0) with 0 by ring. rewrite sqrt_0.
    destruct (Rltb_spec 0 0); [lra|]. rewrite cos_0. destruct q as [x y z w]. cbn [qw] in W. injection V as -> -> ->. subst. reflexivity.
Qed.
Lemma q_exp_log_minus_one : q_exp (q_log (qneg qone)) = qone.
Proof.
  unfold q_log. rops. unfold qneg, qone, quat, qvec, smul3, zero3. cbn [qx qy qz qw x3 y3 z3].
  rewrite acos_clamp, clamp1_id by lra. destruct (sin_acos_sqr (- (1)) ltac:(lra)) as [S1 S2].
  destruct (Rltb_spec 0 (sin (acos (- (1))))) as [P|P]; [exfalso; pose proof (Rmult_lt_0_compat _ _ P P); lra|].
  unfold q_exp. cbn [qx qy qz qw]. rops. replace (0 * 0 + 0 * 0 + 0 * 0) with 0 by ring. rewrite sqrt_0.
  destruct (Rltb_spec 0 0); [lra|]. rewrite cos_0. reflexivity.
Qed.
