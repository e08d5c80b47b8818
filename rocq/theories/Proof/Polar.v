(** Polar coordinates: angle, setAngle and circular interpolation of Vec2. *)
From Coq Require Import Reals ZArith Lra Lia Bool Psatz.
From Verif.Base Require Import Outcome Wp Scalar ScalarR RFacts.
From Verif.Model Require Import Types Functions Vec Interpolation.
From Verif.Spec Require Import NumSpec VecSpec.
From Verif.Proof Require Import FunctionsProofs InterpolationProofs VecFacts.
Local Open Scope R_scope.

Lemma sqrt_scale x y : x <> 0 -> sqrt (x * x + y * y) = Rabs x * sqrt (1 + (y / x) * (y / x)).
Proof.
  intros Hx. rewrite <- sqrt_Rsqr_abs. rewrite <- sqrt_mult_alt by apply Rle_0_sqr.
  f_equal. unfold Rsqr. field. exact Hx.
Qed.
Lemma one_sqr_pos t : 0 < sqrt (1 + t * t).
Proof. apply sqrt_lt_R0. nra. Qed.

Lemma atan2_range y x : - PI < Ratan2 y x <= PI.
Proof.
  pose proof PI_RGT_0 as Hpi. unfold Ratan2. pose proof (atan_bound (y / x)) as B.
  destruct (Rlt_dec 0 x); [lra|]. destruct (Rlt_dec x 0).
  - destruct (Rle_dec 0 y).
    + assert (y / x <= 0) by (apply Rmult_le_0_l || (unfold Rdiv; assert (/ x < 0) by (apply Rinv_lt_0_compat; lra); nra)).
      assert (atan (y / x) <= 0).
      { rewrite <- atan_0. destruct (Rle_lt_or_eq_dec _ _ H) as [L|L]; [left; apply atan_increasing; exact L|rewrite L; lra]. }
      lra.
    + assert (0 < y / x) by (unfold Rdiv; assert (/ x < 0) by (apply Rinv_lt_0_compat; lra); nra).
      pose proof (atan_increasing 0 (y / x) H). rewrite atan_0 in *. lra.
  - destruct (Rlt_dec 0 y); [lra|]. destruct (Rlt_dec y 0); lra.
Qed.

Lemma atan2_polar y x :
  let r := sqrt (x * x + y * y) in x = r * cos (Ratan2 y x) /\ y = r * sin (Ratan2 y x).
Proof.
  cbv zeta. pose proof (one_sqr_pos (y / x)) as Hp.
  assert (C : cos (atan (y / x)) = 1 / sqrt (1 + y / x * (y / x))) by apply cos_atan.
  assert (S : sin (atan (y / x)) = y / x / sqrt (1 + y / x * (y / x))) by apply sin_atan.
  unfold Ratan2. destruct (Rlt_dec 0 x) as [Hx|Hx].
  - rewrite C, S, sqrt_scale, Rabs_right by lra. split; field; lra.
  - destruct (Rlt_dec x 0) as [Hx'|Hx'].
    + rewrite sqrt_scale, Rabs_left by lra.
      destruct (Rle_dec 0 y).
      * rewrite neg_cos, neg_sin, C, S. split; field; lra.
      * unfold Rminus. rewrite cos_plus, sin_plus, cos_neg, sin_neg, cos_PI, sin_PI, C, S. split; field; lra.
    + assert (x = 0) by lra. subst x. replace (0 * 0 + y * y) with (Rsqr y) by (unfold Rsqr; ring).
      rewrite sqrt_Rsqr_abs. destruct (Rlt_dec 0 y).
      * rewrite cos_PI2, sin_PI2, Rabs_right by lra. lra.
      * destruct (Rlt_dec y 0).
        -- rewrite cos_neg, sin_neg, cos_PI2, sin_PI2, Rabs_left by lra. lra.
        -- assert (y = 0) by lra. subst y. rewrite Rabs_R0. lra.
Qed.

Lemma setAngle_norm a l : norm2 (v2_setAngle a l) = Rabs l.
Proof.
  symmetry. rewrite <- sqrt_Rsqr_abs. unfold norm2. f_equal. vsimp. unfold Rsqr.
  pose proof (sin2_cos2 a) as S. unfold Rsqr in S. transitivity (l * l * (sin a * sin a + cos a * cos a)); [rewrite S; ring|ring].
Qed.
Theorem polar_roundtrip (u : Vec2 R) : v2_setAngle (v2_angle u) (v2_length u) = u.
Proof.
  destruct u as [a b]. unfold v2_setAngle, v2_angle, v2_length. cbn [x2 y2]. rops.
  destruct (atan2_polar b a) as [E1 E2]. cbv zeta in *. rewrite <- E1, <- E2. reflexivity.
Qed.
Theorem v2_angle_range (u : Vec2 R) : - PI < v2_angle u <= PI.
Proof. apply atan2_range. Qed.

(** Two angles with the same sine and cosine are congruent. *)
Lemma cos_1_congruent d : -PI <= d <= PI -> cos d = 1 -> d = 0.
Proof.
  intros H Hc. destruct (Rtotal_order d 0) as [L|[E|G]]; [|exact E|].
  - exfalso. assert (cos (- d) < cos 0) by (apply cos_decreasing_1; lra).
    rewrite cos_neg, cos_0 in *. lra.
  - exfalso. assert (cos d < cos 0) by (apply cos_decreasing_1; lra). rewrite cos_0 in *. lra.
Qed.
Lemma angle_period (a : R) (k : Z) : cos (a + IZR k * (2 * PI)) = cos a /\ sin (a + IZR k * (2 * PI)) = sin a.
Proof.
  destruct (Z_le_dec 0 k) as [H|H].
  - rewrite <- (Z2Nat.id k) by lia. rewrite <- INR_IZR_INZ.
    replace (a + INR (Z.to_nat k) * (2 * PI)) with (a + 2 * INR (Z.to_nat k) * PI) by ring.
    rewrite cos_period, sin_period. split; reflexivity.
  - assert (E : IZR k = - INR (Z.to_nat (- k))).
    { rewrite INR_IZR_INZ, Z2Nat.id, opp_IZR by lia. ring. }
    rewrite E. set (n := Z.to_nat (- k)).
    rewrite <- (cos_period (a + - INR n * (2 * PI)) n), <- (sin_period (a + - INR n * (2 * PI)) n).
    replace (a + - INR n * (2 * PI) + 2 * INR n * PI) with a by ring. split; reflexivity.
Qed.
Lemma congruent_trig a b : congruent (2 * PI) a b -> cos a = cos b /\ sin a = sin b.
Proof. intros [k ->]. apply angle_period. Qed.
Lemma trig_congruent a b : cos a = cos b -> sin a = sin b -> congruent (2 * PI) a b.
Proof.
  intros Hc Hs. pose proof PI_RGT_0 as Hpi.
  assert (H1 : cos (a - b) = 1).
  { rewrite cos_minus, Hc, Hs. pose proof (sin2_cos2 b) as S. unfold Rsqr in S. lra. }
  destruct (fmodCentered_spec (a - b) (2 * PI) ltac:(lra)) as (d & _ & Hd & k & Hk).
  assert (d = 0).
  { apply cos_1_congruent; [lra|]. rewrite Hk. rewrite (proj1 (angle_period (a - b) k)). exact H1. }
  exists (- k)%Z. rewrite opp_IZR. lra.
Qed.
Theorem setAngle_angle a l : 0 < l -> congruent (2 * PI) (v2_angle (v2_setAngle a l)) a.
Proof.
  intros Hl. pose proof (polar_roundtrip (v2_setAngle a l)) as E.
  rewrite v2_length_eq, setAngle_norm, Rabs_right in E by lra.
  set (b := v2_angle _) in *. injection E as E1 E2. rops.
  apply trig_congruent; apply Rmult_eq_reg_l with l; lra.
Qed.

(** Circular interpolation of plane vectors. *)
Theorem v2_clerp_spec (u v : Vec2 R) r : 0 <= r <= 1 ->
  exists w, v2_clerp u v r = Ok w /\ norm2 w = (1 - r) * norm2 u + r * norm2 v /\
    (r = 0 -> w = u) /\ (r = 1 -> w = v).
Proof.
  intros H. unfold v2_clerp, assert_then. rops.
  destruct (Rleb_spec 0 r); [|lra]. destruct (Rleb_spec r 1); [|lra]. cbn [andb].
  destruct (Reqb_spec r 0) as [->|N0].
  { exists u. repeat split; try lra. }
  destruct (Reqb_spec r 1) as [->|N1].
  { exists v. repeat split; lra. }
  destruct (clerp_spec (v2_angle u) (v2_angle v)) as (d & E & _). rewrite E. cbn [bind].
  eexists. split; [reflexivity|]. split; [|split; intros; contradiction].
  rewrite setAngle_norm. unfold lerp. change (v2_length u) with (norm2 u); change (v2_length v) with (norm2 v). rops.
  pose proof (norm2_nonneg u). pose proof (norm2_nonneg v).
  replace (norm2 u + (norm2 v - norm2 u) * r) with ((1 - r) * norm2 u + r * norm2 v) by ring.
  apply Rabs_right. apply Rle_ge. apply Rplus_le_le_0_compat; apply Rmult_le_pos; lra.
Qed.
Theorem v2_clerp_assert (u v : Vec2 R) r : ~ 0 <= r <= 1 -> v2_clerp u v r = AssertFail.
Proof.
  intros H. unfold v2_clerp, assert_then. rops.
  destruct (Rleb_spec 0 r); [|reflexivity]. destruct (Rleb_spec r 1); [lra|reflexivity].
Qed.
(** The turn, when v's angle is at least u's angle minus PI: the short way. *)
Theorem v2_clerp_turn (u v : Vec2 R) r : 0 <= r <= 1 -> - PI <= v2_angle v - v2_angle u ->
  exists d w, v2_clerp u v r = Ok w /\ Rabs d <= PI /\ congruent (2 * PI) (v2_angle u + d) (v2_angle v) /\
    w = smul2 (norm2 w) (mkV2 (cos (v2_angle u + r * d)) (sin (v2_angle u + r * d))).
Proof.
  intros H Ha. destruct (v2_clerp_spec u v r H) as (w & E & Hw & H0 & H1).
  destruct (clerp_spec (v2_angle u) (v2_angle v)) as (d & Ed & Hc & Hs).
  destruct (Hs Ha) as [Hd _]. exists d, w. split; [exact E|]. split; [exact Hd|]. split; [exact Hc|].
  assert (P : forall p : Vec2 R, p = smul2 (norm2 p) (mkV2 (cos (v2_angle p)) (sin (v2_angle p)))).
  { intros p. rewrite <- (polar_roundtrip p) at 1. rewrite v2_length_eq. reflexivity. }
  destruct (Req_dec r 0) as [->|N0].
  { rewrite (H0 eq_refl). rewrite Rmult_0_l, Rplus_0_r. apply P. }
  destruct (Req_dec r 1) as [->|N1].
  { rewrite (H1 eq_refl). rewrite Rmult_1_l. destruct (congruent_trig _ _ Hc) as [-> ->]. apply P. }
  rewrite Hw. unfold v2_clerp, assert_then in E. rops.
  destruct (Rleb_spec 0 r); [|lra]. destruct (Rleb_spec r 1); [|lra]. cbn [andb] in E.
  destruct (Reqb_spec r 0); [contradiction|]. destruct (Reqb_spec r 1); [contradiction|].
  rewrite Ed in E. cbn [bind] in E. injection E as <-.
  unfold v2_setAngle, lerp, smul2. change (v2_length u) with (norm2 u); change (v2_length v) with (norm2 v). cbn [x2 y2]. rops.
  replace (r * d) with (d * r) by ring. unfold norm2, dot2, v2_angle; rops; f_equal; ring.
Qed.

(** Finding: clerpMaxAngle of plane vectors uses the wrong ratio, the length
    leaves the interval of the two lengths. *)
Lemma atan2_up : v2_angle (mkV2 0 1) = PI / 2.
Proof.
  unfold v2_angle. cbn [x2 y2]. rops. unfold Ratan2.
  destruct (Rlt_dec 0 0); [lra|]. destruct (Rlt_dec 0 1); [reflexivity|lra].
Qed.
Lemma atan2_left l : 0 < l -> v2_angle (mkV2 (- l) 0) = PI.
Proof.
  intros Hl. unfold v2_angle. cbn [x2 y2]. rops. unfold Ratan2.
  destruct (Rlt_dec 0 (- l)); [lra|]. destruct (Rlt_dec (- l) 0); [|lra]. destruct (Rle_dec 0 0); [|lra].
  unfold Rdiv. rewrite Rmult_0_l, atan_0. lra.
Qed.
Theorem v2_clerpMaxAngle_refuted :
  norm2 (mkV2 0 1) = 1 /\ norm2 (mkV2 (- (2)) 0) = 2 /\
  exists w, v2_clerpMaxAngle (mkV2 0 1) (mkV2 (- (2)) 0) (PI / 4) = Ok w /\ norm2 w = 5 / 2.
Proof.
  assert (N1 : norm2 (mkV2 0 1) = 1).
  { unfold norm2, dot2. cbn [x2 y2]. replace (0 * 0 + 1 * 1) with (1 * 1) by ring. apply sqrt_square. lra. }
  assert (N2 : norm2 (mkV2 (- (2)) 0) = 2).
  { unfold norm2, dot2. cbn [x2 y2]. replace (- (2) * - (2) + 0 * 0) with (2 * 2) by ring. apply sqrt_square. lra. }
  split; [exact N1|]. split; [exact N2|].
  pose proof PI_RGT_0 as Hpi. unfold v2_clerpMaxAngle, assert_then. rops.
  destruct (Rleb_spec 0 (PI / 4)); [|lra]. destruct (Reqb_spec (PI / 4) 0); [lra|].
  unfold clerpMaxAngle_ratio. rewrite clerp_delta_ok, atan2_up, (atan2_left 2) by lra. cbn [bind].
  rewrite (Rfmod_small (PI - PI / 2 + PI)) by lra. unfold clerp_limited. rops.
  destruct (Rleb_spec 0 (PI - PI / 2 + PI - PI)); [|lra].
  destruct (Rltb_spec (PI / 4) (PI - PI / 2 + PI - PI)); [|lra].
  eexists. split; [reflexivity|]. rewrite setAngle_norm. unfold lerp. change (v2_length (mkV2 0 1)) with (norm2 (mkV2 0 1)); change (v2_length (mkV2 (- (2)) 0)) with (norm2 (mkV2 (- (2)) 0)); rewrite N1, N2. rops.
  replace (1 + (2 - 1) * ((PI / 2 + PI / 4) / (PI - PI / 2 + PI - PI))) with (5 / 2) by (field; lra).
  apply Rabs_right. lra.
Qed.
