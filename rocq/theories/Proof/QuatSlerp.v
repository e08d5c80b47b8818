(** Interpolation of quaternions. *)
From Coq Require Import Reals ZArith Arith Lra Lia Bool Psatz Nsatz.
From Verif.Base Require Import Outcome Wp Scalar ScalarR RFacts.
From Verif.Model Require Import Types Functions Vec Mat2 Mat3 Quat Mat4 Mat34.
From Verif.Spec Require Import LinAlg VecSpec MatSpec QuatSpec.
From Verif.Proof Require Import FunctionsProofs LinAlgFacts VecFacts VecProofs MatFacts MatProofs MatFlags MatInverse MatInverse4 MatRotation QuatProofs.

From Verif.Proof Require Import QuatArc.
Local Open Scope R_scope.

Lemma qdot_comb_r r x p y q : qdot r (qcomb x p y q) = x * qdot r p + y * qdot r q.
Proof. qsimp. unfold qcomb. cbn. ring. Qed.
Lemma qdot_sym p q : qdot p q = qdot q p.
Proof. qsimp. ring. Qed.
Lemma q_dot_eq p q : q_dot p q = qdot p q.
Proof. unfold q_dot. qsimp. ring. Qed.
Lemma qdot_neg_r p q : qdot p (qneg q) = - qdot p q.
Proof. qsimp. ring. Qed.
Lemma qnorm2_nonneg q : 0 <= qnorm2 q.
Proof. qsimp. repeat apply Rplus_le_le_0_compat; apply Rle_0_sqr. Qed.
Lemma qnorm_comb x p y q : qnorm2 p = 1 -> qnorm2 q = 1 -> qnorm2 (qcomb x p y q) = x * x + y * y + 2 * x * y * qdot p q.
Proof.
  intros Hp Hq. unfold qnorm2 in *. rewrite qdot_comb_r, (qdot_sym _ p), (qdot_sym _ q), !qdot_comb_r.
  rewrite (qdot_sym q p), Hp, Hq. ring.
Qed.
Lemma qdot_bound p q : qnorm2 p = 1 -> qnorm2 q = 1 -> -1 <= qdot p q <= 1.
Proof.
  intros Hp Hq. pose proof (qnorm2_nonneg (qcomb 1 p 1 q)) as A. pose proof (qnorm2_nonneg (qcomb 1 p (-1) q)) as B.
  rewrite qnorm_comb in A, B by assumption. lra.
Qed.

(** The arc formula. *)
Lemma q_arc_eq p q d t : -1 <= d <= 1 -> q_arc p q d t =
  qcomb (sin (acos d * (1 - t)) / sin (acos d)) p (sin (acos d * t) / sin (acos d)) q.
Proof.
  intros H. unfold q_arc, qcomb. rops. rewrite acos_clamp, clamp1_id by exact H.
  unfold Rdiv. f_equal; ring.
Qed.
Lemma arc_identity a t : sin a <> 0 ->
  sin (a * (1 - t)) / sin a + sin (a * t) / sin a * cos a = cos (a * t) /\
  sin (a * (1 - t)) / sin a * cos a + sin (a * t) / sin a = cos (a * (1 - t)).
Proof.
  intros H. assert (E : sin (a * (1 - t)) = sin a * cos (a * t) - cos a * sin (a * t)).
  { replace (a * (1 - t)) with (a - a * t) by ring. apply sin_minus. }
  assert (F : cos (a * (1 - t)) = cos a * cos (a * t) + sin a * sin (a * t)).
  { replace (a * (1 - t)) with (a - a * t) by ring. apply cos_minus. }
  split.
  - rewrite E. field. exact H.
  - rewrite E, F. pose proof (cs1 a) as C.
    transitivity (cos (a * t) * cos a + sin (a * t) * (1 - cos a * cos a) / sin a); [field; exact H|].
    replace (1 - cos a * cos a) with (sin a * sin a) by lra. field. exact H.
Qed.
Lemma q_arc_spec p q t : qnorm2 p = 1 -> qnorm2 q = 1 -> -1 < qdot p q < 1 ->
  let a := acos (qdot p q) in let r := q_arc p q (qdot p q) t in
  0 < a < PI /\ cos a = qdot p q /\
  qnorm2 r = 1 /\ qdot p r = cos (a * t) /\ qdot r q = cos (a * (1 - t)).
Proof.
  intros Hp Hq Hd a r. assert (Hd' : -1 <= qdot p q <= 1) by lra.
  pose proof (acos_bound_lt (qdot p q) Hd) as Ba. fold a in Ba.
  pose proof (cos_acos (qdot p q) Hd') as Ca. fold a in Ca.
  assert (Sa : 0 < sin a) by (apply sin_gt_0; lra).
  subst r. rewrite q_arc_eq by exact Hd'. fold a.
  destruct (arc_identity a t ltac:(lra)) as [I1 I2].
  assert (D1 : qdot p (qcomb (sin (a * (1 - t)) / sin a) p (sin (a * t) / sin a) q) = cos (a * t)).
  { rewrite qdot_comb_r. fold (qnorm2 p). rewrite Hp, <- Ca, <- I1. ring. }
  assert (D2 : qdot (qcomb (sin (a * (1 - t)) / sin a) p (sin (a * t) / sin a) q) q = cos (a * (1 - t))).
  { rewrite qdot_sym, qdot_comb_r, (qdot_sym q p). fold (qnorm2 q). rewrite Hq, <- Ca, <- I2. ring. }
  split; [lra|]. split; [exact Ca|]. split; [|split; assumption].
  unfold qnorm2. rewrite qdot_comb_r, (qdot_sym _ p), D1, D2.
  assert (S : sin (a * (1 - t) + a * t) = sin a) by (f_equal; ring). rewrite sin_plus in S.
  transitivity ((sin (a * (1 - t)) * cos (a * t) + cos (a * (1 - t)) * sin (a * t)) / sin a); [field; lra|].
  rewrite S. field. lra.
Qed.

(** Normalization. *)
Lemma q_normalize_eq q : q_normalize q = if Reqb (sqrt (qnorm2 q)) 0 then qone else qcomb (/ sqrt (qnorm2 q)) q 0 q.
Proof.
  unfold q_normalize. rops. unfold qnorm2, qdot, dot3, qvec. cbn [x3 y3 z3].
  destruct (Reqb _ 0); [reflexivity|]. unfold qcomb, Rdiv. f_equal; ring.
Qed.
Lemma qnorm2_zero q : qnorm2 q = 0 -> q = mkQ 0 0 0 0.
Proof. qsimp. intros H. f_equal; nra. Qed.
Lemma qscale_norm k q : qnorm2 (qcomb k q 0 q) = k * k * qnorm2 q.
Proof. qsimp. unfold qcomb. cbn. ring. Qed.
Lemma q_normalize_spec q : q <> mkQ 0 0 0 0 ->
  qnorm2 (q_normalize q) = 1 /\ q_normalize q = qcomb (/ sqrt (qnorm2 q)) q 0 q /\ 0 < sqrt (qnorm2 q).
Proof.
  intros H. pose proof (qnorm2_nonneg q) as N. assert (P : 0 < qnorm2 q).
  { destruct N as [N|N]; [exact N|]. exfalso. apply H, qnorm2_zero. symmetry; exact N. }
  assert (Ps : 0 < sqrt (qnorm2 q)) by (apply sqrt_lt_R0; exact P).
  rewrite q_normalize_eq. destruct (Reqb_spec (sqrt (qnorm2 q)) 0); [lra|]. split; [|split; [reflexivity|exact Ps]].
  rewrite qscale_norm. pose proof (sqrt_sqrt _ N) as S. rewrite <- S at 3. field. lra.
Qed.
Lemma q_normalize_zero : q_normalize (mkQ 0 0 0 0) = qone.
Proof.
  rewrite q_normalize_eq. replace (qnorm2 (mkQ 0 0 0 0)) with 0 by (qsimp; ring). rewrite sqrt_0.
  destruct (Reqb_spec 0 0); [reflexivity|contradiction].
Qed.
Lemma q_normalize_unit q : qnorm2 q = 1 -> q_normalize q = q.
Proof.
  intros H. rewrite q_normalize_eq, H, sqrt_1. destruct (Reqb_spec 1 0); [lra|]. destruct q. unfold qcomb. cbn. f_equal; field.
Qed.

(** Linear interpolation followed by normalization. *)
Lemma q_lerp_eq p q t : 0 <= t <= 1 -> q_lerp p q t = Ok (q_normalize (qcomb (1 - t) p t q)).
Proof.
  intros H. unfold q_lerp. rops. destruct (Rleb_spec 0 t); [|lra]. destruct (Rleb_spec t 1); [|lra].
  cbn [andb assert_then]. unfold qcomb. do 3 f_equal; ring.
Qed.
Lemma q_lerp_outside p q t : t < 0 \/ 1 < t -> q_lerp p q t = AssertFail.
Proof.
  intros H. unfold q_lerp. rops. destruct (Rleb_spec 0 t); [|reflexivity]. destruct (Rleb_spec t 1); [lra|reflexivity].
Qed.
Lemma q_lerp_spec p q t : qnorm2 p = 1 -> qnorm2 q = 1 -> 0 <= t <= 1 -> (1 / 2 <> t \/ qdot p q <> -1) ->
  exists r n, q_lerp p q t = Ok r /\ qnorm2 r = 1 /\ 0 < n /\ qcomb n r 0 r = qcomb (1 - t) p t q /\
    n * n = 1 - 2 * t * (1 - t) * (1 - qdot p q) /\ (t = 0 -> r = p) /\ (t = 1 -> r = q).
Proof.
  intros Hp Hq Ht Hne. rewrite q_lerp_eq by exact Ht. pose proof (qdot_bound p q Hp Hq) as B.
  pose proof (qnorm_comb (1 - t) p t q Hp Hq) as N.
  assert (Nz : qcomb (1 - t) p t q <> mkQ 0 0 0 0).
  { intros E. rewrite E in N. replace (qnorm2 (mkQ 0 0 0 0)) with 0 in N by (qsimp; ring).
    assert (N' : (1 - 2 * t) * (1 - 2 * t) + 2 * t * (1 - t) * (1 + qdot p q) = 0) by lra.
    assert (0 <= t * (1 - t) * (1 + qdot p q)) by (apply Rmult_le_pos; [apply Rmult_le_pos|]; lra).
    pose proof (Rle_0_sqr (1 - 2 * t)) as Q. unfold Rsqr in Q.
    assert (Z : (1 - 2 * t) * (1 - 2 * t) = 0) by lra. assert (t = 1 / 2) by nra. subst t.
    destruct Hne as [Hne|Hne]; [lra|]. apply Hne. lra. }
  destruct (q_normalize_spec _ Nz) as (U & E & P).
  exists (q_normalize (qcomb (1 - t) p t q)), (sqrt (qnorm2 (qcomb (1 - t) p t q))).
  split; [reflexivity|]. split; [exact U|]. split; [exact P|]. split; [|split; [|split]].
  - rewrite E. set (k := sqrt (qnorm2 (qcomb (1 - t) p t q))) in *. clearbody k. destruct (qcomb (1 - t) p t q). unfold qcomb. cbn. f_equal; field; lra.
  - rewrite sqrt_sqrt by apply qnorm2_nonneg. rewrite N. ring.
  - intros ->. replace (qcomb (1 - 0) p 0 q) with p by (destruct p; unfold qcomb; cbn; f_equal; ring). apply q_normalize_unit; exact Hp.
  - intros ->. replace (qcomb (1 - 1) p 1 q) with q by (destruct q; unfold qcomb; cbn; f_equal; ring). apply q_normalize_unit; exact Hq.
Qed.

(** The target is first replaced by its opposite when that is closer. *)
Definition nearest (p q : Quat R) : Quat R := if Rltb (qdot p q) 0 then qneg q else q.
Lemma nearest_facts p q : qnorm2 q = 1 -> qnorm2 (nearest p q) = 1 /\ qdot p (nearest p q) = Rabs (qdot p q) /\ (nearest p q = q \/ nearest p q = qneg q).
Proof.
  intros H. unfold nearest. destruct (Rltb_spec (qdot p q) 0).
  - rewrite qneg_norm, qdot_neg_r, Rabs_left by lra. auto.
  - rewrite Rabs_right by lra. auto.
Qed.
Lemma q_slerp_eq p q t : 0 <= t <= 1 -> q_slerp p q t =
  if Rltb (Rabs (qdot p q)) (95 / 100) then Ok (q_arc p (nearest p q) (Rabs (qdot p q)) t) else q_lerp p (nearest p q) t.
Proof.
  intros H. unfold q_slerp. rops. destruct (Rleb_spec 0 t); [|lra]. destruct (Rleb_spec t 1); [|lra].
  cbn [andb assert_then]. rewrite q_dot_eq, q_opp_eq. unfold nearest. destruct (Rltb_spec (qdot p q) 0).
  - rewrite Rabs_left by lra. reflexivity.
  - rewrite Rabs_right by lra. reflexivity.
Qed.
Lemma arc_ends p q : qnorm2 p = 1 -> qnorm2 q = 1 -> -1 < qdot p q < 1 ->
  q_arc p q (qdot p q) 0 = p /\ q_arc p q (qdot p q) 1 = q.
Proof.
  intros Hp Hq H. rewrite !q_arc_eq by lra. pose proof (acos_bound_lt _ H) as B.
  set (a := acos (qdot p q)) in *. assert (S : 0 < sin a) by (apply sin_gt_0; lra).
  replace (a * (1 - 0)) with a by ring. replace (a * 0) with 0 by ring. replace (a * (1 - 1)) with 0 by ring.
  replace (a * 1) with a by ring. rewrite sin_0. unfold qcomb. destruct p, q. cbn. split; f_equal; field; lra.
Qed.

Lemma q_slerp_arc p q t : qnorm2 p = 1 -> qnorm2 q = 1 -> 0 <= t <= 1 -> Rabs (qdot p q) < 95 / 100 ->
  exists r q' a, q_slerp p q t = Ok r /\ qnorm2 r = 1 /\ (q' = q \/ q' = qneg q) /\
    0 < a <= PI / 2 /\ qdot p q' = cos a /\ qdot p r = cos (t * a) /\ qdot r q' = cos ((1 - t) * a) /\
    (t = 0 -> r = p) /\ (t = 1 -> r = q').
Proof.
  intros Hp Hq Ht Hd. rewrite q_slerp_eq by exact Ht. destruct (Rltb_spec (Rabs (qdot p q)) (95 / 100)); [|lra].
  destruct (nearest_facts p q Hq) as (Hn & Dn & On). pose proof (Rabs_pos (qdot p q)) as Pd.
  assert (Hd' : -1 < qdot p (nearest p q) < 1) by (rewrite Dn; lra).
  rewrite <- Dn. destruct (q_arc_spec p (nearest p q) t Hp Hn Hd') as (Ba & Ca & N & D1 & D2).
  destruct (arc_ends p (nearest p q) Hp Hn Hd') as [E0 E1].
  set (a := acos (qdot p (nearest p q))) in *.
  exists (q_arc p (nearest p q) (qdot p (nearest p q)) t), (nearest p q), a.
  split; [reflexivity|]. split; [exact N|]. split; [exact On|]. split.
  { split; [lra|]. destruct (Rle_lt_dec a (PI / 2)) as [L|L]; [exact L|]. exfalso.
    assert (cos a < 0) by (apply cos_lt_0; lra). lra. }
  split; [symmetry; exact Ca|]. split; [rewrite D1; f_equal; ring|]. split; [rewrite D2; f_equal; ring|].
  split; intros ->; assumption.
Qed.
Lemma q_slerp_outside p q t : t < 0 \/ 1 < t -> q_slerp p q t = AssertFail.
Proof.
  intros H. unfold q_slerp. rops. destruct (Rleb_spec 0 t); [|reflexivity]. destruct (Rleb_spec t 1); [lra|reflexivity].
Qed.

(** * The normalized linear interpolation of close quaternions *)
Lemma sin_low x : 0 <= x <= 4 -> x - x * x * x / 6 <= sin x.
Proof.
  intros H. destruct (pre_sin_bound x 0 ltac:(lra) ltac:(lra)) as [L _].
  unfold sin_approx, sin_term in L. cbn [sum_f_R0 Nat.mul Nat.add pow fact] in L. rewrite ?INR_IZR_INZ in L. cbn in L. lra.
Qed.
Lemma cos_high x : -2 <= x <= 2 -> cos x <= 1 - x * x / 2 + x * x * x * x / 24.
Proof.
  intros H. destruct (pre_cos_bound x 0 ltac:(lra) ltac:(lra)) as [_ L].
  unfold cos_approx, cos_term in L. cbn [sum_f_R0 Nat.mul Nat.add pow fact] in L. rewrite ?INR_IZR_INZ in L. cbn in L. lra.
Qed.
Lemma sin_below x : 0 <= x -> sin x <= x.
Proof. intros [H| <-]; [left; apply sin_lt_x; exact H|rewrite sin_0; lra]. Qed.
Lemma small_arc a : 0 < a <= PI / 2 -> 95 / 100 <= cos a -> a * a <= 11 / 100.
Proof.
  intros [A0 A1] C. assert (a <= 2) by (pose proof PI_4; lra).
  pose proof (cos_high a ltac:(lra)) as L. assert (B : 0 < a * a) by (apply Rmult_lt_0_compat; lra).
  assert (B2 : a * a <= 4) by nra.
  assert (L1 : 1 - cos a >= a * a * (1 / 2 - a * a / 24)) by lra.
  set (s := a * a) in *. assert (s <= 15 / 100) by nra. nra.
Qed.
Lemma sin_ratio a t : 0 < a -> a * a <= 11 / 100 -> 0 <= t <= 1 ->
  t * (1 - 1 / 50) <= sin (a * t) / sin a <= t * (1 + 1 / 50).
Proof.
  intros A0 A1 Ht. assert (A2 : a <= 1) by nra.
  pose proof (sin_low a ltac:(lra)) as L1. pose proof (sin_below a ltac:(lra)) as L2.
  assert (T0 : 0 <= a * t <= a) by (split; nra).
  pose proof (sin_low (a * t) ltac:(lra)) as L3. pose proof (sin_below (a * t) ltac:(lra)) as L4.
  assert (S1 : a * (1 - 11 / 600) <= sin a) by nra.
  assert (S2 : a * t * (1 - 11 / 600) <= sin (a * t)).
  { assert (a * t * (a * t) <= a * a) by nra. assert (a * t * (a * t * (a * t)) <= a * t * (11 / 100)) by (apply Rmult_le_compat_l; lra). lra. }
  assert (Sp : 0 < sin a) by nra.
  split.
  - apply (Rmult_le_reg_r (sin a)); [exact Sp|]. replace (sin (a * t) / sin a * sin a) with (sin (a * t)) by (field; lra).
    assert (t * sin a <= t * a) by (apply Rmult_le_compat_l; lra). nra.
  - apply (Rmult_le_reg_r (sin a)); [exact Sp|]. replace (sin (a * t) / sin a * sin a) with (sin (a * t)) by (field; lra).
    assert (t * (a * (1 - 11 / 600)) <= t * sin a) by (apply Rmult_le_compat_l; lra). nra.
Qed.
Lemma qdist2_comb p q x y x' y' : qdist2 (qcomb x p y q) (qcomb x' p y' q) = qnorm2 (qcomb (x - x') p (y - y') q).
Proof. unfold qdist2, qcomb. qsimp. ring. Qed.
Lemma comb_small p q x y e t : qnorm2 p = 1 -> qnorm2 q = 1 -> 0 <= e -> 0 <= t <= 1 ->
  - ((1 - t) * e) <= x <= (1 - t) * e -> - (t * e) <= y <= t * e -> qnorm2 (qcomb x p y q) <= e * e.
Proof.
  intros Hp Hq He Ht Hx Hy. rewrite qnorm_comb by assumption. pose proof (qdot_bound p q Hp Hq) as B.
  set (d := qdot p q) in *. clearbody d. clear Hp Hq.
  assert (X : Rabs x <= (1 - t) * e) by (apply Rabs_le; lra). assert (Y : Rabs y <= t * e) by (apply Rabs_le; lra).
  assert (D : Rabs d <= 1) by (apply Rabs_le; lra).
  assert (E : x * x + y * y + 2 * x * y * d <= (Rabs x + Rabs y) * (Rabs x + Rabs y)).
  { assert (Q : x * y * d <= Rabs x * Rabs y).
    { apply Rle_trans with (Rabs (x * y * d)); [apply Rle_abs|]. rewrite !Rabs_mult.
      rewrite <- (Rmult_1_r (Rabs x * Rabs y)) at 2. apply Rmult_le_compat_l; [apply Rmult_le_pos; apply Rabs_pos|exact D]. }
    assert (Rabs x * Rabs x = x * x) by (rewrite <- Rabs_mult; apply Rabs_right; apply Rle_ge, Rle_0_sqr).
    assert (Rabs y * Rabs y = y * y) by (rewrite <- Rabs_mult; apply Rabs_right; apply Rle_ge, Rle_0_sqr). lra. }
  apply Rle_trans with (1 := E). pose proof (Rabs_pos x). pose proof (Rabs_pos y).
  apply Rmult_le_compat; lra.
Qed.
Lemma qdot_one p q : qnorm2 p = 1 -> qnorm2 q = 1 -> qdot p q = 1 -> p = q.
Proof.
  intros Hp Hq H. assert (Z : qnorm2 (qcomb 1 p (-1) q) = 0) by (rewrite qnorm_comb by assumption; rewrite H; ring).
  apply qnorm2_zero in Z. destruct p, q. unfold qcomb in Z. cbn in Z. injection Z. intros. f_equal; lra.
Qed.
Lemma lerp_length t d k : 0 <= t <= 1 -> 95 / 100 <= d <= 1 -> 0 < k -> k * k = 1 - 2 * t * (1 - t) * (1 - d) ->
  987 / 1000 <= k <= 1.
Proof.
  intros Ht Hd Hk E. pose proof (Rle_0_sqr (2 * t - 1)) as Q. unfold Rsqr in Q.
  assert (A : 0 <= t * (1 - t)) by (apply Rmult_le_pos; lra).
  assert (B : t * (1 - t) * (1 - d) <= 1 / 4 * (5 / 100)) by (apply Rmult_le_compat; lra).
  assert (C : 0 <= t * (1 - t) * (1 - d)) by (apply Rmult_le_pos; lra). split; nra.
Qed.
Lemma q_slerp_near p q t : qnorm2 p = 1 -> qnorm2 q = 1 -> 0 <= t <= 1 -> 95 / 100 <= Rabs (qdot p q) ->
  exists r q' s a, q_slerp p q t = Ok r /\ qnorm2 r = 1 /\ (q' = q \/ q' = qneg q) /\
    0 <= a <= PI / 2 /\ qdot p q' = cos a /\ qnorm2 s = 1 /\ qdot p s = cos (t * a) /\ qdot s q' = cos ((1 - t) * a) /\
    qdist2 r s <= 1 / 30 * (1 / 30) /\ (t = 0 -> r = p) /\ (t = 1 -> r = q').
Proof.
  intros Hp Hq Ht Hd. rewrite q_slerp_eq by exact Ht. destruct (Rltb_spec (Rabs (qdot p q)) (95 / 100)); [lra|].
  destruct (nearest_facts p q Hq) as (Hn & Dn & On). set (q' := nearest p q) in *. rewrite <- Dn in Hd. clearbody q'.
  pose proof (qdot_bound p q' Hp Hn) as B.
  destruct (q_lerp_spec p q' t Hp Hn Ht ltac:(right; lra)) as (r & k & -> & Nr & Kp & Er & Ek & E0 & E1).
  destruct (Req_dec (qdot p q') 1) as [D1|D1].
  - pose proof (qdot_one p q' Hp Hn D1) as E. subst q'.
    assert (k = 1) by (rewrite D1 in Ek; nra). subst k.
    assert (Erp : r = p) by (destruct r, p; unfold qcomb in Er; cbn in Er; injection Er; intros; f_equal; lra).
    subst r. exists p, p, p, 0. pose proof PI_RGT_0. rewrite !Rmult_0_r, cos_0. fold (qnorm2 p) in *.
    repeat (split; [auto; lra|]). unfold qdist2. repeat split; auto; lra.
  - assert (Hd' : -1 < qdot p q' < 1) by lra.
    destruct (q_arc_spec p q' t Hp Hn Hd') as (Ba & Ca & N & Q1 & Q2).
    rewrite q_arc_eq in N, Q1, Q2 by lra. set (a := acos (qdot p q')) in *.
    assert (Ba' : 0 < a <= PI / 2).
    { split; [lra|]. destruct (Rle_lt_dec a (PI / 2)) as [L|L]; [exact L|]. exfalso.
      assert (cos a < 0) by (apply cos_lt_0; lra). lra. }
    pose proof (small_arc a Ba' ltac:(lra)) as Sa.
    destruct (sin_ratio a t ltac:(lra) Sa Ht) as [V1 V2]. destruct (sin_ratio a (1 - t) ltac:(lra) Sa ltac:(lra)) as [U1 U2].
    set (u := sin (a * (1 - t)) / sin a) in *. set (v := sin (a * t) / sin a) in *.
    exists r, q', (qcomb u p v q'), a. split; [reflexivity|]. split; [exact Nr|]. split; [exact On|]. split; [lra|].
    split; [symmetry; exact Ca|]. split; [exact N|]. split; [rewrite Q1; f_equal; ring|]. split; [rewrite Q2; f_equal; ring|].
    split; [|split; assumption].
    assert (Er' : r = qcomb ((1 - t) * / k) p (t * / k) q').
    { destruct r as [r1 r2 r3 r4], p, q'. unfold qcomb in *. cbn in *. injection Er. intros F4 F3 F2 F1.
      f_equal;
        [replace r1 with ((k * r1 + 0 * r1) / k) by (field; lra); rewrite F1|replace r2 with ((k * r2 + 0 * r2) / k) by (field; lra); rewrite F2
        |replace r3 with ((k * r3 + 0 * r3) / k) by (field; lra); rewrite F3|replace r4 with ((k * r4 + 0 * r4) / k) by (field; lra); rewrite F4];
        field; lra. }
    rewrite Er', qdist2_comb.
    destruct (lerp_length t (qdot p q') k Ht ltac:(lra) Kp Ek) as [K2 K1].
    assert (I1 : 1 <= / k) by (rewrite <- Rinv_1; apply Rinv_le_contravar; lra).
    assert (I2 : / k <= 10132 / 10000). { apply (Rmult_le_reg_r k); [lra|]. rewrite Rinv_l by lra. lra. }
    assert (P1 : 0 <= t * (/ k - 1)) by (apply Rmult_le_pos; lra).
    assert (P2 : 0 <= t * (10132 / 10000 - / k)) by (apply Rmult_le_pos; lra).
    assert (P3 : 0 <= (1 - t) * (/ k - 1)) by (apply Rmult_le_pos; lra).
    assert (P4 : 0 <= (1 - t) * (10132 / 10000 - / k)) by (apply Rmult_le_pos; lra).
    apply comb_small with t; try assumption; lra.
Qed.

(** * Other interpolations *)
Lemma q_slerpNoInvert_arc p q t : qnorm2 p = 1 -> qnorm2 q = 1 -> 0 <= t <= 1 -> -1 < qdot p q < 15938355 / 16777216 ->
  exists r a, q_slerpNoInvert p q t = Ok r /\ qnorm2 r = 1 /\ 0 < a < PI /\ qdot p q = cos a /\
    qdot p r = cos (t * a) /\ qdot r q = cos ((1 - t) * a).
Proof.
  intros Hp Hq Ht Hd. unfold q_slerpNoInvert. rops. destruct (Rleb_spec 0 t); [|lra]. destruct (Rleb_spec t 1); [|lra].
  cbn [andb assert_then]. rewrite q_dot_eq. destruct (Rltb_spec (qdot p q) (15938355 / 16777216)); [|lra].
  destruct (q_arc_spec p q t Hp Hq ltac:(lra)) as (Ba & Ca & N & Q1 & Q2). do 2 eexists; split; [reflexivity|].
  split; [exact N|]. split; [exact Ba|]. split; [symmetry; exact Ca|].
  split; [rewrite Q1|rewrite Q2]; f_equal; ring.
Qed.
Lemma q_slerpNoInvert_ends p q : qnorm2 p = 1 -> qnorm2 q = 1 -> -1 < qdot p q ->
  q_slerpNoInvert p q 0 = Ok p /\ q_slerpNoInvert p q 1 = Ok q.
Proof.
  intros Hp Hq Hd. pose proof (qdot_bound p q Hp Hq). unfold q_slerpNoInvert. rops.
  destruct (Rleb_spec 0 0); [|lra]. destruct (Rleb_spec 0 1); [|lra]. destruct (Rleb_spec 1 1); [|lra].
  cbn [andb assert_then]. rewrite q_dot_eq. destruct (Rltb_spec (qdot p q) (15938355 / 16777216)).
  - destruct (arc_ends p q Hp Hq ltac:(lra)) as [-> ->]. split; reflexivity.
  - destruct (q_lerp_spec p q 0 Hp Hq ltac:(lra) ltac:(right; lra)) as (ra & ka & -> & _ & _ & _ & _ & E0 & _).
    destruct (q_lerp_spec p q 1 Hp Hq ltac:(lra) ltac:(right; lra)) as (rb & kb & -> & _ & _ & _ & _ & _ & E1).
    rewrite E0, E1 by reflexivity. split; reflexivity.
Qed.
(** squad starts at p and ends at q. *)
Lemma q_squad_ends p q a b : qnorm2 p = 1 -> qnorm2 q = 1 -> qnorm2 a = 1 -> qnorm2 b = 1 ->
  -1 < qdot p q -> -1 < qdot a b -> -1 < qdot p a -> -1 < qdot q b ->
  q_squad p q a b 0 = Ok p /\ q_squad p q a b 1 = Ok q.
Proof.
  intros Hp Hq Ha Hb H1 H2 H3 H4. unfold q_squad. rops.
  destruct (Rleb_spec 0 0); [|lra]. destruct (Rleb_spec 0 1); [|lra]. destruct (Rleb_spec 1 1); [|lra].
  cbn [andb assert_then]. destruct (q_slerpNoInvert_ends p q Hp Hq H1) as [-> ->].
  destruct (q_slerpNoInvert_ends a b Ha Hb H2) as [-> ->]. cbn [bind].
  replace (2 * 0 * (1 - 0)) with 0 by ring. replace (2 * 1 * (1 - 1)) with 0 by ring.
  split; [apply (q_slerpNoInvert_ends p a Hp Ha H3)|apply (q_slerpNoInvert_ends q b Hq Hb H4)].
Qed.
(** From the identity, slerpMaxAngle turns by the full angle or by the maximum. *)
Lemma q_slerpMaxAngle_one q m : qnorm2 q = 1 -> q_DELTA < dot3 (qvec q) (qvec q) -> 0 <= m ->
  exists axis angle, q = q_of_axis axis angle /\ norm3 axis = 1 /\ 0 <= angle <= 2 * PI /\
    q_slerpMaxAngle qone q m = Ok (q_of_axis axis (Rmin angle m)).
Proof.
  intros Hq Hd Hm. unfold q_slerpMaxAngle. rops. destruct (Rleb_spec 0 m); [|lra]. cbn [assert_then].
  rewrite q_mul_eq, q_inverse_eq. replace (qconj qone) with qone by (unfold qconj, qone, quat, qvec, smul3, zero3; cbn; f_equal; ring).
  rewrite (proj1 (hamilton_one q)).
  destruct (q_toAxisAngle_spec q Hq Hd) as (axis & angle & -> & Na & Ba & E). cbn [bind].
  exists axis, angle. rewrite E. split; [reflexivity|]. split; [exact Na|]. split; [exact Ba|].
  do 2 f_equal. unfold min_. rops. unfold Rmin. destruct (Rleb_spec angle m); destruct (Rle_dec angle m); try lra; try reflexivity.
  all: destruct (Rltb_spec angle m); try lra; try reflexivity.
Qed.
Lemma q_slerpMaxAngle_refuted : exists p, qnorm2 p = 1 /\ forall m, 0 <= m ->
  q_slerpMaxAngle p p m = Ok qone /\ p <> qone /\ p <> qneg qone.
Proof.
  exists (mkQ 1 0 0 0). split; [qsimp; ring|]. intros m Hm. split.
  - unfold q_slerpMaxAngle. rops. destruct (Rleb_spec 0 m); [|lra]. cbn [assert_then].
    rewrite q_mul_eq, q_inverse_eq. replace (hamilton (qconj (mkQ 1 0 0 0)) (mkQ 1 0 0 0)) with qone
      by (unfold qconj, quat, qvec, smul3; cbn [qx qy qz qw x3 y3 z3]; rewrite hamilton_mk; unfold qone, quat, zero3; cbn; f_equal; ring).
    rewrite q_toAxisAngle_small; [|qsimp; ring|unfold q_DELTA; rops; qsimp; lra]. cbn [bind].
    assert (E : forall a, a = 0 -> q_of_axis (mkV3 1 0 0) a = qone).
    { intros a ->. rewrite q_of_axis_eq by (intros [=]; lra). replace (0 / 2) with 0 by field. rewrite sin_0, cos_0.
      unfold qone, quat, smul3. cbn. f_equal; ring. }
    rewrite E; [reflexivity|]. unfold min_. rops. repeat match goal with |- context [Rleb ?a ?b] => destruct (Rleb_spec a b) | |- context [Rltb ?a ?b] => destruct (Rltb_spec a b) end; lra.
  - unfold qone, qneg, quat, qvec, smul3, zero3. cbn. split; intros [=]; lra.
Qed.

(** * Division *)
Lemma q_div_refuted : exists a b, qnorm2 b = 1 /\ q_mul (q_div a b) b <> a.
Proof.
  exists (mkQ 0 0 0 1), (mkQ 0 0 (3/5) (4/5)). split; [qsimp; field|].
  unfold q_div, q_mul. cbn [qx qy qz qw]. rops. intros H. injection H. intros. lra.
Qed.
