(** Spherical interpolation of space vectors. *)
From Coq Require Import Reals ZArith Lra Lia Bool Psatz.
From Verif.Base Require Import Outcome Scalar ScalarR RFacts.
From Verif.Model Require Import Types Functions Vec Mat2 Mat3 Quat.
From Verif.Spec Require Import LinAlg VecSpec MatSpec QuatSpec.
From Verif.Proof Require Import FunctionsProofs LinAlgFacts VecFacts VecProofs MatFacts MatInverse4 MatRotation QuatProofs QuatArc.
Local Open Scope R_scope.

Lemma rodrigues_perp n a u : dot3 n u = 0 -> rodrigues n a u = plus3 (smul3 (cos a) u) (smul3 (sin a) (cross3 n u)).
Proof. intros H. unfold rodrigues. rewrite H. vring. Qed.
Lemma cross_perp_l u v : dot3 (cross3 u v) u = 0. Proof. vring. Qed.
Lemma triple_eq u v w : dot3 (cross3 u v) w = dot3 u (cross3 v w). Proof. vring. Qed.
Lemma dot3_plus a b c : dot3 a (plus3 b c) = dot3 a b + dot3 a c. Proof. vring. Qed.
Lemma dot3_smul k a b : dot3 a (smul3 k b) = k * dot3 a b. Proof. vring. Qed.
Lemma dot3_smul_l k a b : dot3 (smul3 k a) b = k * dot3 a b. Proof. vring. Qed.
Lemma dot3_sym a b : dot3 a b = dot3 b a. Proof. vring. Qed.

Lemma slerp_turn u v b k : u <> zero3 -> v <> zero3 -> cross3 u v <> zero3 -> 0 <= k ->
  let n := smul3 (/ (norm3 u * norm3 v)) (cross3 u v) in
  exists w, fst (v3_normalize (q_rotated (q_of_axis n b) u) k) = w /\ norm3 w = k /\
    dot3 u w = norm3 u * k * cos b /\
    dot3 w v = k / norm3 u * (cos b * dot3 u v + sin b * norm3 (cross3 u v)).
Proof.
  intros Hu Hv Hc Hk n.
  pose proof (norm3_pos u Hu) as Pu. pose proof (norm3_pos v Hv) as Pv. pose proof (norm3_pos _ Hc) as Pc.
  assert (K : 0 < / (norm3 u * norm3 v)) by (apply Rinv_0_lt_compat, Rmult_lt_0_compat; assumption).
  assert (Hn : n <> zero3) by (intros E; apply smul3_zero in E; [contradiction|lra]).
  destruct (q_of_axis_spec n b Hn) as (Q1 & Q2 & _).
  rewrite (q_rotated_eq _ _ Q1), Q2.
  assert (En : smul3 (/ norm3 n) n = unitv (cross3 u v)).
  { unfold n, unitv. rewrite norm3_smul, (Rabs_right _ (Rle_ge _ _ (Rlt_le _ _ K))).
    replace (smul3 (/ (/ (norm3 u * norm3 v) * norm3 (cross3 u v))) (smul3 (/ (norm3 u * norm3 v)) (cross3 u v)))
      with (smul3 (/ (/ (norm3 u * norm3 v) * norm3 (cross3 u v)) * / (norm3 u * norm3 v)) (cross3 u v)) by vring.
    f_equal. field. repeat split; lra. }
  rewrite En. set (m := unitv (cross3 u v)).
  assert (Mu : dot3 m u = 0) by (unfold m, unitv; rewrite dot3_smul_l, cross_perp_l; ring).
  assert (Mm : dot3 m m = 1) by (apply unitv_dot; exact Hc).
  rewrite (rodrigues_perp _ _ _ Mu). set (r := plus3 (smul3 (cos b) u) (smul3 (sin b) (cross3 m u))).
  assert (Cu : dot3 u (cross3 m u) = 0) by (clear; vring).
  assert (Cc : dot3 (cross3 m u) (cross3 m u) = dot3 u u) by (pose proof (lagrange3 m u) as L; rewrite Mu, Mm in L; lra).
  assert (Rr : dot3 r r = dot3 u u).
  { unfold r. rewrite dot3_plus, !dot3_smul, !(dot3_sym (plus3 _ _)), !dot3_plus, !dot3_smul, Cc, (dot3_sym (cross3 m u)), Cu.
    pose proof (cs1 b). replace (dot3 u u) with ((cos b * cos b + sin b * sin b) * dot3 u u) at 3 by (rewrite H; ring). ring. }
  assert (Nr : norm3 r = norm3 u) by (unfold norm3; rewrite Rr; reflexivity).
  assert (Hr : r <> zero3) by (intros E; apply norm3_zero in E; lra).
  destruct (v3_normalize_spec r k) as (w & E & _ & _ & W). destruct (W Hr) as [W1 W2].
  exists w. rewrite E. split; [reflexivity|]. rewrite W1. split; [apply Rabs_right; lra|].
  rewrite W2, Nr. split.
  - rewrite dot3_smul. unfold r. rewrite dot3_plus, !dot3_smul, Cu, <- norm3_sqr. field. lra.
  - rewrite dot3_smul_l. unfold r. rewrite (dot3_sym (plus3 _ _)), dot3_plus, !dot3_smul, (dot3_sym v u).
    replace (dot3 v (cross3 m u)) with (dot3 m (cross3 u v)) by (clear; vring).
    unfold m, unitv. rewrite dot3_smul_l, <- norm3_sqr. field. lra.
Qed.

(** The angle between two vectors, and its sine as computed by the code. *)
Lemma v3_slerp_sine u v : u <> zero3 -> v <> zero3 ->
  exists n, v3_div (v3_cross u v) (v3_length u * v3_length v) = Ok n /\
    n = smul3 (/ (norm3 u * norm3 v)) (cross3 u v) /\
    v3_dot n (v3_normalized n 1) = norm3 (cross3 u v) / (norm3 u * norm3 v).
Proof.
  intros Hu Hv. pose proof (norm3_pos u Hu) as Pu. pose proof (norm3_pos v Hv) as Pv.
  pose proof (Rmult_lt_0_compat _ _ Pu Pv) as P.
  exists (smul3 (/ (norm3 u * norm3 v)) (cross3 u v)). split; [|split; [reflexivity|]].
  - rewrite (v3_length_eq u), (v3_length_eq v), v3_cross_eq. unfold v3_div, assert_then. rops.
    destruct (Reqb_spec (norm3 u * norm3 v) 0) as [E|E]; [lra|]. cbn [negb]. unfold smul3. do 2 f_equal; field; lra.
  - set (n := smul3 _ _). rewrite v3_dot_eq. destruct (v3_normalize_spec n 1) as (w & _ & -> & W0 & W1).
    assert (Nn : norm3 n = norm3 (cross3 u v) / (norm3 u * norm3 v)).
    { unfold n. rewrite norm3_smul, Rabs_right; [field; lra|]. left. apply Rinv_0_lt_compat, P. }
    rewrite <- Nn. assert (D : n = zero3 \/ n <> zero3).
    { destruct (Req_dec (norm3 n) 0) as [E|E]; [left; apply norm3_zero; exact E|right; intros E'; apply norm3_zero in E'; contradiction]. }
    destruct D as [E|E].
    + rewrite (W0 E), (proj2 (norm3_zero n) E). clear. vring.
    + destruct (W1 E) as [_ ->]. rewrite dot3_smul, <- norm3_sqr. field. pose proof (norm3_pos n E). lra.
Qed.
(** cos and sin of the angle between u and v. *)
Lemma angle_between u v : u <> zero3 -> v <> zero3 ->
  exists a, 0 <= a <= PI /\ dot3 u v = norm3 u * norm3 v * cos a /\ norm3 (cross3 u v) = norm3 u * norm3 v * sin a.
Proof.
  intros Hu Hv. pose proof (norm3_pos u Hu) as Pu. pose proof (norm3_pos v Hv) as Pv.
  pose proof (Rmult_lt_0_compat _ _ Pu Pv) as P. set (p := norm3 u * norm3 v) in *.
  pose proof (cauchy3 u v) as C. fold p in C.
  assert (B : -1 <= dot3 u v / p <= 1).
  { unfold Rabs in C. split; apply Rmult_le_reg_r with p; try exact P; unfold Rdiv; rewrite Rmult_assoc, Rinv_l, Rmult_1_r by lra;
      destruct (Rcase_abs (dot3 u v)); lra. }
  exists (acos (dot3 u v / p)). split; [apply acos_bound|]. rewrite cos_acos by exact B. split; [field; lra|].
  pose proof (lagrange3 u v) as L. rewrite <- !norm3_sqr in L.
  destruct (sin_acos_sqr _ B) as [S1 S2].
  apply Rsqr_inj; [apply norm3_nonneg|apply Rmult_le_pos; lra|]. unfold Rsqr.
  replace (p * sin (acos (dot3 u v / p)) * (p * sin (acos (dot3 u v / p)))) with (p * p * (sin (acos (dot3 u v / p)) * sin (acos (dot3 u v / p)))) by ring.
  rewrite S1. transitivity (p * p - dot3 u v * dot3 u v); [|field; lra].
  rewrite norm3_sqr. rewrite norm3_sqr in L. unfold p.
  replace (norm3 u * norm3 v * (norm3 u * norm3 v)) with ((norm3 u * norm3 u) * (norm3 v * norm3 v)) by ring. lra.
Qed.

Lemma asin_sin_acute a : 0 <= a <= PI / 2 -> asin_ (sin a) = a.
Proof.
  intros H. pose proof PI_RGT_0. destruct (asin_spec (sin a)) as (B & S & _). specialize (S (SIN_bound a)).
  apply sin_inj; [lra|lra|exact S].
Qed.

Definition lerp_len (u v : Vec3 R) (t : R) : R := norm3 u + (norm3 v - norm3 u) * t.
Lemma v3_slerp_ends u v : v3_slerp u v 0 = Ok u /\ v3_slerp u v 1 = Ok v.
Proof. unfold v3_slerp. rops. rlit. split; reflexivity. Qed.
Lemma v3_length_f u : u <> zero3 -> Reqb (v3_length u) 0 = false.
Proof. intros H. rewrite v3_length_eq. pose proof (norm3_pos u H). apply Reqb_f. lra. Qed.

Lemma turned_dot u v b a k : u <> zero3 -> v <> zero3 -> dot3 u v = norm3 u * norm3 v * cos a ->
  norm3 (cross3 u v) = norm3 u * norm3 v * sin a ->
  k / norm3 u * (cos b * dot3 u v + sin b * norm3 (cross3 u v)) = k * norm3 v * cos (a - b).
Proof.
  intros Hu Hv D S. rewrite D, S, cos_minus. pose proof (norm3_pos u Hu). field. lra.
Qed.
(** General statement: the code turns by the acute angle whose sine is that
    of the angle between the vectors. *)
Lemma v3_slerp_turn u v t a b : u <> zero3 -> v <> zero3 -> 0 < t < 1 ->
  dot3 u v = norm3 u * norm3 v * cos a -> norm3 (cross3 u v) = norm3 u * norm3 v * sin a ->
  13421773 / 268435456 <= sin a -> 0 <= b <= PI / 2 -> sin b = sin a ->
  exists w, v3_slerp u v t = Ok w /\ norm3 w = (1 - t) * norm3 u + t * norm3 v /\
    dot3 u w = norm3 u * norm3 w * cos (t * b) /\ dot3 w v = norm3 w * norm3 v * cos (a - t * b).
Proof.
  intros Hu Hv Ht D S Hs Hb Eb. pose proof (norm3_pos u Hu) as Pu. pose proof (norm3_pos v Hv) as Pv.
  destruct (v3_slerp_sine u v Hu Hv) as (n & E1 & En & E2).
  assert (Es : norm3 (cross3 u v) / (norm3 u * norm3 v) = sin a) by (rewrite S; field; lra).
  assert (Hc : cross3 u v <> zero3).
  { intros E. apply norm3_zero in E. rewrite E in S. assert (0 < norm3 u * norm3 v * sin a) by (repeat apply Rmult_lt_0_compat; lra). lra. }
  destruct (slerp_turn u v (b * t) ((1 - t) * norm3 u + t * norm3 v) Hu Hv Hc) as (w & W0 & W1 & W2 & W3).
  { apply Rplus_le_le_0_compat; apply Rmult_le_pos; lra. }
  exists w. split; [|split; [exact W1|]].
  - unfold v3_slerp. rops. rewrite (Reqb_f t 0), (Reqb_f t 1) by lra. rewrite (v3_length_f u Hu), (v3_length_f v Hv). cbn [orb].
    rewrite E1. cbn [bind]. rewrite E2, Es. unfold abs_. rops.
    assert (A : (if Rltb (sin a) 0 then - sin a else sin a) = sin a).
    { destruct (Rltb_spec (sin a) 0); lra. }
    try rewrite A. destruct (Rltb_spec (sin a) (13421773 / 268435456)) as [F|F]; [lra|].
    rewrite <- Eb, asin_sin_acute by exact Hb. subst n. rewrite <- W0. rewrite (v3_length_eq u), (v3_length_eq v). do 3 f_equal. ring.
  - rewrite W1, W2, W3, (turned_dot u v (b * t) a _ Hu Hv D S). rewrite (Rmult_comm t b). split; ring.
Qed.
Lemma v3_slerp_acute u v t : u <> zero3 -> v <> zero3 -> 0 < t < 1 -> 0 <= dot3 u v ->
  13421773 / 268435456 * (norm3 u * norm3 v) <= norm3 (cross3 u v) ->
  exists w a, v3_slerp u v t = Ok w /\ norm3 w = (1 - t) * norm3 u + t * norm3 v /\
    0 <= a <= PI / 2 /\ dot3 u v = norm3 u * norm3 v * cos a /\
    dot3 u w = norm3 u * norm3 w * cos (t * a) /\ dot3 w v = norm3 w * norm3 v * cos ((1 - t) * a).
Proof.
  intros Hu Hv Ht D S. pose proof (norm3_pos u Hu) as Pu. pose proof (norm3_pos v Hv) as Pv.
  destruct (angle_between u v Hu Hv) as (a & Ha & Da & Sa). pose proof PI_RGT_0.
  assert (P : 0 < norm3 u * norm3 v) by (apply Rmult_lt_0_compat; assumption).
  assert (A2 : a <= PI / 2).
  { destruct (Rle_dec a (PI / 2)) as [L|L]; [exact L|]. exfalso. assert (C : cos a < 0) by (apply cos_lt_0; lra).
    pose proof (Rmult_lt_compat_l _ _ _ P C). lra. }
  assert (S' : 13421773 / 268435456 <= sin a).
  { apply Rmult_le_reg_r with (norm3 u * norm3 v); [exact P|]. lra. }
  destruct (v3_slerp_turn u v t a a Hu Hv Ht Da Sa S' (conj (proj1 Ha) A2) eq_refl) as (w & W0 & W1 & W2 & W3).
  exists w, a. split; [exact W0|]. split; [exact W1|]. split; [lra|]. split; [exact Da|]. split; [exact W2|].
  replace ((1 - t) * a) with (a - t * a) by ring. exact W3.
Qed.
(** For an obtuse angle a, it turns by t * (PI - a). *)
Lemma v3_slerp_obtuse u v t : u <> zero3 -> v <> zero3 -> 0 < t < 1 -> dot3 u v <= 0 ->
  13421773 / 268435456 * (norm3 u * norm3 v) <= norm3 (cross3 u v) ->
  exists w a, v3_slerp u v t = Ok w /\ norm3 w = (1 - t) * norm3 u + t * norm3 v /\
    PI / 2 <= a <= PI /\ dot3 u v = norm3 u * norm3 v * cos a /\
    dot3 u w = norm3 u * norm3 w * cos (t * (PI - a)).
Proof.
  intros Hu Hv Ht D S. pose proof (norm3_pos u Hu) as Pu. pose proof (norm3_pos v Hv) as Pv.
  destruct (angle_between u v Hu Hv) as (a & Ha & Da & Sa). pose proof PI_RGT_0.
  assert (P : 0 < norm3 u * norm3 v) by (apply Rmult_lt_0_compat; assumption).
  assert (A2 : PI / 2 <= a).
  { destruct (Rle_dec (PI / 2) a) as [L|L]; [exact L|]. exfalso. assert (C : 0 < cos a) by (apply cos_gt_0; lra).
    pose proof (Rmult_lt_compat_l _ _ _ P C). lra. }
  assert (S' : 13421773 / 268435456 <= sin a).
  { apply Rmult_le_reg_r with (norm3 u * norm3 v); [exact P|]. lra. }
  destruct (v3_slerp_turn u v t a (PI - a) Hu Hv Ht Da Sa S') as (w & W0 & W1 & W2 & _); [lra|apply sin_PI_x|].
  exists w, a. repeat split; try assumption; lra.
Qed.
Lemma v3_slerp_flat u v t : u <> zero3 -> v <> zero3 ->
  norm3 (cross3 u v) < 13421773 / 268435456 * (norm3 u * norm3 v) ->
  v3_slerp u v t = Ok (plus3 (smul3 (1 - t) u) (smul3 t v)).
Proof.
  intros Hu Hv S. pose proof (norm3_pos u Hu) as Pu. pose proof (norm3_pos v Hv) as Pv.
  assert (P : 0 < norm3 u * norm3 v) by (apply Rmult_lt_0_compat; assumption).
  destruct (v3_slerp_sine u v Hu Hv) as (n & E1 & En & E2).
  unfold v3_slerp. rops. destruct (Reqb_spec t 0) as [->|T0]; [f_equal; vring|]. destruct (Reqb_spec t 1) as [->|T1]; [f_equal; vring|].
  rewrite (v3_length_f u Hu), (v3_length_f v Hv). cbn [orb]. rewrite E1. cbn [bind]. rewrite E2. unfold abs_. rops.
  set (s := norm3 (cross3 u v) / (norm3 u * norm3 v)).
  assert (Hs : 0 <= s < 13421773 / 268435456).
  { unfold s. pose proof (norm3_nonneg (cross3 u v)). split.
    - apply Rmult_le_pos; [lra|]. left. apply Rinv_0_lt_compat. exact P.
    - apply Rmult_lt_reg_r with (norm3 u * norm3 v); [exact P|]. unfold Rdiv at 1. rewrite Rmult_assoc, Rinv_l, Rmult_1_r by lra. exact S. }
  destruct (Rltb_spec s 0); [lra|]. destruct (Rltb_spec s (13421773 / 268435456)); [|lra]. f_equal. vring.
Qed.
Lemma v3_slerp_null u v t : u = zero3 \/ v = zero3 -> v3_slerp u v t = Ok (plus3 (smul3 (1 - t) u) (smul3 t v)).
Proof.
  intros H. unfold v3_slerp. rops. destruct (Reqb_spec t 0) as [->|T0]; [f_equal; vring|]. destruct (Reqb_spec t 1) as [->|T1]; [f_equal; vring|].
  assert (E : (Reqb (v3_length u) 0 || Reqb (v3_length v) 0)%bool = true).
  { rewrite (v3_length_eq u), (v3_length_eq v). destruct H as [->| ->]; rewrite (proj2 (norm3_zero zero3) eq_refl), (Reqb_t 0 0 eq_refl); [reflexivity|apply orb_true_r]. }
  rewrite E. f_equal. vring.
Qed.
Lemma norm3_root u k : 0 <= k -> dot3 u u = k * k -> norm3 u = k.
Proof. intros H E. unfold norm3. rewrite E. apply sqrt_square. exact H. Qed.
Lemma v3_slerp_obtuse_refuted : exists u v w, norm3 u = 1 /\ norm3 v = 1 /\ v3_slerp u v (1 / 2) = Ok w /\
  dot3 u v = - (3 / 5) /\ norm3 w = 1 /\ dot3 u w * dot3 u w = 4 / 5.
Proof.
  assert (Hu : norm3 (mkV3 1 0 0) = 1) by (apply norm3_root; [lra|]; vunf; cbn; ring).
  assert (Hv : norm3 (mkV3 (- (3 / 5)) (4 / 5) 0) = 1) by (apply norm3_root; [lra|]; vunf; cbn; field).
  assert (Hc : norm3 (cross3 (mkV3 1 0 0) (mkV3 (- (3 / 5)) (4 / 5) 0)) = 4 / 5) by (apply norm3_root; [lra|]; vunf; cbn; field).
  assert (Hd : dot3 (mkV3 1 0 0) (mkV3 (- (3 / 5)) (4 / 5) 0) = - (3 / 5)) by (vunf; cbn; field).
  destruct (v3_slerp_obtuse (mkV3 1 0 0) (mkV3 (- (3 / 5)) (4 / 5) 0) (1 / 2)) as (w & a & W0 & W1 & Ha & Da & Dw).
  - intros E. apply norm3_zero in E. lra.
  - intros E. apply norm3_zero in E. lra.
  - lra.
  - rewrite Hd. lra.
  - rewrite Hu, Hv, Hc. lra.
  - exists (mkV3 1 0 0), (mkV3 (- (3 / 5)) (4 / 5) 0), w. rewrite Hu, Hv in *. split; [reflexivity|]. split; [reflexivity|]. split; [exact W0|].
    split; [exact Hd|]. assert (W : norm3 w = 1) by lra. split; [exact W|]. rewrite Dw, W.
    pose proof (cos_2a (1 / 2 * (PI - a))) as C2. replace (2 * (1 / 2 * (PI - a))) with (PI - a) in C2 by field.
    pose proof (cs1 (1 / 2 * (PI - a))) as C1. rewrite Rtrigo_facts.cos_pi_minus in C2. lra.
Qed.
(** Limited turn. *)
Lemma v3_slerpMaxAngle_acute u v m : u <> zero3 -> v <> zero3 -> 0 < m -> 0 <= dot3 u v -> cross3 u v <> zero3 ->
  exists w a, v3_slerpMaxAngle u v m = Ok w /\ 0 < a <= PI / 2 /\ dot3 u v = norm3 u * norm3 v * cos a /\
    let b := Rmin a m in
    norm3 w = (1 - b / a) * norm3 u + b / a * norm3 v /\
    dot3 u w = norm3 u * norm3 w * cos b /\ dot3 w v = norm3 w * norm3 v * cos (a - b).
Proof.
  intros Hu Hv Hm D Hc. pose proof (norm3_pos u Hu) as Pu. pose proof (norm3_pos v Hv) as Pv. pose proof (norm3_pos _ Hc) as Pc.
  destruct (angle_between u v Hu Hv) as (a & Ha & Da & Sa). pose proof PI_RGT_0.
  assert (P : 0 < norm3 u * norm3 v) by (apply Rmult_lt_0_compat; assumption).
  assert (A2 : a <= PI / 2).
  { destruct (Rle_dec a (PI / 2)) as [L|L]; [exact L|]. exfalso. assert (C : cos a < 0) by (apply cos_lt_0; lra).
    pose proof (Rmult_lt_compat_l _ _ _ P C). lra. }
  assert (A0 : 0 < a).
  { destruct (Req_dec a 0) as [E|E]; [|lra]. rewrite E, sin_0, Rmult_0_r in Sa. lra. }
  destruct (v3_slerp_sine u v Hu Hv) as (n & E1 & En & E2).
  assert (Es : norm3 (cross3 u v) / (norm3 u * norm3 v) = sin a) by (rewrite Sa; field; lra).
  set (b := Rmin a m). assert (Hb : 0 < b <= a) by (unfold b, Rmin; destruct (Rle_dec a m); lra).
  assert (Hr : 0 <= b / a <= 1).
  { split; [apply Rmult_le_pos; [lra|left; apply Rinv_0_lt_compat; lra]|].
    apply Rmult_le_reg_r with a; [lra|]. unfold Rdiv. rewrite Rmult_assoc, Rinv_l by lra. lra. }
  destruct (slerp_turn u v b ((1 - b / a) * norm3 u + b / a * norm3 v) Hu Hv Hc) as (w & W0 & W1 & W2 & W3).
  { apply Rplus_le_le_0_compat; apply Rmult_le_pos; lra. }
  exists w, a. split; [|split; [lra|split; [exact Da|cbv zeta; split; [exact W1|]]]].
  - unfold v3_slerpMaxAngle, assert_then. rops. destruct (Rleb_spec 0 m); [|lra]. rewrite (Reqb_f m 0) by lra.
    rewrite (v3_length_f u Hu), (v3_length_f v Hv), E1. cbn [bind]. rewrite E2, Es, asin_sin_acute by lra.
    rewrite (Reqb_f a 0) by lra. destruct (Rleb_spec 0 a); [|lra].
    assert (Eb : (if Rltb m a then m else a) = b).
    { unfold b, Rmin. destruct (Rltb_spec m a), (Rle_dec a m); lra. }
    rewrite Eb. subst n. rewrite <- W0. rewrite (v3_length_eq u), (v3_length_eq v). do 3 f_equal. ring.
  - rewrite W1, W2, W3, (turned_dot u v b a _ Hu Hv Da Sa). split; reflexivity.
Qed.
(** Opposite vectors jump at once. *)
Lemma v3_slerpMaxAngle_opposite_refuted m : 0 < m -> v3_slerpMaxAngle (mkV3 1 0 0) (mkV3 (-1) 0 0) m = Ok (mkV3 (-1) 0 0).
Proof.
  intros Hm. assert (N : forall k, k * k = 1 -> v3_length (mkV3 k 0 0) = 1).
  { intros k Hk. rewrite v3_length_eq. apply norm3_root; [lra|]. vunf. cbn. lra. }
  unfold v3_slerpMaxAngle, assert_then. rops. destruct (Rleb_spec 0 m); [|lra]. rewrite (Reqb_f m 0) by lra.
  rewrite !N by lra. rewrite (Reqb_f 1 0) by lra. unfold v3_div, assert_then. rops. rewrite (Reqb_f (1 * 1) 0) by lra. cbn [negb bind].
  match goal with |- context [v3_dot ?n _] => replace n with zero3 by (unfold v3_cross, zero3; rops; cbn; f_equal; field) end.
  rewrite normalized_zero. replace (v3_dot zero3 zero3) with 0 by (rewrite v3_dot_eq; unfold dot3, zero3; cbn [x3 y3 z3]; ring).
  replace (asin_ 0) with 0; [rewrite (Reqb_t 0 0 eq_refl); reflexivity|].
  pose proof PI_RGT_0. pose proof (asin_sin_acute 0 ltac:(lra)) as E. rewrite sin_0 in E. symmetry. exact E.
Qed.
