(** Vector algebra over R. *)
From Coq Require Import Reals ZArith Lra Lia Bool Psatz.
From Verif.Base Require Import Outcome Wp Scalar ScalarR RFacts.
From Verif.Model Require Import Types Functions Vec.
From Verif.Spec Require Import VecSpec.
Local Open Scope R_scope.

Ltac vunf := unfold v2_zero, v2_onex, v2_oney, v2_setAngle, v2_lengthSqr, v2_rotate, v2_rotated, v2_rotate90,
  v2_rotate180, v2_rotate270, v2_mirror, v2_mirrored, v2_add, v2_sub, v2_opp, v2_scale, v2_dot, v2_cross,
  v2_crossProduct, v2_product,
  v3_zero, v3_onex, v3_oney, v3_onez, v3_lengthSqr, v3_mirror, v3_mirrored, v3_add, v3_sub, v3_opp,
  v3_scale, v3_dot, v3_cross, v3_product, v4_add, v4_sub, v4_opp, v4_scale, v4_dot, v4_lengthSqr, v4_product,
  v4_of_v3, v4_toVec3,
  rodrigues, dist2, dist3, dot2, dot3, zero2, zero3, smul2, smul3, plus2, plus3, minus2, minus3, det2, cross3 in *.
Ltac vdes := repeat match goal with
  | u : Vec2 R |- _ => destruct u
  | u : Vec3 R |- _ => destruct u
  | u : Vec4 R |- _ => destruct u
  end.
Ltac vsimp := vdes; vunf; cbn [x2 y2 x3 y3 z3 x4 y4 z4 w4] in *; rops.
(** Vector identities. *)
Ltac vring := intros; vsimp; try (f_equal; ring); try ring.

Lemma v2_eta (u : Vec2 R) : u = mkV2 (x2 u) (y2 u). Proof. destruct u; reflexivity. Qed.
Lemma v3_eta (u : Vec3 R) : u = mkV3 (x3 u) (y3 u) (z3 u). Proof. destruct u; reflexivity. Qed.
Lemma v4_eta (u : Vec4 R) : u = mkV4 (x4 u) (y4 u) (z4 u) (w4 u). Proof. destruct u; reflexivity. Qed.

(** The library operations are the textbook ones. *)
Lemma v2_dot_eq u v : v2_dot u v = dot2 u v. Proof. reflexivity. Qed.
Lemma v3_dot_eq u v : v3_dot u v = dot3 u v. Proof. reflexivity. Qed.
Lemma v2_length_eq u : v2_length u = norm2 u. Proof. reflexivity. Qed.
Lemma v3_length_eq u : v3_length u = norm3 u. Proof. reflexivity. Qed.
Lemma v2_cross_eq u v : v2_cross u v = det2 u v. Proof. reflexivity. Qed.
Lemma v3_cross_eq u v : v3_cross u v = cross3 u v. Proof. reflexivity. Qed.
Lemma v2_add_eq u v : v2_add u v = plus2 u v. Proof. reflexivity. Qed.
Lemma v3_add_eq u v : v3_add u v = plus3 u v. Proof. reflexivity. Qed.
Lemma v2_sub_eq u v : v2_sub u v = minus2 u v. Proof. reflexivity. Qed.
Lemma v3_sub_eq u v : v3_sub u v = minus3 u v. Proof. reflexivity. Qed.
Lemma v2_scale_eq u k : v2_scale u k = smul2 k u. Proof. vring. Qed.
Lemma v3_scale_eq u k : v3_scale u k = smul3 k u. Proof. vring. Qed.

Lemma dot2_nonneg u : 0 <= dot2 u u. Proof. vsimp. nra. Qed.
Lemma dot3_nonneg u : 0 <= dot3 u u. Proof. vsimp. nra. Qed.
Lemma dot2_zero u : dot2 u u = 0 <-> u = zero2.
Proof.
  vsimp. split; [|intros [= -> ->]; ring]. intros H. assert (x2 = 0) by nra. assert (y2 = 0) by nra. subst; reflexivity.
Qed.
Lemma dot3_zero u : dot3 u u = 0 <-> u = zero3.
Proof.
  vsimp. split; [|intros [= -> -> ->]; ring]. intros H. assert (x3 = 0) by nra. assert (y3 = 0) by nra.
  assert (z3 = 0) by nra. subst; reflexivity.
Qed.
Lemma norm2_sqr u : norm2 u * norm2 u = dot2 u u.
Proof. apply sqrt_sqrt. apply dot2_nonneg. Qed.
Lemma norm3_sqr u : norm3 u * norm3 u = dot3 u u.
Proof. apply sqrt_sqrt. apply dot3_nonneg. Qed.
Lemma norm2_nonneg u : 0 <= norm2 u. Proof. apply sqrt_pos. Qed.
Lemma norm3_nonneg u : 0 <= norm3 u. Proof. apply sqrt_pos. Qed.
Lemma norm2_zero u : norm2 u = 0 <-> u = zero2.
Proof.
  split; intros H.
  - apply dot2_zero. rewrite <- norm2_sqr, H. ring.
  - unfold norm2. apply dot2_zero in H. rewrite H. apply sqrt_0.
Qed.
Lemma norm3_zero u : norm3 u = 0 <-> u = zero3.
Proof.
  split; intros H.
  - apply dot3_zero. rewrite <- norm3_sqr, H. ring.
  - unfold norm3. apply dot3_zero in H. rewrite H. apply sqrt_0.
Qed.
Lemma norm2_pos u : u <> zero2 -> 0 < norm2 u.
Proof. intros H. pose proof (norm2_nonneg u). destruct (Req_dec (norm2 u) 0) as [E|E]; [|lra]. apply norm2_zero in E. contradiction. Qed.
Lemma norm3_pos u : u <> zero3 -> 0 < norm3 u.
Proof. intros H. pose proof (norm3_nonneg u). destruct (Req_dec (norm3 u) 0) as [E|E]; [|lra]. apply norm3_zero in E. contradiction. Qed.
Lemma sqr_eq_abs a b : a * a = b * b -> 0 <= a -> a = Rabs b.
Proof. intros H Ha. unfold Rabs. destruct (Rcase_abs b); nra. Qed.
Lemma norm2_smul k u : norm2 (smul2 k u) = Rabs k * norm2 u.
Proof.
  apply Rsqr_inj; [apply norm2_nonneg|apply Rmult_le_pos; [apply Rabs_pos|apply norm2_nonneg]|].
  unfold Rsqr. rewrite norm2_sqr.
  replace (Rabs k * norm2 u * (Rabs k * norm2 u)) with ((Rabs k * Rabs k) * (norm2 u * norm2 u)) by ring.
  rewrite norm2_sqr, <- Rabs_mult, (Rabs_right (k * k)) by nra. vring.
Qed.
Lemma norm3_smul k u : norm3 (smul3 k u) = Rabs k * norm3 u.
Proof.
  apply Rsqr_inj; [apply norm3_nonneg|apply Rmult_le_pos; [apply Rabs_pos|apply norm3_nonneg]|].
  unfold Rsqr. rewrite norm3_sqr.
  replace (Rabs k * norm3 u * (Rabs k * norm3 u)) with ((Rabs k * Rabs k) * (norm3 u * norm3 u)) by ring.
  rewrite norm3_sqr, <- Rabs_mult, (Rabs_right (k * k)) by nra. vring.
Qed.

Lemma lagrange2 u v : det2 u v * det2 u v + dot2 u v * dot2 u v = dot2 u u * dot2 v v.
Proof. vring. Qed.
Lemma lagrange3 u v : dot3 (cross3 u v) (cross3 u v) + dot3 u v * dot3 u v = dot3 u u * dot3 v v.
Proof. vring. Qed.
Lemma abs_le_sqr a b : 0 <= b -> a * a <= b * b -> Rabs a <= b.
Proof. intros Hb H. apply Rabs_le. nra. Qed.
Lemma cauchy2 u v : Rabs (dot2 u v) <= norm2 u * norm2 v.
Proof.
  pose proof (norm2_nonneg u). pose proof (norm2_nonneg v).
  apply abs_le_sqr; [nra|]. pose proof (lagrange2 u v).
  replace (norm2 u * norm2 v * (norm2 u * norm2 v)) with ((norm2 u * norm2 u) * (norm2 v * norm2 v)) by ring.
  rewrite !norm2_sqr. nra.
Qed.
Lemma cauchy3 u v : Rabs (dot3 u v) <= norm3 u * norm3 v.
Proof.
  pose proof (norm3_nonneg u). pose proof (norm3_nonneg v).
  apply abs_le_sqr; [nra|]. pose proof (lagrange3 u v). pose proof (dot3_nonneg (cross3 u v)).
  replace (norm3 u * norm3 v * (norm3 u * norm3 v)) with ((norm3 u * norm3 u) * (norm3 v * norm3 v)) by ring.
  rewrite !norm3_sqr. nra.
Qed.
Lemma le_sqr a b : 0 <= b -> a * a <= b * b -> a <= b.
Proof. intros. nra. Qed.
Lemma triangle2 u v : norm2 (plus2 u v) <= norm2 u + norm2 v.
Proof.
  pose proof (norm2_nonneg u). pose proof (norm2_nonneg v). apply le_sqr; [lra|].
  rewrite norm2_sqr. pose proof (cauchy2 u v) as C. pose proof (Rle_abs (dot2 u v)).
  pose proof (norm2_sqr u). pose proof (norm2_sqr v).
  replace (dot2 (plus2 u v) (plus2 u v)) with (dot2 u u + 2 * dot2 u v + dot2 v v) by vring. nra.
Qed.
Lemma triangle3 u v : norm3 (plus3 u v) <= norm3 u + norm3 v.
Proof.
  pose proof (norm3_nonneg u). pose proof (norm3_nonneg v). apply le_sqr; [lra|].
  rewrite norm3_sqr. pose proof (cauchy3 u v) as C. pose proof (Rle_abs (dot3 u v)).
  pose proof (norm3_sqr u). pose proof (norm3_sqr v).
  replace (dot3 (plus3 u v) (plus3 u v)) with (dot3 u u + 2 * dot3 u v + dot3 v v) by vring. nra.
Qed.
Lemma dist3_triangle a b c : dist3 a c <= dist3 a b + dist3 b c.
Proof.
  unfold dist3. replace (minus3 a c) with (plus3 (minus3 a b) (minus3 b c)) by vring. apply triangle3.
Qed.
Lemma dist2_triangle a b c : dist2 a c <= dist2 a b + dist2 b c.
Proof.
  unfold dist2. replace (minus2 a c) with (plus2 (minus2 a b) (minus2 b c)) by vring. apply triangle2.
Qed.
Lemma dist3_sym a b : dist3 a b = dist3 b a.
Proof. unfold dist3, norm3. f_equal. vring. Qed.
Lemma dist2_sym a b : dist2 a b = dist2 b a.
Proof. unfold dist2, norm2. f_equal. vring. Qed.
