(** Facts about the vector classes over R. *)
From Coq Require Import Reals ZArith Lra Lia Bool Psatz.
From Verif.Base Require Import Outcome Wp Scalar ScalarR RFacts.
From Verif.Model Require Import Types Functions Vec Interpolation.
From Verif.Spec Require Import NumSpec VecSpec.
From Verif.Proof Require Import FunctionsProofs InterpolationProofs VecFacts.
Local Open Scope R_scope.

(** * Products *)
Lemma v2_product_laws (u v w : Vec2 R) (a b : R) :
  v2_dot u v = v2_dot v u /\
  v2_dot (v2_add (v2_scale u a) (v2_scale v b)) w = a * v2_dot u w + b * v2_dot v w /\
  v2_cross u v = - v2_cross v u /\
  v2_cross (v2_add (v2_scale u a) (v2_scale v b)) w = a * v2_cross u w + b * v2_cross v w /\
  v2_cross u v * v2_cross u v + v2_dot u v * v2_dot u v = v2_lengthSqr u * v2_lengthSqr v /\
  v2_length u * v2_length u = v2_lengthSqr u /\ 0 <= v2_length u /\
  Rabs (v2_dot u v) <= v2_length u * v2_length v /\
  v2_length (v2_add u v) <= v2_length u + v2_length v.
Proof.
  split; [vring|]. split; [vring|]. split; [vring|]. split; [vring|]. split; [vring|].
  split; [apply norm2_sqr|]. split; [apply norm2_nonneg|]. split; [apply cauchy2|apply triangle2].
Qed.
Lemma v3_product_laws (u v w : Vec3 R) (a b : R) :
  v3_dot u v = v3_dot v u /\
  v3_dot (v3_add (v3_scale u a) (v3_scale v b)) w = a * v3_dot u w + b * v3_dot v w /\
  v3_cross u v = v3_opp (v3_cross v u) /\
  v3_cross (v3_add (v3_scale u a) (v3_scale v b)) w = v3_add (v3_scale (v3_cross u w) a) (v3_scale (v3_cross v w) b) /\
  v3_dot (v3_cross u v) u = 0 /\ v3_dot (v3_cross u v) v = 0 /\
  v3_lengthSqr (v3_cross u v) + v3_dot u v * v3_dot u v = v3_lengthSqr u * v3_lengthSqr v /\
  v3_cross u (v3_cross v w) = v3_sub (v3_scale v (v3_dot u w)) (v3_scale w (v3_dot u v)) /\
  v3_length u * v3_length u = v3_lengthSqr u /\ 0 <= v3_length u /\
  Rabs (v3_dot u v) <= v3_length u * v3_length v /\
  v3_length (v3_add u v) <= v3_length u + v3_length v.
Proof.
  do 8 (split; [vring|]).
  split; [apply norm3_sqr|]. split; [apply norm3_nonneg|]. split; [apply cauchy3|apply triangle3].
Qed.
(** Orientation of the cross product. *)
Lemma cross_orientation :
  v3_cross v3_onex v3_oney = v3_onez /\ v3_cross v3_oney v3_onez = v3_onex /\
  v3_cross v3_onez v3_onex = v3_oney /\ v2_cross v2_onex v2_oney = 1.
Proof. repeat split; vring. Qed.

(** * normalize *)
Lemma v2_normalize_spec (u : Vec2 R) (k : R) :
  exists v, v2_normalize u k = (v, norm2 u) /\ v2_normalized u k = v /\
    (u = zero2 -> v = zero2) /\
    (u <> zero2 -> norm2 v = Rabs k /\ v = smul2 (k / norm2 u) u).
Proof.
  unfold v2_normalize, v2_normalized. rewrite v2_length_eq. rops.
  destruct (Reqb_spec (norm2 u) 0) as [E|E].
  - eexists. split; [reflexivity|]. split; [reflexivity|]. split; [reflexivity|].
    intros H. apply norm2_zero in E. contradiction.
  - eexists. split; [reflexivity|]. split; [|split].
    + f_equal; field; exact E.
    + intros ->. exfalso. apply E. apply norm2_zero. reflexivity.
    + intros Hu. assert (Hs : mkV2 (x2 u * (k / norm2 u)) (y2 u * (k / norm2 u)) = smul2 (k / norm2 u) u)
        by (unfold smul2; f_equal; ring).
      split; [|exact Hs]. rewrite Hs, norm2_smul. pose proof (norm2_pos u Hu).
      unfold Rdiv. rewrite Rabs_mult, Rabs_inv, (Rabs_right (norm2 u)) by lra. field. lra.
Qed.
Lemma v3_normalize_spec (u : Vec3 R) (k : R) :
  exists v, v3_normalize u k = (v, norm3 u) /\ v3_normalized u k = v /\
    (u = zero3 -> v = zero3) /\
    (u <> zero3 -> norm3 v = Rabs k /\ v = smul3 (k / norm3 u) u).
Proof.
  unfold v3_normalize, v3_normalized. rewrite v3_length_eq. rops. cbn zeta.
  destruct (Reqb_spec (norm3 u) 0) as [E|E].
  - eexists. split; [reflexivity|]. split; [reflexivity|]. split; [reflexivity|].
    intros H. apply norm3_zero in E. contradiction.
  - eexists. split; [reflexivity|]. split; [reflexivity|]. split.
    + intros ->. exfalso. apply E. apply norm3_zero. reflexivity.
    + intros Hu. assert (Hs : mkV3 (x3 u * (k / norm3 u)) (y3 u * (k / norm3 u)) (z3 u * (k / norm3 u)) = smul3 (k / norm3 u) u)
        by (unfold smul3; f_equal; ring).
      split; [|exact Hs]. rewrite Hs, norm3_smul. pose proof (norm3_pos u Hu).
      unfold Rdiv. rewrite Rabs_mult, Rabs_inv, (Rabs_right (norm3 u)) by lra. field. lra.
Qed.

(** * Rotations *)
Lemma v2_rotate_spec (u v : Vec2 R) (a b : R) :
  v2_rotate u a = mkV2 (x2 u * cos a - y2 u * sin a) (x2 u * sin a + y2 u * cos a) /\
  v2_rotated u a = v2_rotate u a /\
  dot2 (v2_rotate u a) (v2_rotate v a) = dot2 u v /\
  det2 (v2_rotate u a) (v2_rotate v a) = det2 u v /\
  norm2 (v2_rotate u a) = norm2 u /\
  v2_rotate (v2_rotate u a) b = v2_rotate u (a + b) /\
  v2_rotate (v2_rotate u a) (- a) = u /\
  v2_rotate90 u = v2_rotate u (PI / 2) /\ v2_rotate180 u = v2_rotate u PI /\
  v2_rotate270 u = v2_rotate u (3 * (PI / 2)).
Proof.
  pose proof (sin2_cos2 a) as S. unfold Rsqr in S.
  assert (D : forall u v, dot2 (v2_rotate u a) (v2_rotate v a) = dot2 u v).
  { intros p q. transitivity ((sin a * sin a + cos a * cos a) * dot2 p q); [vring|rewrite S; ring]. }
  split; [reflexivity|]. split; [reflexivity|]. split; [apply D|].
  split; [transitivity ((sin a * sin a + cos a * cos a) * det2 u v); [vring|rewrite S; ring]|].
  split; [unfold norm2; rewrite D; reflexivity|].
  split; [vsimp; rewrite cos_plus, sin_plus; f_equal; ring|].
  split.
  { destruct u as [ux uy]. vsimp. rewrite cos_neg, sin_neg. f_equal.
    - transitivity ((sin a * sin a + cos a * cos a) * ux); [ring|rewrite S; ring].
    - transitivity ((sin a * sin a + cos a * cos a) * uy); [ring|rewrite S; ring]. }
  split; [vsimp; rewrite cos_PI2, sin_PI2; f_equal; ring|].
  split; [vsimp; rewrite cos_PI, sin_PI; f_equal; ring|].
  vsimp. rewrite cos_3PI2, sin_3PI2. f_equal; ring.
Qed.

(** Rotation around a coordinate axis is the right-handed rotation around its
    unit vector. *)
Lemma v3_rotate_rodrigues (u : Vec3 R) (c : Coord) (a : R) n : coord_vec c = Some n ->
  v3_rotate u c a = rodrigues n a u /\ v3_rotated u c a = rodrigues n a u.
Proof.
  intros H. destruct c; try discriminate; injection H as <-;
    unfold v3_rotate, v3_rotated; split; vsimp; f_equal; ring.
Qed.
Lemma rodrigues_dot n a u v : dot3 n n = 1 -> dot3 (rodrigues n a u) (rodrigues n a v) = dot3 u v.
Proof.
  intros Hn. pose proof (sin2_cos2 a) as S. unfold Rsqr in S. set (s := sin a) in *. set (c := cos a) in *.
  assert (Hc : s * s = 1 - c * c) by lra.
  assert (E : dot3 (rodrigues n a u) (rodrigues n a v) =
    c * c * dot3 u v + s * s * (dot3 n n * dot3 u v - dot3 n u * dot3 n v) +
    (1 - c) * (1 - c) * (dot3 n u * dot3 n v) * dot3 n n + 2 * c * (1 - c) * (dot3 n u * dot3 n v)).
  { unfold rodrigues. fold s c. vring. }
  rewrite E, Hn, Hc. ring.
Qed.
Lemma rodrigues_plus n a b u : dot3 n n = 1 ->
  rodrigues n b (rodrigues n a u) = rodrigues n (a + b) u.
Proof.
  intros Hn. unfold rodrigues at 1 2 3. rewrite cos_plus, sin_plus.
  set (s := sin a). set (c := cos a). set (s' := sin b). set (c' := cos b).
  pose proof Hn as Hn'.
  assert (X : forall p q r : R, p * p + q * q + r * r = 1 -> True) by trivial.
  destruct n as [nx ny nz], u as [ux uy uz]. vunf. cbn [x3 y3 z3] in *.
  assert (Hz : nz * nz = 1 - nx * nx - ny * ny) by lra.
  f_equal.
  - transitivity ((c' * c - s' * s * (nx * nx + ny * ny + nz * nz)) * ux
      + (s * c' + c * s') * (ny * uz - nz * uy)
      + nx * (nx * ux + ny * uy + nz * uz) * (s' * s + c' * (1 - c) + (1 - c') * c +
          (1 - c') * (1 - c) * (nx * nx + ny * ny + nz * nz))).
    + ring.
    + rewrite Hn. ring.
  - transitivity ((c' * c - s' * s * (nx * nx + ny * ny + nz * nz)) * uy
      + (s * c' + c * s') * (nz * ux - nx * uz)
      + ny * (nx * ux + ny * uy + nz * uz) * (s' * s + c' * (1 - c) + (1 - c') * c +
          (1 - c') * (1 - c) * (nx * nx + ny * ny + nz * nz))).
    + ring.
    + rewrite Hn. ring.
  - transitivity ((c' * c - s' * s * (nx * nx + ny * ny + nz * nz)) * uz
      + (s * c' + c * s') * (nx * uy - ny * ux)
      + nz * (nx * ux + ny * uy + nz * uz) * (s' * s + c' * (1 - c) + (1 - c') * c +
          (1 - c') * (1 - c) * (nx * nx + ny * ny + nz * nz))).
    + ring.
    + rewrite Hn. ring.
Qed.
Lemma rodrigues_0 n u : rodrigues n 0 u = u.
Proof. unfold rodrigues. rewrite cos_0, sin_0. vring. Qed.
Lemma coord_vec_unit c n : coord_vec c = Some n -> dot3 n n = 1.
Proof. destruct c; intros H; try discriminate; injection H as <-; vring. Qed.
Lemma v3_rotate_spec (u v : Vec3 R) (c : Coord) (a b : R) n : coord_vec c = Some n ->
  v3_rotate u c a = rodrigues n a u /\ v3_rotated u c a = v3_rotate u c a /\ dot3 (v3_rotate u c a) (v3_rotate v c a) = dot3 u v /\
  norm3 (v3_rotate u c a) = norm3 u /\ v3_rotate (v3_rotate u c a) c b = v3_rotate u c (a + b) /\
  v3_rotate (v3_rotate u c a) c (- a) = u.
Proof.
  intros H. pose proof (coord_vec_unit c n H) as Hn.
  assert (E : forall u a, v3_rotate u c a = rodrigues n a u) by (intros; apply v3_rotate_rodrigues; exact H).
  assert (E' : v3_rotated u c a = rodrigues n a u) by (apply v3_rotate_rodrigues; exact H).
  rewrite E', !E, !rodrigues_dot, !rodrigues_plus by exact Hn.
  repeat split.
  - unfold norm3. rewrite rodrigues_dot by exact Hn. reflexivity.
  - rewrite Rplus_opp_r. apply rodrigues_0.
Qed.
Lemma v3_rotate_bad_axis (u : Vec3 R) (c : Coord) (a : R) : coord_vec c = None ->
  v3_rotate u c a = zero3 /\ v3_rotated u c a = zero3.
Proof. destruct c; intros H; try discriminate; split; reflexivity. Qed.

(** * Cross product with an axis *)
Lemma v3_cross_coord_spec (u : Vec3 R) (c : Coord) :
  match coord_vec c with
  | Some n => v3_cross_coord u c = Ok (cross3 u n)
  | None => v3_cross_coord u c = AssertFail
  end.
Proof. destruct c; cbn; try reflexivity; f_equal; vring. Qed.
Lemma v3_cross_axis_spec (u : Vec3 R) (a : Axis) :
  match axis_vec a with
  | Some n => v3_cross_axis u a = Ok (cross3 u n)
  | None => v3_cross_axis u a = AssertFail
  end.
Proof. destruct a; cbn; try reflexivity; f_equal; vring. Qed.

(** * Vec2 and Vec3 *)
Lemma v3_v2_roundtrip (u : Vec2 R) (c : Coord) :
  v3_toVec2 (v3_of_v2 u c) c = u /\ (c = CoX \/ c = CoZ -> v2_of_v3 (v3_of_v2 u c) c = Ok u).
Proof.
  destruct u as [a b]. split; [destruct c; reflexivity|]. intros [->| ->]; reflexivity.
Qed.
Lemma v2_of_v3_swapped (u : Vec2 R) : v2_of_v3 (v3_of_v2 u CoY) CoY = Ok (mkV2 (y2 u) (x2 u)).
Proof. reflexivity. Qed.
Lemma v2_of_v3_refuted : v2_of_v3 (v3_of_v2 (mkV2 1 2) CoY) CoY <> Ok (mkV2 1 2).
Proof. cbn. intros H. injection H. lra. Qed.

(** * majorCoord, minorCoord *)
Lemma abs_branch x : (if Rleb 0 x then x else - x) = Rabs x.
Proof. destruct (Rleb_spec 0 x); [rewrite Rabs_right|rewrite Rabs_left]; lra. Qed.
Lemma v2_coords (u : Vec2 R) :
  (exists m, comp2 (v2_majorCoord u) u = Some m /\ forall c x, comp2 c u = Some x -> Rabs x <= Rabs m) /\ (exists m, comp2 (v2_minorCoord u) u = Some m /\ forall c x, comp2 c u = Some x -> Rabs m <= Rabs x).
Proof.
  unfold v2_majorCoord, v2_minorCoord. rops. rewrite !abs_branch. cbn zeta. split.
  - destruct (Rleb_spec (Rabs (y2 u)) (Rabs (x2 u))); eexists; (split; [reflexivity|]);
      intros [] x; cbn; try discriminate; intros [= <-]; lra.
  - destruct (Rltb_spec (Rabs (x2 u)) (Rabs (y2 u))); eexists; (split; [reflexivity|]);
      intros [] x; cbn; try discriminate; intros [= <-]; lra.
Qed.
Lemma v3_coords (u : Vec3 R) :
  (exists m, comp3 (v3_majorCoord u) u = Some m /\ forall c x, comp3 c u = Some x -> Rabs x <= Rabs m) /\ (exists m, comp3 (v3_minorCoord u) u = Some m /\ forall c x, comp3 c u = Some x -> Rabs m <= Rabs x).
Proof.
  unfold v3_majorCoord, v3_minorCoord. rops. rewrite !abs_branch. cbn zeta. split.
  - destruct (Rleb_spec (Rabs (y3 u)) (Rabs (x3 u))); [destruct (Rleb_spec (Rabs (z3 u)) (Rabs (x3 u)))|
      destruct (Rleb_spec (Rabs (z3 u)) (Rabs (y3 u)))]; eexists; (split; [reflexivity|]);
      intros [] x; cbn; try discriminate; intros [= <-]; lra.
  - destruct (Rltb_spec (Rabs (x3 u)) (Rabs (y3 u))); [destruct (Rltb_spec (Rabs (x3 u)) (Rabs (z3 u)))|
      destruct (Rltb_spec (Rabs (y3 u)) (Rabs (z3 u)))]; eexists; (split; [reflexivity|]);
      intros [] x; cbn; try discriminate; intros [= <-]; lra.
Qed.

(** * Intersection of two lines of the plane *)
Lemma v2_intersection_spec (p q a b : Vec2 R) :
  exists code l g, v2_intersection p q a b = (code, l, g) /\   (code = 0%Z /\ det2 (minus2 q p) (minus2 b a) = 0 \/
     code = 1%Z /\ det2 (minus2 q p) (minus2 b a) <> 0 /\      plus2 p (smul2 l (minus2 q p)) = plus2 a (smul2 g (minus2 b a)) /\      forall l' g', plus2 p (smul2 l' (minus2 q p)) = plus2 a (smul2 g' (minus2 b a)) -> l' = l /\ g' = g).
Proof.
  unfold v2_intersection. destruct p as [px py], q as [qx qy], a as [ax ay], b as [bx by_]. vsimp. cbn zeta.
  match goal with |- context [Reqb ?d 0] => set (D := d) end.
  destruct (Reqb_spec D 0) as [E|E].
  - do 3 eexists. split; [reflexivity|]. left. split; [reflexivity|exact E].
  - do 3 eexists. split; [reflexivity|]. right. split; [reflexivity|]. split; [exact E|].
    split.
    + unfold D in *. f_equal; field; exact E.
    + intros l' g' H. injection H as H1 H2.
      assert (E1 : l' * (qx - px) = ax - px + g' * (bx - ax)) by lra.
      assert (E2 : l' * (qy - py) = ay - py + g' * (by_ - ay)) by lra.
      assert (F1 : g' * (bx - ax) = l' * (qx - px) - (ax - px)) by lra.
      assert (F2 : g' * (by_ - ay) = l' * (qy - py) - (ay - py)) by lra.
      split; apply Rmult_eq_reg_r with (r := D); try exact E; unfold Rdiv;
        rewrite (Rmult_assoc _ (/ _)), Rinv_l by exact E; unfold D.
      * transitivity (l' * (qx - px) * (by_ - ay) - l' * (qy - py) * (bx - ax)); [ring|rewrite E1, E2; ring].
      * transitivity (g' * (by_ - ay) * (qx - px) - g' * (bx - ax) * (qy - py)); [ring|rewrite F1, F2; ring].
Qed.
