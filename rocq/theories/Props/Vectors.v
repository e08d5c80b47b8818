(** Properties C28-C34, C66, C67: vectors, over R. *)
From Coq Require Import Reals ZArith Lra Lia.
From Verif.Base Require Import Outcome Scalar ScalarR.
From Verif.Model Require Import Types Functions Vec Interpolation.
From Verif.Spec Require Import NumSpec VecSpec.
From Verif.Proof Require Import VecFacts VecProofs Polar.
Local Open Scope R_scope.

(** C28. *)
Theorem C28_vec2_products (u v w : Vec2 R) (a b : R) :
  v2_dot u v = v2_dot v u /\
  v2_dot (v2_add (v2_scale u a) (v2_scale v b)) w = a * v2_dot u w + b * v2_dot v w /\
  v2_cross u v = - v2_cross v u /\
  v2_cross (v2_add (v2_scale u a) (v2_scale v b)) w = a * v2_cross u w + b * v2_cross v w /\
  v2_cross u v * v2_cross u v + v2_dot u v * v2_dot u v = v2_lengthSqr u * v2_lengthSqr v /\
  v2_length u * v2_length u = v2_lengthSqr u /\ 0 <= v2_length u /\
  Rabs (v2_dot u v) <= v2_length u * v2_length v /\
  v2_length (v2_add u v) <= v2_length u + v2_length v.
Proof. exact (v2_product_laws u v w a b). Qed.
Print Assumptions C28_vec2_products.
Theorem C28_vec3_products (u v w : Vec3 R) (a b : R) :
  v3_dot u v = v3_dot v u /\
  v3_dot (v3_add (v3_scale u a) (v3_scale v b)) w = a * v3_dot u w + b * v3_dot v w /\
  v3_cross u v = v3_opp (v3_cross v u) /\
  v3_cross (v3_add (v3_scale u a) (v3_scale v b)) w = v3_add (v3_scale (v3_cross u w) a) (v3_scale (v3_cross v w) b) /\
  v3_dot (v3_cross u v) u = 0 /\ v3_dot (v3_cross u v) v = 0 /\
  v3_lengthSqr (v3_cross u v) + v3_dot u v * v3_dot u v = v3_lengthSqr u * v3_lengthSqr v /\
  v3_cross u (v3_cross v w) = v3_sub (v3_scale v (v3_dot u w)) (v3_scale w (v3_dot u v)) /\
  v3_length u * v3_length u = v3_lengthSqr u /\ 0 <= v3_length u /\
  Rabs (v3_dot u v) <= v3_length u * v3_length v /\
  v3_length (v3_add u v) <= v3_length u + v3_length v.
Proof. exact (v3_product_laws u v w a b). Qed.
Print Assumptions C28_vec3_products.
(** The laws above do not fix signs; these values do. *)
Theorem C28_orientation :
  v3_cross v3_onex v3_oney = v3_onez /\ v3_cross v3_oney v3_onez = v3_onex /\
  v3_cross v3_onez v3_onex = (v3_oney : Vec3 R) /\ v2_cross v2_onex v2_oney = 1.
Proof. exact cross_orientation. Qed.
Print Assumptions C28_orientation.
(** Component-wise: every operation equals its textbook definition. *)
Theorem C28_textbook (u v : Vec3 R) (p q : Vec2 R) (k : R) :
  v3_add u v = plus3 u v /\ v3_sub u v = minus3 u v /\ v3_scale u k = smul3 k u /\ v3_dot u v = dot3 u v /\
  v3_cross u v = cross3 u v /\ v3_length u = norm3 u /\
  v2_add p q = plus2 p q /\ v2_sub p q = minus2 p q /\ v2_scale p k = smul2 k p /\ v2_dot p q = dot2 p q /\
  v2_cross p q = det2 p q /\ v2_length p = norm2 p.
Proof.
  exact (conj (v3_add_eq u v) (conj (v3_sub_eq u v) (conj (v3_scale_eq u k) (conj (v3_dot_eq u v)
    (conj (v3_cross_eq u v) (conj (v3_length_eq u) (conj (v2_add_eq p q) (conj (v2_sub_eq p q)
    (conj (v2_scale_eq p k) (conj (v2_dot_eq p q) (conj (v2_cross_eq p q) (v2_length_eq p)))))))))))).
Qed.
Print Assumptions C28_textbook.

(** C29: new vector and returned former length. *)
Theorem C29_vec2_normalize (u : Vec2 R) (k : R) :
  exists v, v2_normalize u k = (v, norm2 u) /\ v2_normalized u k = v /\
    (u = zero2 -> v = zero2) /\
    (u <> zero2 -> norm2 v = Rabs k /\ v = smul2 (k / norm2 u) u).
Proof. exact (v2_normalize_spec u k). Qed.
Print Assumptions C29_vec2_normalize.
Theorem C29_vec3_normalize (u : Vec3 R) (k : R) :
  exists v, v3_normalize u k = (v, norm3 u) /\ v3_normalized u k = v /\
    (u = zero3 -> v = zero3) /\
    (u <> zero3 -> norm3 v = Rabs k /\ v = smul3 (k / norm3 u) u).
Proof. exact (v3_normalize_spec u k). Qed.
Print Assumptions C29_vec3_normalize.

(** C30. *)
Theorem C30_vec2_rotate (u v : Vec2 R) (a b : R) :
  v2_rotate u a = mkV2 (x2 u * cos a - y2 u * sin a) (x2 u * sin a + y2 u * cos a) /\
  v2_rotated u a = v2_rotate u a /\
  dot2 (v2_rotate u a) (v2_rotate v a) = dot2 u v /\
  det2 (v2_rotate u a) (v2_rotate v a) = det2 u v /\
  norm2 (v2_rotate u a) = norm2 u /\
  v2_rotate (v2_rotate u a) b = v2_rotate u (a + b) /\
  v2_rotate (v2_rotate u a) (- a) = u /\
  v2_rotate90 u = v2_rotate u (PI / 2) /\ v2_rotate180 u = v2_rotate u PI /\
  v2_rotate270 u = v2_rotate u (3 * (PI / 2)).
Proof. exact (v2_rotate_spec u v a b). Qed.
Print Assumptions C30_vec2_rotate.
(** Around a coordinate axis: the right-handed rotation of that axis. *)
Theorem C30_vec3_rotate (u v : Vec3 R) (c : Coord) (a b : R) n : coord_vec c = Some n ->
  v3_rotate u c a = rodrigues n a u /\ v3_rotated u c a = v3_rotate u c a /\
  dot3 (v3_rotate u c a) (v3_rotate v c a) = dot3 u v /\
  norm3 (v3_rotate u c a) = norm3 u /\
  v3_rotate (v3_rotate u c a) c b = v3_rotate u c (a + b) /\
  v3_rotate (v3_rotate u c a) c (- a) = u.
Proof. exact (v3_rotate_spec u v c a b n). Qed.
Print Assumptions C30_vec3_rotate.
Example C30_hypotheses_met : coord_vec CoY = Some (mkV3 0 1 0).
Proof. reflexivity. Qed.
(** Other coordinates silently give the null vector. *)
Theorem C30_undefined_axis (u : Vec3 R) (c : Coord) (a : R) : coord_vec c = None ->
  v3_rotate u c a = zero3 /\ v3_rotated u c a = zero3.
Proof. exact (v3_rotate_bad_axis u c a). Qed.
Print Assumptions C30_undefined_axis.

(** C31. *)
Theorem C31_cross_coord (u : Vec3 R) (c : Coord) :
  match coord_vec c with
  | Some n => v3_cross_coord u c = Ok (cross3 u n)
  | None => v3_cross_coord u c = AssertFail
  end.
Proof. exact (v3_cross_coord_spec u c). Qed.
Print Assumptions C31_cross_coord.
Theorem C31_cross_axis (u : Vec3 R) (a : Axis) :
  match axis_vec a with
  | Some n => v3_cross_axis u a = Ok (cross3 u n)
  | None => v3_cross_axis u a = AssertFail
  end.
Proof. exact (v3_cross_axis_spec u a). Qed.
Print Assumptions C31_cross_axis.

(** C32: both routes for X and Z, only toVec2 for Y. *)
Theorem C32_embedding_partial (u : Vec2 R) (c : Coord) :
  v3_toVec2 (v3_of_v2 u c) c = u /\
  (c = CoX \/ c = CoZ -> v2_of_v3 (v3_of_v2 u c) c = Ok u).
Proof. exact (v3_v2_roundtrip u c). Qed.
Print Assumptions C32_embedding_partial.
(** The Vec2(Vec3, Coord::Y) constructor swaps the two components. *)
Theorem C32_constructor_refuted : v2_of_v3 (v3_of_v2 (mkV2 1 2) CoY) CoY <> Ok (mkV2 1 2).
Proof. exact v2_of_v3_refuted. Qed.
Print Assumptions C32_constructor_refuted.

(** C33. *)
Theorem C33_vec2_major_minor (u : Vec2 R) :
  (exists m, comp2 (v2_majorCoord u) u = Some m /\ forall c x, comp2 c u = Some x -> Rabs x <= Rabs m) /\
  (exists m, comp2 (v2_minorCoord u) u = Some m /\ forall c x, comp2 c u = Some x -> Rabs m <= Rabs x).
Proof. exact (v2_coords u). Qed.
Print Assumptions C33_vec2_major_minor.
Theorem C33_vec3_major_minor (u : Vec3 R) :
  (exists m, comp3 (v3_majorCoord u) u = Some m /\ forall c x, comp3 c u = Some x -> Rabs x <= Rabs m) /\
  (exists m, comp3 (v3_minorCoord u) u = Some m /\ forall c x, comp3 c u = Some x -> Rabs m <= Rabs x).
Proof. exact (v3_coords u). Qed.
Print Assumptions C33_vec3_major_minor.

(** C34: returned code, ftp and abp. *)
Theorem C34_intersection (p q a b : Vec2 R) :
  exists code l g, v2_intersection p q a b = (code, l, g) /\
    (code = 0%Z /\ det2 (minus2 q p) (minus2 b a) = 0 \/
     code = 1%Z /\ det2 (minus2 q p) (minus2 b a) <> 0 /\
       plus2 p (smul2 l (minus2 q p)) = plus2 a (smul2 g (minus2 b a)) /\
       forall l' g', plus2 p (smul2 l' (minus2 q p)) = plus2 a (smul2 g' (minus2 b a)) -> l' = l /\ g' = g).
Proof. exact (v2_intersection_spec p q a b). Qed.
Print Assumptions C34_intersection.

(** C66. *)
Theorem C66_polar (u : Vec2 R) (a l : R) :
  - PI < v2_angle u <= PI /\ v2_setAngle (v2_angle u) (v2_length u) = u /\
  norm2 (v2_setAngle a l) = Rabs l /\
  (0 < l -> congruent (2 * PI) (v2_angle (v2_setAngle a l)) a).
Proof.
  exact (conj (v2_angle_range u) (conj (polar_roundtrip u) (conj (setAngle_norm a l) (setAngle_angle a l)))).
Qed.
Print Assumptions C66_polar.

(** C67. *)
Theorem C67_vec2_clerp (u v : Vec2 R) r : 0 <= r <= 1 ->
  exists w, v2_clerp u v r = Ok w /\ norm2 w = (1 - r) * norm2 u + r * norm2 v /\
    (r = 0 -> w = u) /\ (r = 1 -> w = v).
Proof. exact (v2_clerp_spec u v r). Qed.
Print Assumptions C67_vec2_clerp.
Theorem C67_vec2_clerp_rejects (u v : Vec2 R) r : ~ 0 <= r <= 1 -> v2_clerp u v r = AssertFail.
Proof. exact (v2_clerp_assert u v r). Qed.
Print Assumptions C67_vec2_clerp_rejects.
Theorem C67_vec2_clerp_turn_partial (u v : Vec2 R) r : 0 <= r <= 1 -> - PI <= v2_angle v - v2_angle u ->
  exists d w, v2_clerp u v r = Ok w /\ Rabs d <= PI /\ congruent (2 * PI) (v2_angle u + d) (v2_angle v) /\
    w = smul2 (norm2 w) (mkV2 (cos (v2_angle u + r * d)) (sin (v2_angle u + r * d))).
Proof. exact (v2_clerp_turn u v r). Qed.
Print Assumptions C67_vec2_clerp_turn_partial.
Example C67_hypotheses_met : - PI <= v2_angle (mkV2 (- (2)) 0) - v2_angle (mkV2 0 1).
Proof. rewrite atan2_up, atan2_left by lra. pose proof PI_RGT_0. lra. Qed.
(** Between vectors of lengths 1 and 2 a result of length 2.5. *)
Theorem C67_clerpMaxAngle_length_refuted :
  norm2 (mkV2 0 1) = 1 /\ norm2 (mkV2 (- (2)) 0) = 2 /\
  exists w, v2_clerpMaxAngle (mkV2 0 1) (mkV2 (- (2)) 0) (PI / 4) = Ok w /\ norm2 w = 5 / 2.
Proof. exact v2_clerpMaxAngle_refuted. Qed.
Print Assumptions C67_clerpMaxAngle_length_refuted.
