(** Properties in IEEE-754 doubles. [F_ops L] is the arithmetic of double with
    any libm [L] (Base/ScalarF.v); [val] is the number a double stands for,
    [ordered] excludes NaN, [fin] also the infinities (Spec/FloatSpec.v). *)
From Coq Require Import Reals ZArith List Lra Lia.
From Flocq Require Import Core.Core IEEE754.BinarySingleNaN.
From Verif.Base Require Import Outcome Array Scalar ScalarR ScalarF.
From Verif.Model Require Import Types Functions Interpolation Vec Shapes Box Color.
From Verif.Spec Require Import NumSpec VecSpec GeomSpec FloatSpec ColorSpec.
From Verif.Proof Require Import FloatFacts Floats FloatBoxes FloatColors FloatColorError FloatEasing.
Import ListNotations.
Local Open Scope R_scope.

(** C16. 0 up to 0 and 1 from 1 on, in every mode. *)
Theorem C16_ends_double (L : Libm) (t : F64) (mode : InterpolationMode) : ordered t ->
  (val t <= 0 -> fin (@interpolationRatio F64 (F_ops L) t mode) /\ val (@interpolationRatio F64 (F_ops L) t mode) = 0) /\
  (1 <= val t -> fin (@interpolationRatio F64 (F_ops L) t mode) /\ val (@interpolationRatio F64 (F_ops L) t mode) = 1).
Proof. exact (ratio_double L t mode). Qed.
Print Assumptions C16_ends_double.

(** C17. Thirteen curves stay in [0,1] and keep the order. *)
Theorem C17_monotone_double (L : Libm) (mode : InterpolationMode) (t u : F64) : In mode modes_up -> ordered t -> ordered u -> val t <= val u ->
  between 0 1 (@interpolationRatio F64 (F_ops L) t mode) /\ between 0 1 (@interpolationRatio F64 (F_ops L) u mode) /\
  val (@interpolationRatio F64 (F_ops L) t mode) <= val (@interpolationRatio F64 (F_ops L) u mode).
Proof. exact (ratio_up_double L mode t u). Qed.
Print Assumptions C17_monotone_double.
Example C17_double_case : In ImCircularOut modes_up /\ between 0 1 (F64_of 1 (-2) false) /\ val (F64_of 1 (-2) false) = 1 / 4.
Proof.
  split; [cbn; tauto|]. split; [apply check_range; [midt|midt|vm_compute; reflexivity]|].
  destruct (of_ok 1 (-2) false) as [_ ->]; rewrite rnd_id; try (rewrite Rmult_1_l; apply generic_format_bpow; cbn; lia).
  - rewrite Rmult_1_l, Rabs_right by (apply Rle_ge, bpow_ge_0). apply bpow_lt. lia.
  - cbn. lra.
Qed.

(** C17. Sixteen curves stay in [0,1]. Missing: the cubic curves below, and those that call libm. *)
Theorem C17_range_double_partial (L : Libm) (mode : InterpolationMode) (t : F64) : In mode (ImQuadraticOut :: ImQuadraticInOut :: ImCircularInOut :: modes_up) -> ordered t ->
  between 0 1 (@interpolationRatio F64 (F_ops L) t mode).
Proof. exact (ratio_in_double L mode t). Qed.
Print Assumptions C17_range_double_partial.

(** C17. Two curves pass 1. *)
Theorem C17_range_double_refuted (L : Libm) (mode : InterpolationMode) : In mode [ImCubicOut; ImCubicInOut] -> exists t, between 0 1 t /\ 1 < val (@interpolationRatio F64 (F_ops L) t mode).
Proof. exact (ratio_over_refuted L mode). Qed.
Print Assumptions C17_range_double_refuted.

(** C17. Four curves go down somewhere. *)
Theorem C17_monotone_double_refuted (L : Libm) (mode : InterpolationMode) : In mode [ImQuadraticOut; ImQuadraticInOut; ImCubicOut; ImCubicInOut] ->
  exists t u, between 0 1 t /\ between 0 1 u /\ val t < val u /\ val (@interpolationRatio F64 (F_ops L) u mode) < val (@interpolationRatio F64 (F_ops L) t mode).
Proof. exact (ratio_down_refuted L mode). Qed.
Print Assumptions C17_monotone_double_refuted.

(** C19. At ratio 0 lerp is at the start. *)
Theorem C19_start_double (L : Libm) (a b t : F64) : quarter a -> quarter b -> fin t -> val t = 0 ->
  fin (@lerp F64 (F_ops L) a b t) /\ val (@lerp F64 (F_ops L) a b t) = val a.
Proof. exact (lerp_start_double L a b t). Qed.
Print Assumptions C19_start_double.
Example C19_double_case : quarter (F64_ofZ 3) /\ val (F64_ofZ 3) = 3 /\ quarter (F64_ofZ 8) /\ val (F64_ofZ 8) = 8.
Proof.
  assert (Q : forall z, (Z.abs (4 * z) <= 2 ^ 53)%Z -> quarter (F64_ofZ z) /\ val (F64_ofZ z) = IZR z).
  { intros z H. destruct (ofZ_ok z ltac:(lia)) as [F V]. split; [|exact V]. split; [exact F|]. rewrite V.
    pose proof (max_ge (4 * z) H) as M. rewrite mult_IZR, Rabs_mult, (Rabs_right 4) in M by lra. lra. }
  destruct (Q 3%Z ltac:(lia)), (Q 8%Z ltac:(lia)). repeat (split; [assumption|]). assumption.
Qed.

(** C19. lerp keeps the order of the ratios. *)
Theorem C19_monotone_double (L : Libm) (a b t u : F64) : quarter a -> quarter b -> fin t -> fin u -> 0 <= val t -> val t <= val u -> val u <= 1 ->
  fin (@lerp F64 (F_ops L) a b t) /\ fin (@lerp F64 (F_ops L) a b u) /\
  (val a <= val b -> val (@lerp F64 (F_ops L) a b t) <= val (@lerp F64 (F_ops L) a b u)) /\
  (val b <= val a -> val (@lerp F64 (F_ops L) a b u) <= val (@lerp F64 (F_ops L) a b t)).
Proof. exact (lerp_mono_double L a b t u). Qed.
Print Assumptions C19_monotone_double.

(** C19. lerp does not leave the interval on the side of the start. Missing: the side of the end, see below. *)
Theorem C19_side_double_partial (L : Libm) (a b t : F64) : quarter a -> quarter b -> fin t -> 0 <= val t <= 1 ->
  fin (@lerp F64 (F_ops L) a b t) /\ (val a <= val b -> val a <= val (@lerp F64 (F_ops L) a b t)) /\ (val b <= val a -> val (@lerp F64 (F_ops L) a b t) <= val a).
Proof. exact (lerp_side_double L a b t). Qed.
Print Assumptions C19_side_double_partial.

(** C19. Between equal ends lerp does not move. *)
Theorem C19_equal_double (L : Libm) (a t : F64) : quarter a -> fin t -> 0 <= val t <= 1 ->
  fin (@lerp F64 (F_ops L) a a t) /\ val (@lerp F64 (F_ops L) a a t) = val a.
Proof. exact (lerp_equal_double L a t). Qed.
Print Assumptions C19_equal_double.

(** C19. At ratio 1 lerp may stop before the end or pass it. *)
Theorem C19_end_double_refuted (L : Libm) :
  (exists a b, quarter a /\ quarter b /\ val a <= val b /\ fin (@lerp F64 (F_ops L) a b (F64_ofZ 1)) /\ val (@lerp F64 (F_ops L) a b (F64_ofZ 1)) < val b) /\
  (exists a b, quarter a /\ quarter b /\ val a <= val b /\ fin (@lerp F64 (F_ops L) a b (F64_ofZ 1)) /\ val b < val (@lerp F64 (F_ops L) a b (F64_ofZ 1))).
Proof. exact (lerp_end_refuted L). Qed.
Print Assumptions C19_end_double_refuted.

(** C21. The ratio reported for two equal angles is not a number. *)
Theorem C21_ratio_double_refuted (L : Libm) : exists r q, @clerpMaxAngle_ratio F64 (F_ops L) (F64_ofZ 0) (F64_ofZ 0) (F64_ofZ 1) = Ok (r, q) /\ ordered r /\ val r = 0 /\ ~ ordered q.
Proof. exact (clerpMaxAngle_nan L). Qed.
Print Assumptions C21_ratio_double_refuted.

(** C22. fmod is exact. *)
Theorem C22_fmod_double (L : Libm) (x y : F64) : fin x -> fin y ->
  (val y <> 0 -> exists r, @fmod_ F64 (F_ops L) x y = Ok r /\ fin r /\ val r = Rfmod (val x) (val y)) /\
  (val y = 0 -> @fmod_ F64 (F_ops L) x y = AssertFail).
Proof. exact (fmod_double L x y). Qed.
Print Assumptions C22_fmod_double.

(** C22. fmodPositive gives the remainder, rounded; it is exact for x >= 0. *)
Theorem C22_fmodPositive_double (L : Libm) (x y : F64) : fin x -> fin y -> 0 < val y ->
  exists r m, @fmodPositive F64 (F_ops L) x y = Ok r /\ fin r /\ 0 <= val r <= val y /\
    val r = rnd m /\ 0 <= m < val y /\ congruent (val y) m (val x) /\ (0 <= val x -> val r = m).
Proof. exact (fmodPositive_double L x y). Qed.
Print Assumptions C22_fmodPositive_double.
Example C22_double_case : fin (F64_ofZ (-7)) /\ fin (F64_ofZ 3) /\ 0 < val (F64_ofZ 3).
Proof. destruct (ofZ_ok (-7) ltac:(lia)) as [A _], (ofZ_ok 3 ltac:(lia)) as [B V]. rewrite V. repeat split; try assumption. lra. Qed.

(** C22. The result can be the modulus itself. *)
Theorem C22_fmodPositive_double_refuted (L : Libm) : exists x y r, fin x /\ fin y /\ 0 < val y /\
  @fmodPositive F64 (F_ops L) x y = Ok r /\ val r = val y.
Proof. exact (fmodPositive_refuted L). Qed.
Print Assumptions C22_fmodPositive_double_refuted.

(** C23. min and max. *)
Theorem C23_min_max_double (L : Libm) (a b : F64) : ordered a -> ordered b ->
  let m := @min_ F64 (F_ops L) a b in let x := @max_ F64 (F_ops L) a b in
  (m = a \/ m = b) /\ val m = Rmin (val a) (val b) /\ (x = a \/ x = b) /\ val x = Rmax (val a) (val b).
Proof. exact (min_double L a b). Qed.
Print Assumptions C23_min_max_double.

(** C23. clippedBetween: one of its arguments, in range, nothing in range nearer. *)
Theorem C23_clipped_double (L : Libm) (v a b : F64) : ordered v -> ordered a -> ordered b -> val a <= val b ->
  let r := @clippedBetween F64 (F_ops L) v a b in
  (r = v \/ r = a \/ r = b) /\ val a <= val r <= val b /\ (val a <= val v <= val b -> r = v) /\
  (forall w, val a <= w <= val b -> Rabs (val r - val v) <= Rabs (w - val v)).
Proof. exact (clipped_double L v a b). Qed.
Print Assumptions C23_clipped_double.

(** C23. abs. *)
Theorem C23_abs_double (L : Libm) (x : F64) : ordered x -> let r := @abs_ F64 (F_ops L) x in ordered r /\ val r = Rabs (val x).
Proof. exact (abs_double L x). Qed.
Print Assumptions C23_abs_double.

(** C33. The coordinates chosen are those of the exact values, so C33 holds for them. *)
Theorem C33_coords_plane_double (L : Libm) (u : Vec2 F64) : ordered2 u -> @v2_majorCoord F64 (F_ops L) u = v2_majorCoord (val2 u) /\ @v2_minorCoord F64 (F_ops L) u = v2_minorCoord (val2 u).
Proof. exact (coords2_double L u). Qed.
Print Assumptions C33_coords_plane_double.

(** C33. The same in space. *)
Theorem C33_coords_space_double (L : Libm) (u : Vec3 F64) : ordered3 u -> @v3_majorCoord F64 (F_ops L) u = v3_majorCoord (val3 u) /\ @v3_minorCoord F64 (F_ops L) u = v3_minorCoord (val3 u).
Proof. exact (coords3_double L u). Qed.
Print Assumptions C33_coords_space_double.

(** C50. The bounding box of an array of points, with and without a stride. *)
Theorem C50_points_plane_double (L : Libm) (a : arr (Vec2 F64)) (count : Z) (s : nat) (f : nat -> Vec2 F64) :
  (0 < count)%Z -> (forall i, (i < Z.to_nat count)%nat -> ordered2 (f i)) ->
  (points_of a (Z.to_nat count) s f -> exists b, @aabb2_set_points_stride F64 (F_ops L) count a s = Ok b /\ ordered_box2 b /\
       bounding2 (listed (Z.to_nat count) (fun i => val2 (f i))) (valbox2 b)) /\
  (points_of a (Z.to_nat count) 1 f -> exists b, @aabb2_set_points F64 (F_ops L) count a = Ok b /\ ordered_box2 b /\
       bounding2 (listed (Z.to_nat count) (fun i => val2 (f i))) (valbox2 b)).
Proof. exact (points2_double L a count s f). Qed.
Print Assumptions C50_points_plane_double.
Example C50_double_case : exists a, points_of a 2 1 (fun i => mkV2 (F64_ofZ (Z.of_nat i)) (F64_ofZ 5)) /\
  (forall i, (i < 2)%nat -> ordered2 (mkV2 (F64_ofZ (Z.of_nat i)) (F64_ofZ 5))).
Proof.
  exists (mkArr 2 (fun i => Some (mkV2 (F64_ofZ (Z.of_nat i)) (F64_ofZ 5)))). split.
  - intros i Hi. cbn. rewrite Nat.mul_1_r. split; [exact Hi|reflexivity].
  - intros i Hi. destruct (ofZ_ok (Z.of_nat i) ltac:(lia)) as [A _], (ofZ_ok 5 ltac:(lia)) as [B _]. split; apply fin_ordered; assumption.
Qed.

(** C50. The same in space. *)
Theorem C50_points_space_double (L : Libm) (a : arr (Vec3 F64)) (count : Z) (s : nat) (f : nat -> Vec3 F64) :
  (0 < count)%Z -> (forall i, (i < Z.to_nat count)%nat -> ordered3 (f i)) ->
  (points_of a (Z.to_nat count) s f -> exists b, @aabb3_set_points_stride F64 (F_ops L) count a s = Ok b /\ ordered_box3 b /\
       bounding3 (listed (Z.to_nat count) (fun i => val3 (f i))) (valbox3 b)) /\
  (points_of a (Z.to_nat count) 1 f -> exists b, @aabb3_set_points F64 (F_ops L) count a = Ok b /\ ordered_box3 b /\
       bounding3 (listed (Z.to_nat count) (fun i => val3 (f i))) (valbox3 b)).
Proof. exact (points3_double L a count s f). Qed.
Print Assumptions C50_points_space_double.

(** C50. add. *)
Theorem C50_add_double (L : Libm) :
  (forall b p, ordered_box2 b -> ordered2 p -> nonempty (inbox2 (valbox2 b)) ->
     ordered_box2 (@aabb2_add F64 (F_ops L) b p) /\
     bounding2 (fun q => inbox2 (valbox2 b) q \/ q = val2 p) (valbox2 (@aabb2_add F64 (F_ops L) b p))) /\
  (forall b p, ordered_box3 b -> ordered3 p -> nonempty (inbox3 (valbox3 b)) ->
     ordered_box3 (@aabb3_add F64 (F_ops L) b p) /\
     bounding3 (fun q => inbox3 (valbox3 b) q \/ q = val3 p) (valbox3 (@aabb3_add F64 (F_ops L) b p))).
Proof. exact (add_double L). Qed.
Print Assumptions C50_add_double.

(** C50. fromUnion. *)
Theorem C50_union_double (L : Libm) :
  (forall a b, ordered_box2 a -> ordered_box2 b -> nonempty (inbox2 (valbox2 a)) -> nonempty (inbox2 (valbox2 b)) ->
     ordered_box2 (@aabb2_fromUnion F64 (F_ops L) a b) /\
     bounding2 (fun q => inbox2 (valbox2 a) q \/ inbox2 (valbox2 b) q) (valbox2 (@aabb2_fromUnion F64 (F_ops L) a b))) /\
  (forall a b, ordered_box3 a -> ordered_box3 b -> nonempty (inbox3 (valbox3 a)) -> nonempty (inbox3 (valbox3 b)) ->
     ordered_box3 (@aabb3_fromUnion F64 (F_ops L) a b) /\
     bounding3 (fun q => inbox3 (valbox3 a) q \/ inbox3 (valbox3 b) q) (valbox3 (@aabb3_fromUnion F64 (F_ops L) a b))).
Proof. exact (union_double L). Qed.
Print Assumptions C50_union_double.

(** C50. fromIntersection, in the plane and in space. Missing: disjoint boxes, which give the box of the origin. *)
Theorem C50_intersection_double_partial (L : Libm) :
  (forall a b, ordered_box2 a -> ordered_box2 b ->
     ordered_box2 (@aabb2_fromIntersection F64 (F_ops L) a b) /\
     (meets (inbox2 (valbox2 a)) (inbox2 (valbox2 b)) ->
        forall p, inbox2 (valbox2 (@aabb2_fromIntersection F64 (F_ops L) a b)) p <-> inbox2 (valbox2 a) p /\ inbox2 (valbox2 b) p) /\
     (nonempty (inbox2 (valbox2 a)) -> nonempty (inbox2 (valbox2 b)) -> ~ meets (inbox2 (valbox2 a)) (inbox2 (valbox2 b)) ->
        valbox2 (@aabb2_fromIntersection F64 (F_ops L) a b) = mkAABB2 zero2 zero2)) /\
  (forall a b, ordered_box3 a -> ordered_box3 b ->
     ordered_box3 (@aabb3_fromIntersection F64 (F_ops L) a b) /\
     (meets (inbox3 (valbox3 a)) (inbox3 (valbox3 b)) ->
        forall p, inbox3 (valbox3 (@aabb3_fromIntersection F64 (F_ops L) a b)) p <-> inbox3 (valbox3 a) p /\ inbox3 (valbox3 b) p) /\
     (nonempty (inbox3 (valbox3 a)) -> nonempty (inbox3 (valbox3 b)) -> ~ meets (inbox3 (valbox3 a)) (inbox3 (valbox3 b)) ->
        valbox3 (@aabb3_fromIntersection F64 (F_ops L) a b) = mkAABB3 zero3 zero3)).
Proof. exact (meet_double L). Qed.
Print Assumptions C50_intersection_double_partial.

(** C50, C51. contains and intersects. *)
Theorem C50_tests_plane_double (L : Libm) (a b : AABB2 F64) (p : Vec2 F64) : ordered_box2 a -> ordered_box2 b -> ordered2 p ->
  (@aabb2_contains F64 (F_ops L) a p = true <-> inbox2 (valbox2 a) (val2 p)) /\
  (nonempty (inbox2 (valbox2 b)) -> (@aabb2_contains_box F64 (F_ops L) a b = true <-> included (inbox2 (valbox2 b)) (inbox2 (valbox2 a)))) /\
  (nonempty (inbox2 (valbox2 a)) -> nonempty (inbox2 (valbox2 b)) ->
     (@aabb2_intersects F64 (F_ops L) a b = true <-> meets (inbox2 (valbox2 a)) (inbox2 (valbox2 b)))).
Proof. exact (tests2_double L a b p). Qed.
Print Assumptions C50_tests_plane_double.
Example C50_tests_double_case : ordered_box2 (mkAABB2 (mkV2 (F64_ofZ 0) (F64_ofZ 0)) (mkV2 (F64_ofZ 2) (F64_ofZ 2))) /\
  nonempty (inbox2 (valbox2 (mkAABB2 (mkV2 (F64_ofZ 0) (F64_ofZ 0)) (mkV2 (F64_ofZ 2) (F64_ofZ 2))))).
Proof.
  destruct (ofZ_ok 0 ltac:(lia)) as [A V], (ofZ_ok 2 ltac:(lia)) as [B W]. split; [repeat split; apply fin_ordered; assumption|].
  exists (mkV2 1 1). unfold inbox2, within2, valbox2, val2. cbn [inf2 sup2 x2 y2]. rewrite V, W. lra.
Qed.

(** C50, C51. The same in space. *)
Theorem C50_tests_space_double (L : Libm) (a b : AABB3 F64) (p : Vec3 F64) : ordered_box3 a -> ordered_box3 b -> ordered3 p ->
  (@aabb3_contains F64 (F_ops L) a p = true <-> inbox3 (valbox3 a) (val3 p)) /\
  (nonempty (inbox3 (valbox3 b)) -> (@aabb3_contains_box F64 (F_ops L) a b = true <-> included (inbox3 (valbox3 b)) (inbox3 (valbox3 a)))) /\
  (nonempty (inbox3 (valbox3 a)) -> nonempty (inbox3 (valbox3 b)) ->
     (@aabb3_intersects F64 (F_ops L) a b = true <-> meets (inbox3 (valbox3 a)) (inbox3 (valbox3 b)))).
Proof. exact (tests3_double L a b p). Qed.
Print Assumptions C50_tests_space_double.

(** C62. A color is set and in the unit cube, unless the hue is negative. Missing: negative hues, see below. *)
Theorem C62_toRGB_double_partial (L : Libm) (c : HSV F64) : fin (ch c) -> between 0 1 (cs c) -> between 0 1 (cv c) ->
  (exists rgb, @hsv_toRGB F64 (F_ops L) c = Ok rgb /\ unit_rgbF rgb) \/
  (@hsv_toRGB F64 (F_ops L) c = Undef /\ val (ch c) < 0).
Proof. exact (toRGB_double L c). Qed.
Print Assumptions C62_toRGB_double_partial.
Example C62_double_case : between 0 360 (F64_ofZ 200) /\ between 0 1 (F64_of 1 (-1) false).
Proof. split; (apply check_range; [midt|midt|vm_compute; reflexivity]). Qed.

(** C62. For some negative hue the color returned is not set. *)
Theorem C62_toRGB_double_refuted (L : Libm) : exists c, fin (ch c) /\ between 0 1 (cs c) /\ between 0 1 (cv c) /\ @hsv_toRGB F64 (F_ops L) c = Undef.
Proof. exact (toRGB_unset L). Qed.
Print Assumptions C62_toRGB_double_refuted.

(** C62. toHSV stays in range, and the value is the largest component. Missing: a hue below 360, see below. *)
Theorem C62_toHSV_double_partial (L : Libm) (c : RGB F64) : unit_rgbF c ->
  let k := @rgb_toHSV F64 (F_ops L) c in
  between 0 360 (ch k) /\ between 0 1 (cs k) /\ (cv k = cr c \/ cv k = cg c \/ cv k = cb c) /\ val (cv k) = max3 (valrgb c).
Proof. exact (toHSV_double L c). Qed.
Print Assumptions C62_toHSV_double_partial.

(** C62. The hue can be 360. *)
Theorem C62_toHSV_double_refuted (L : Libm) : exists c, unit_rgbF c /\ val (ch (@rgb_toHSV F64 (F_ops L) c)) = 360.
Proof. exact (toHSV_full_turn L). Qed.
Print Assumptions C62_toHSV_double_refuted.

(** C62. There and back always gives a color of the unit cube. *)
Theorem C62_round_double (L : Libm) (c : RGB F64) : unit_rgbF c ->
  exists c', @hsv_toRGB F64 (F_ops L) (@rgb_toHSV F64 (F_ops L) c) = Ok c' /\ unit_rgbF c'.
Proof. exact (round_double L c). Qed.
Print Assumptions C62_round_double.

(** C62. toRGB is within 2^-49 of the exact color. *)
Theorem C62_toRGB_error (L : Libm) (c : HSV F64) : between 0 360 (ch c) -> between 0 1 (cs c) -> between 0 1 (cv c) ->
  exists rgb exact, @hsv_toRGB F64 (F_ops L) c = Ok rgb /\ names (valhsv c) exact /\ close_rgb (bpow radix2 (-49)) (valrgb rgb) exact.
Proof. exact (toRGB_error L c). Qed.
Print Assumptions C62_toRGB_error.

(** C62. toHSV is near the exact hue and saturation, with the exact value. *)
Theorem C62_toHSV_error (L : Libm) (c : RGB F64) : unit_rgbF c ->
  let k := valhsv (@rgb_toHSV F64 (F_ops L) c) in exists x, names x (valrgb c) /\ 
  Rabs (ch k - ch x) <= bpow radix2 (-43) /\ Rabs (cs k - cs x) <= bpow radix2 (-52) /\ cv k = cv x.
Proof. exact (toHSV_error L c). Qed.
Print Assumptions C62_toHSV_error.

(** C62. There and back is within 2^-48 of the color. *)
Theorem C62_round_error (L : Libm) (c : RGB F64) : unit_rgbF c ->
  exists c', @hsv_toRGB F64 (F_ops L) (@rgb_toHSV F64 (F_ops L) c) = Ok c' /\ close_rgb (bpow radix2 (-48)) (valrgb c') (valrgb c).
Proof. exact (round_error L c). Qed.
Print Assumptions C62_round_error.

(** C62. But not always exact. *)
Theorem C62_round_double_refuted (L : Libm) : exists c c', unit_rgbF c /\ @hsv_toRGB F64 (F_ops L) (@rgb_toHSV F64 (F_ops L) c) = Ok c' /\ valrgb c' <> valrgb c.
Proof. exact (round_inexact L). Qed.
Print Assumptions C62_round_double_refuted.

