(** Properties in IEEE-754 floats: those of Props/Floats.v for the float
    instance. [F32_ops L] is the arithmetic of float with any libm [L]
    (Base/ScalarF32.v); [val32], [ordered32] and [fin32] are the readings of
    Spec/SingleSpec.v. *)
From Coq Require Import Reals ZArith List Lra Lia.
From Flocq Require Import Core.Core IEEE754.BinarySingleNaN.
From Verif.Base Require Import Outcome Array Scalar ScalarR ScalarF ScalarF32.
From Verif.Model Require Import Types Functions Interpolation Vec Shapes Box Color.
From Verif.Spec Require Import NumSpec VecSpec GeomSpec FloatSpec SingleSpec ColorSpec.
From Verif.Proof Require Import SingleFacts Singles SingleBoxes SingleColors SingleColorError SingleEasing.
Import ListNotations.
Local Open Scope R_scope.

(** C16. 0 up to 0 and 1 from 1 on, in every mode. *)
Theorem C16_ends_float (L : Libm32) (t : F32) (mode : InterpolationMode) : ordered32 t ->
  (val32 t <= 0 -> fin32 (@interpolationRatio F32 (F32_ops L) t mode) /\ val32 (@interpolationRatio F32 (F32_ops L) t mode) = 0) /\
  (1 <= val32 t -> fin32 (@interpolationRatio F32 (F32_ops L) t mode) /\ val32 (@interpolationRatio F32 (F32_ops L) t mode) = 1).
Proof. exact (ratio_float L t mode). Qed.
Print Assumptions C16_ends_float.

(** C17. Thirteen curves stay in [0,1] and keep the order. *)
Theorem C17_monotone_float (L : Libm32) (mode : InterpolationMode) (t u : F32) : In mode modes_up -> ordered32 t -> ordered32 u -> val32 t <= val32 u ->
  between32 0 1 (@interpolationRatio F32 (F32_ops L) t mode) /\ between32 0 1 (@interpolationRatio F32 (F32_ops L) u mode) /\
  val32 (@interpolationRatio F32 (F32_ops L) t mode) <= val32 (@interpolationRatio F32 (F32_ops L) u mode).
Proof. exact (ratio_up_float L mode t u). Qed.
Print Assumptions C17_monotone_float.
Example C17_float_case : In ImCircularOut modes_up /\ between32 0 1 (F32_of 1 (-2) false) /\ val32 (F32_of 1 (-2) false) = 1 / 4.
Proof.
  split; [cbn; tauto|]. split; [apply check_range; [midt|midt|vm_compute; reflexivity]|].
  destruct (of_ok 1 (-2) false) as [_ ->]; rewrite rnd_id; try (rewrite Rmult_1_l; apply generic_format_bpow; cbn; lia).
  - rewrite Rmult_1_l, Rabs_right by (apply Rle_ge, bpow_ge_0). apply bpow_lt. lia.
  - cbn. lra.
Qed.

(** C17. Sixteen curves stay in [0,1]. Missing: the cubic curves below, and those that call libm. *)
Theorem C17_range_float_partial (L : Libm32) (mode : InterpolationMode) (t : F32) : In mode (ImQuadraticOut :: ImQuadraticInOut :: ImCircularInOut :: modes_up) -> ordered32 t ->
  between32 0 1 (@interpolationRatio F32 (F32_ops L) t mode).
Proof. exact (ratio_in_float L mode t). Qed.
Print Assumptions C17_range_float_partial.

(** C17. Two curves pass 1. *)
Theorem C17_range_float_refuted (L : Libm32) (mode : InterpolationMode) : In mode [ImCubicOut; ImCubicInOut] -> exists t, between32 0 1 t /\ 1 < val32 (@interpolationRatio F32 (F32_ops L) t mode).
Proof. exact (ratio_over_refuted L mode). Qed.
Print Assumptions C17_range_float_refuted.

(** C17. Four curves go down somewhere. *)
Theorem C17_monotone_float_refuted (L : Libm32) (mode : InterpolationMode) : In mode [ImQuadraticOut; ImQuadraticInOut; ImCubicOut; ImCubicInOut] ->
  exists t u, between32 0 1 t /\ between32 0 1 u /\ val32 t < val32 u /\ val32 (@interpolationRatio F32 (F32_ops L) u mode) < val32 (@interpolationRatio F32 (F32_ops L) t mode).
Proof. exact (ratio_down_refuted L mode). Qed.
Print Assumptions C17_monotone_float_refuted.

(** C19. At ratio 0 lerp is at the start. *)
Theorem C19_start_float (L : Libm32) (a b t : F32) : quarter32 a -> quarter32 b -> fin32 t -> val32 t = 0 ->
  fin32 (@lerp F32 (F32_ops L) a b t) /\ val32 (@lerp F32 (F32_ops L) a b t) = val32 a.
Proof. exact (lerp_start_float L a b t). Qed.
Print Assumptions C19_start_float.
Example C19_float_case : quarter32 (F32_ofZ 3) /\ val32 (F32_ofZ 3) = 3 /\ quarter32 (F32_ofZ 8) /\ val32 (F32_ofZ 8) = 8.
Proof.
  assert (Q : forall z, (Z.abs (4 * z) <= 2 ^ 24)%Z -> quarter32 (F32_ofZ z) /\ val32 (F32_ofZ z) = IZR z).
  { intros z H. destruct (ofZ_ok z ltac:(lia)) as [F V]. split; [|exact V]. split; [exact F|]. rewrite V.
    pose proof (max_ge (4 * z) H) as M. rewrite mult_IZR, Rabs_mult, (Rabs_right 4) in M by lra. lra. }
  destruct (Q 3%Z ltac:(lia)), (Q 8%Z ltac:(lia)). repeat (split; [assumption|]). assumption.
Qed.

(** C19. lerp keeps the order of the ratios. *)
Theorem C19_monotone_float (L : Libm32) (a b t u : F32) : quarter32 a -> quarter32 b -> fin32 t -> fin32 u -> 0 <= val32 t -> val32 t <= val32 u -> val32 u <= 1 ->
  fin32 (@lerp F32 (F32_ops L) a b t) /\ fin32 (@lerp F32 (F32_ops L) a b u) /\
  (val32 a <= val32 b -> val32 (@lerp F32 (F32_ops L) a b t) <= val32 (@lerp F32 (F32_ops L) a b u)) /\
  (val32 b <= val32 a -> val32 (@lerp F32 (F32_ops L) a b u) <= val32 (@lerp F32 (F32_ops L) a b t)).
Proof. exact (lerp_mono_float L a b t u). Qed.
Print Assumptions C19_monotone_float.

(** C19. lerp does not leave the interval on the side of the start. Missing: the side of the end, see below. *)
Theorem C19_side_float_partial (L : Libm32) (a b t : F32) : quarter32 a -> quarter32 b -> fin32 t -> 0 <= val32 t <= 1 ->
  fin32 (@lerp F32 (F32_ops L) a b t) /\ (val32 a <= val32 b -> val32 a <= val32 (@lerp F32 (F32_ops L) a b t)) /\ (val32 b <= val32 a -> val32 (@lerp F32 (F32_ops L) a b t) <= val32 a).
Proof. exact (lerp_side_float L a b t). Qed.
Print Assumptions C19_side_float_partial.

(** C19. Between equal ends lerp does not move. *)
Theorem C19_equal_float (L : Libm32) (a t : F32) : quarter32 a -> fin32 t -> 0 <= val32 t <= 1 ->
  fin32 (@lerp F32 (F32_ops L) a a t) /\ val32 (@lerp F32 (F32_ops L) a a t) = val32 a.
Proof. exact (lerp_equal_float L a t). Qed.
Print Assumptions C19_equal_float.

(** C19. At ratio 1 lerp may stop before the end or pass it. *)
Theorem C19_end_float_refuted (L : Libm32) :
  (exists a b, quarter32 a /\ quarter32 b /\ val32 a <= val32 b /\ fin32 (@lerp F32 (F32_ops L) a b (F32_ofZ 1)) /\ val32 (@lerp F32 (F32_ops L) a b (F32_ofZ 1)) < val32 b) /\
  (exists a b, quarter32 a /\ quarter32 b /\ val32 a <= val32 b /\ fin32 (@lerp F32 (F32_ops L) a b (F32_ofZ 1)) /\ val32 b < val32 (@lerp F32 (F32_ops L) a b (F32_ofZ 1))).
Proof. exact (lerp_end_refuted L). Qed.
Print Assumptions C19_end_float_refuted.

(** C21. The ratio reported for two equal angles is not a number. *)
Theorem C21_ratio_float_refuted (L : Libm32) : exists r q, @clerpMaxAngle_ratio F32 (F32_ops L) (F32_ofZ 0) (F32_ofZ 0) (F32_ofZ 1) = Ok (r, q) /\ ordered32 r /\ val32 r = 0 /\ ~ ordered32 q.
Proof. exact (clerpMaxAngle_nan L). Qed.
Print Assumptions C21_ratio_float_refuted.

(** C22. fmod is exact. *)
Theorem C22_fmod_float (L : Libm32) (x y : F32) : fin32 x -> fin32 y ->
  (val32 y <> 0 -> exists r, @fmod_ F32 (F32_ops L) x y = Ok r /\ fin32 r /\ val32 r = Rfmod (val32 x) (val32 y)) /\
  (val32 y = 0 -> @fmod_ F32 (F32_ops L) x y = AssertFail).
Proof. exact (fmod_float L x y). Qed.
Print Assumptions C22_fmod_float.

(** C22. fmodPositive gives the remainder, rounded; it is exact for x >= 0. *)
Theorem C22_fmodPositive_float (L : Libm32) (x y : F32) : fin32 x -> fin32 y -> 0 < val32 y ->
  exists r m, @fmodPositive F32 (F32_ops L) x y = Ok r /\ fin32 r /\ 0 <= val32 r <= val32 y /\
    val32 r = rnd32 m /\ 0 <= m < val32 y /\ congruent (val32 y) m (val32 x) /\ (0 <= val32 x -> val32 r = m).
Proof. exact (fmodPositive_float L x y). Qed.
Print Assumptions C22_fmodPositive_float.
Example C22_float_case : fin32 (F32_ofZ (-7)) /\ fin32 (F32_ofZ 3) /\ 0 < val32 (F32_ofZ 3).
Proof. destruct (ofZ_ok (-7) ltac:(lia)) as [A _], (ofZ_ok 3 ltac:(lia)) as [B V]. rewrite V. repeat split; try assumption. lra. Qed.

(** C22. The result can be the modulus itself. *)
Theorem C22_fmodPositive_float_refuted (L : Libm32) : exists x y r, fin32 x /\ fin32 y /\ 0 < val32 y /\
  @fmodPositive F32 (F32_ops L) x y = Ok r /\ val32 r = val32 y.
Proof. exact (fmodPositive_refuted L). Qed.
Print Assumptions C22_fmodPositive_float_refuted.

(** C23. min and max. *)
Theorem C23_min_max_float (L : Libm32) (a b : F32) : ordered32 a -> ordered32 b ->
  let m := @min_ F32 (F32_ops L) a b in let x := @max_ F32 (F32_ops L) a b in
  (m = a \/ m = b) /\ val32 m = Rmin (val32 a) (val32 b) /\ (x = a \/ x = b) /\ val32 x = Rmax (val32 a) (val32 b).
Proof. exact (min_float L a b). Qed.
Print Assumptions C23_min_max_float.

(** C23. clippedBetween: one of its arguments, in range, nothing in range nearer. *)
Theorem C23_clipped_float (L : Libm32) (v a b : F32) : ordered32 v -> ordered32 a -> ordered32 b -> val32 a <= val32 b ->
  let r := @clippedBetween F32 (F32_ops L) v a b in
  (r = v \/ r = a \/ r = b) /\ val32 a <= val32 r <= val32 b /\ (val32 a <= val32 v <= val32 b -> r = v) /\
  (forall w, val32 a <= w <= val32 b -> Rabs (val32 r - val32 v) <= Rabs (w - val32 v)).
Proof. exact (clipped_float L v a b). Qed.
Print Assumptions C23_clipped_float.

(** C23. abs. *)
Theorem C23_abs_float (L : Libm32) (x : F32) : ordered32 x -> let r := @abs_ F32 (F32_ops L) x in ordered32 r /\ val32 r = Rabs (val32 x).
Proof. exact (abs_float L x). Qed.
Print Assumptions C23_abs_float.

(** C33. The coordinates chosen are those of the exact values, so C33 holds for them. *)
Theorem C33_coords_plane_float (L : Libm32) (u : Vec2 F32) : ordered2_32 u -> @v2_majorCoord F32 (F32_ops L) u = v2_majorCoord (val2_32 u) /\ @v2_minorCoord F32 (F32_ops L) u = v2_minorCoord (val2_32 u).
Proof. exact (coords2_float L u). Qed.
Print Assumptions C33_coords_plane_float.

(** C33. The same in space. *)
Theorem C33_coords_space_float (L : Libm32) (u : Vec3 F32) : ordered3_32 u -> @v3_majorCoord F32 (F32_ops L) u = v3_majorCoord (val3_32 u) /\ @v3_minorCoord F32 (F32_ops L) u = v3_minorCoord (val3_32 u).
Proof. exact (coords3_float L u). Qed.
Print Assumptions C33_coords_space_float.

(** C50. The bounding box of an array of points, with and without a stride. *)
Theorem C50_points_plane_float (L : Libm32) (a : arr (Vec2 F32)) (count : Z) (s : nat) (f : nat -> Vec2 F32) :
  (0 < count)%Z -> (forall i, (i < Z.to_nat count)%nat -> ordered2_32 (f i)) ->
  (points_of a (Z.to_nat count) s f -> exists b, @aabb2_set_points_stride F32 (F32_ops L) count a s = Ok b /\ ordered_box2_32 b /\
       bounding2 (listed (Z.to_nat count) (fun i => val2_32 (f i))) (valbox2_32 b)) /\
  (points_of a (Z.to_nat count) 1 f -> exists b, @aabb2_set_points F32 (F32_ops L) count a = Ok b /\ ordered_box2_32 b /\
       bounding2 (listed (Z.to_nat count) (fun i => val2_32 (f i))) (valbox2_32 b)).
Proof. exact (points2_float L a count s f). Qed.
Print Assumptions C50_points_plane_float.
Example C50_float_case : exists a, points_of a 2 1 (fun i => mkV2 (F32_ofZ (Z.of_nat i)) (F32_ofZ 5)) /\
  (forall i, (i < 2)%nat -> ordered2_32 (mkV2 (F32_ofZ (Z.of_nat i)) (F32_ofZ 5))).
Proof.
  exists (mkArr 2 (fun i => Some (mkV2 (F32_ofZ (Z.of_nat i)) (F32_ofZ 5)))). split.
  - intros i Hi. cbn. rewrite Nat.mul_1_r. split; [exact Hi|reflexivity].
  - intros i Hi. destruct (ofZ_ok (Z.of_nat i) ltac:(lia)) as [A _], (ofZ_ok 5 ltac:(lia)) as [B _]. split; apply fin_ordered; assumption.
Qed.

(** C50. The same in space. *)
Theorem C50_points_space_float (L : Libm32) (a : arr (Vec3 F32)) (count : Z) (s : nat) (f : nat -> Vec3 F32) :
  (0 < count)%Z -> (forall i, (i < Z.to_nat count)%nat -> ordered3_32 (f i)) ->
  (points_of a (Z.to_nat count) s f -> exists b, @aabb3_set_points_stride F32 (F32_ops L) count a s = Ok b /\ ordered_box3_32 b /\
       bounding3 (listed (Z.to_nat count) (fun i => val3_32 (f i))) (valbox3_32 b)) /\
  (points_of a (Z.to_nat count) 1 f -> exists b, @aabb3_set_points F32 (F32_ops L) count a = Ok b /\ ordered_box3_32 b /\
       bounding3 (listed (Z.to_nat count) (fun i => val3_32 (f i))) (valbox3_32 b)).
Proof. exact (points3_float L a count s f). Qed.
Print Assumptions C50_points_space_float.

(** C50. add. *)
Theorem C50_add_float (L : Libm32) :
  (forall b p, ordered_box2_32 b -> ordered2_32 p -> nonempty (inbox2 (valbox2_32 b)) ->
     ordered_box2_32 (@aabb2_add F32 (F32_ops L) b p) /\
     bounding2 (fun q => inbox2 (valbox2_32 b) q \/ q = val2_32 p) (valbox2_32 (@aabb2_add F32 (F32_ops L) b p))) /\
  (forall b p, ordered_box3_32 b -> ordered3_32 p -> nonempty (inbox3 (valbox3_32 b)) ->
     ordered_box3_32 (@aabb3_add F32 (F32_ops L) b p) /\
     bounding3 (fun q => inbox3 (valbox3_32 b) q \/ q = val3_32 p) (valbox3_32 (@aabb3_add F32 (F32_ops L) b p))).
Proof. exact (add_float L). Qed.
Print Assumptions C50_add_float.

(** C50. fromUnion. *)
Theorem C50_union_float (L : Libm32) :
  (forall a b, ordered_box2_32 a -> ordered_box2_32 b -> nonempty (inbox2 (valbox2_32 a)) -> nonempty (inbox2 (valbox2_32 b)) ->
     ordered_box2_32 (@aabb2_fromUnion F32 (F32_ops L) a b) /\
     bounding2 (fun q => inbox2 (valbox2_32 a) q \/ inbox2 (valbox2_32 b) q) (valbox2_32 (@aabb2_fromUnion F32 (F32_ops L) a b))) /\
  (forall a b, ordered_box3_32 a -> ordered_box3_32 b -> nonempty (inbox3 (valbox3_32 a)) -> nonempty (inbox3 (valbox3_32 b)) ->
     ordered_box3_32 (@aabb3_fromUnion F32 (F32_ops L) a b) /\
     bounding3 (fun q => inbox3 (valbox3_32 a) q \/ inbox3 (valbox3_32 b) q) (valbox3_32 (@aabb3_fromUnion F32 (F32_ops L) a b))).
Proof. exact (union_float L). Qed.
Print Assumptions C50_union_float.

(** C50. fromIntersection, in the plane and in space. Missing: disjoint boxes, which give the box of the origin. *)
Theorem C50_intersection_float_partial (L : Libm32) :
  (forall a b, ordered_box2_32 a -> ordered_box2_32 b ->
     ordered_box2_32 (@aabb2_fromIntersection F32 (F32_ops L) a b) /\
     (meets (inbox2 (valbox2_32 a)) (inbox2 (valbox2_32 b)) ->
        forall p, inbox2 (valbox2_32 (@aabb2_fromIntersection F32 (F32_ops L) a b)) p <-> inbox2 (valbox2_32 a) p /\ inbox2 (valbox2_32 b) p) /\
     (nonempty (inbox2 (valbox2_32 a)) -> nonempty (inbox2 (valbox2_32 b)) -> ~ meets (inbox2 (valbox2_32 a)) (inbox2 (valbox2_32 b)) ->
        valbox2_32 (@aabb2_fromIntersection F32 (F32_ops L) a b) = mkAABB2 zero2 zero2)) /\
  (forall a b, ordered_box3_32 a -> ordered_box3_32 b ->
     ordered_box3_32 (@aabb3_fromIntersection F32 (F32_ops L) a b) /\
     (meets (inbox3 (valbox3_32 a)) (inbox3 (valbox3_32 b)) ->
        forall p, inbox3 (valbox3_32 (@aabb3_fromIntersection F32 (F32_ops L) a b)) p <-> inbox3 (valbox3_32 a) p /\ inbox3 (valbox3_32 b) p) /\
     (nonempty (inbox3 (valbox3_32 a)) -> nonempty (inbox3 (valbox3_32 b)) -> ~ meets (inbox3 (valbox3_32 a)) (inbox3 (valbox3_32 b)) ->
        valbox3_32 (@aabb3_fromIntersection F32 (F32_ops L) a b) = mkAABB3 zero3 zero3)).
Proof. exact (meet_float L). Qed.
Print Assumptions C50_intersection_float_partial.

(** C50, C51. contains and intersects. *)
Theorem C50_tests_plane_float (L : Libm32) (a b : AABB2 F32) (p : Vec2 F32) : ordered_box2_32 a -> ordered_box2_32 b -> ordered2_32 p ->
  (@aabb2_contains F32 (F32_ops L) a p = true <-> inbox2 (valbox2_32 a) (val2_32 p)) /\
  (nonempty (inbox2 (valbox2_32 b)) -> (@aabb2_contains_box F32 (F32_ops L) a b = true <-> included (inbox2 (valbox2_32 b)) (inbox2 (valbox2_32 a)))) /\
  (nonempty (inbox2 (valbox2_32 a)) -> nonempty (inbox2 (valbox2_32 b)) ->
     (@aabb2_intersects F32 (F32_ops L) a b = true <-> meets (inbox2 (valbox2_32 a)) (inbox2 (valbox2_32 b)))).
Proof. exact (tests2_float L a b p). Qed.
Print Assumptions C50_tests_plane_float.
Example C50_tests_float_case : ordered_box2_32 (mkAABB2 (mkV2 (F32_ofZ 0) (F32_ofZ 0)) (mkV2 (F32_ofZ 2) (F32_ofZ 2))) /\
  nonempty (inbox2 (valbox2_32 (mkAABB2 (mkV2 (F32_ofZ 0) (F32_ofZ 0)) (mkV2 (F32_ofZ 2) (F32_ofZ 2))))).
Proof.
  destruct (ofZ_ok 0 ltac:(lia)) as [A V], (ofZ_ok 2 ltac:(lia)) as [B W]. split; [repeat split; apply fin_ordered; assumption|].
  exists (mkV2 1 1). unfold inbox2, within2, valbox2_32, val2_32. cbn [inf2 sup2 x2 y2]. rewrite V, W. lra.
Qed.

(** C50, C51. The same in space. *)
Theorem C50_tests_space_float (L : Libm32) (a b : AABB3 F32) (p : Vec3 F32) : ordered_box3_32 a -> ordered_box3_32 b -> ordered3_32 p ->
  (@aabb3_contains F32 (F32_ops L) a p = true <-> inbox3 (valbox3_32 a) (val3_32 p)) /\
  (nonempty (inbox3 (valbox3_32 b)) -> (@aabb3_contains_box F32 (F32_ops L) a b = true <-> included (inbox3 (valbox3_32 b)) (inbox3 (valbox3_32 a)))) /\
  (nonempty (inbox3 (valbox3_32 a)) -> nonempty (inbox3 (valbox3_32 b)) ->
     (@aabb3_intersects F32 (F32_ops L) a b = true <-> meets (inbox3 (valbox3_32 a)) (inbox3 (valbox3_32 b)))).
Proof. exact (tests3_float L a b p). Qed.
Print Assumptions C50_tests_space_float.

(** C62. A color is set and in the unit cube, unless the hue is negative. Missing: negative hues, see below. *)
Theorem C62_toRGB_float_partial (L : Libm32) (c : HSV F32) : fin32 (ch c) -> unitF (cs c) -> unitF (cv c) ->
  (exists rgb, @hsv_toRGB F32 (F32_ops L) c = Ok rgb /\ unit_rgbF32 rgb) \/
  (@hsv_toRGB F32 (F32_ops L) c = Undef /\ val32 (ch c) < 0).
Proof. exact (toRGB_float L c). Qed.
Print Assumptions C62_toRGB_float_partial.
Example C62_float_case : between32 0 360 (F32_ofZ 200) /\ between32 0 1 (F32_of 1 (-1) false).
Proof. split; (apply check_range; [midt|midt|vm_compute; reflexivity]). Qed.

(** C62. For some negative hue the color returned is not set. *)
Theorem C62_toRGB_float_refuted (L : Libm32) : exists c, fin32 (ch c) /\ unitF (cs c) /\ unitF (cv c) /\ @hsv_toRGB F32 (F32_ops L) c = Undef.
Proof. exact (toRGB_unset L). Qed.
Print Assumptions C62_toRGB_float_refuted.

(** C62. toHSV stays in range, and the value is the largest component. Missing: a hue below 360, see below. *)
Theorem C62_toHSV_float_partial (L : Libm32) (c : RGB F32) : unit_rgbF32 c ->
  let k := @rgb_toHSV F32 (F32_ops L) c in
  between32 0 360 (ch k) /\ unitF (cs k) /\ (cv k = cr c \/ cv k = cg c \/ cv k = cb c) /\ val32 (cv k) = max3 (valrgb32 c).
Proof. exact (toHSV_float L c). Qed.
Print Assumptions C62_toHSV_float_partial.

(** C62. The hue can be 360. *)
Theorem C62_toHSV_float_refuted (L : Libm32) : exists c, unit_rgbF32 c /\ val32 (ch (@rgb_toHSV F32 (F32_ops L) c)) = 360.
Proof. exact (toHSV_full_turn L). Qed.
Print Assumptions C62_toHSV_float_refuted.

(** C62. There and back always gives a color of the unit cube. *)
Theorem C62_round_float (L : Libm32) (c : RGB F32) : unit_rgbF32 c ->
  exists c', @hsv_toRGB F32 (F32_ops L) (@rgb_toHSV F32 (F32_ops L) c) = Ok c' /\ unit_rgbF32 c'.
Proof. exact (round_float L c). Qed.
Print Assumptions C62_round_float.

(** C62. toRGB is within 2^-20 of the exact color. *)
Theorem C62_toRGB_error_float (L : Libm32) (c : HSV F32) : between32 0 360 (ch c) -> between32 0 1 (cs c) -> between32 0 1 (cv c) ->
  exists rgb exact, @hsv_toRGB F32 (F32_ops L) c = Ok rgb /\ names (valhsv32 c) exact /\ close_rgb (bpow radix2 (-20)) (valrgb32 rgb) exact.
Proof. exact (toRGB_error L c). Qed.
Print Assumptions C62_toRGB_error_float.

(** C62. toHSV is near the exact hue and saturation, with the exact value. *)
Theorem C62_toHSV_error_float (L : Libm32) (c : RGB F32) : unit_rgbF32 c ->
  let k := valhsv32 (@rgb_toHSV F32 (F32_ops L) c) in exists x, names x (valrgb32 c) /\ 
  Rabs (ch k - ch x) <= bpow radix2 (-14) /\ Rabs (cs k - cs x) <= bpow radix2 (-23) /\ cv k = cv x.
Proof. exact (toHSV_error L c). Qed.
Print Assumptions C62_toHSV_error_float.

(** C62. There and back is within 2^-19 of the color. *)
Theorem C62_round_error_float (L : Libm32) (c : RGB F32) : unit_rgbF32 c ->
  exists c', @hsv_toRGB F32 (F32_ops L) (@rgb_toHSV F32 (F32_ops L) c) = Ok c' /\ close_rgb (bpow radix2 (-19)) (valrgb32 c') (valrgb32 c).
Proof. exact (round_error L c). Qed.
Print Assumptions C62_round_error_float.

(** C62. But not always exact. *)
Theorem C62_round_float_refuted (L : Libm32) : exists c c', unit_rgbF32 c /\ @hsv_toRGB F32 (F32_ops L) (@rgb_toHSV F32 (F32_ops L) c) = Ok c' /\ valrgb32 c' <> valrgb32 c.
Proof. exact (round_inexact L). Qed.
Print Assumptions C62_round_float_refuted.

