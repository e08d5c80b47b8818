(** C99: the texts of the failure messages of the test library. *)
From Coq Require Import Reals ZArith Bool String List.
From Flocq Require Import Core BinarySingleNaN.
From Verif.Base Require Import Outcome Array Scalar ScalarF ScalarF32.
From Verif.Model Require Import Types Shapes Color Frustum Testlib Text.
From Verif.Spec Require Import IeeeSpec FloatSpec SingleSpec TestlibSpec TextSpec.
From Verif.Proof Require Import TextNumbers TextObjects.
Import ListNotations.
Local Open Scope R_scope.

(** C99. The text of a number, read back as a number in scientific notation, is
    within half a unit of the last decimal shown. *)
Theorem C99_value {p e : Z} {Hp : Prec_gt_0 p} {He : Prec_lt_emax p e} (d : nat) (x : binary_float p e) : (0 < d)%nat -> finite x ->
  exists r, read_number (sci d x) = Some r /\ Rabs (r - num x) <= / 2 * (/ 10) ^ d * Rabs (num x).
Proof. exact (sci_value d x). Qed.
Print Assumptions C99_value.
(** An infinity or a NaN does not read as a number. *)
Theorem C99_not_finite {p e : Z} {Hp : Prec_gt_0 p} {He : Prec_lt_emax p e} (d : nat) (x : binary_float p e) : (0 < d)%nat -> is_finite x = false -> read_number (sci d x) = None.
Proof. exact (sci_not_finite d x). Qed.
Print Assumptions C99_not_finite.
(** With enough decimals for the precision the text determines the number,
    the sign of a zero included. *)
Theorem C99_digits {p e : Z} {Hp : Prec_gt_0 p} {He : Prec_lt_emax p e} (d : nat) (x y : binary_float p e) : (0 < d)%nat -> (2 ^ p < 10 ^ Z.of_nat d)%Z -> sci d x = sci d y -> x = y.
Proof. exact (sci_inj d x y). Qed.
Print Assumptions C99_digits.
(** Sixteen decimals are enough for doubles and floats. *)
Theorem C99_enough : (2 ^ 53 < 10 ^ 16)%Z /\ (2 ^ 24 < 10 ^ 16)%Z.
Proof. exact double_digits. Qed.
Print Assumptions C99_enough.
(** The text of an object shows each of its parts once, in order: all of them at
    16 decimals, those of matrices at 4. *)
Theorem C99_objects {p e : Z} {Hp : Prec_gt_0 p} {He : Prec_lt_emax p e} :
  (forall a b : Vec2 (binary_float p e), convert_v2 a = convert_v2 b <-> all_parts (fun x y => sci 16 x = sci 16 y) parts_v2 a b) /\
  (forall a b : Vec3 (binary_float p e), convert_v3 a = convert_v3 b <-> all_parts (fun x y => sci 16 x = sci 16 y) parts_v3 a b) /\
  (forall a b : Vec4 (binary_float p e), convert_v4 a = convert_v4 b <-> all_parts (fun x y => sci 16 x = sci 16 y) parts_v4 a b) /\
  (forall a b : Quat (binary_float p e), convert_q a = convert_q b <-> all_parts (fun x y => sci 16 x = sci 16 y) parts_q a b) /\
  (forall a b : RGB (binary_float p e), convert_rgb a = convert_rgb b <-> all_parts (fun x y => sci 16 x = sci 16 y) parts_rgb a b) /\
  (forall a b : RGBA (binary_float p e), convert_rgba a = convert_rgba b <-> all_parts (fun x y => sci 16 x = sci 16 y) parts_rgba a b) /\
  (forall a b : HSV (binary_float p e), convert_hsv a = convert_hsv b <-> all_parts (fun x y => sci 16 x = sci 16 y) parts_hsv a b) /\
  (forall a b : AABB2 (binary_float p e), convert_aabb2 a = convert_aabb2 b <-> all_parts (fun x y => sci 16 x = sci 16 y) parts_aabb2 a b) /\
  (forall a b : AABB3 (binary_float p e), convert_aabb3 a = convert_aabb3 b <-> all_parts (fun x y => sci 16 x = sci 16 y) parts_aabb3 a b) /\
  (forall a b : CAABB2 (binary_float p e), convert_caabb2 a = convert_caabb2 b <-> all_parts (fun x y => sci 16 x = sci 16 y) parts_caabb2 a b) /\
  (forall a b : CAABB3 (binary_float p e), convert_caabb3 a = convert_caabb3 b <-> all_parts (fun x y => sci 16 x = sci 16 y) parts_caabb3 a b) /\
  (forall a b : Line2 (binary_float p e), convert_line2 a = convert_line2 b <-> all_parts (fun x y => sci 16 x = sci 16 y) parts_line2 a b) /\
  (forall a b : Line3 (binary_float p e), convert_line3 a = convert_line3 b <-> all_parts (fun x y => sci 16 x = sci 16 y) parts_line3 a b) /\
  (forall a b : Ray2 (binary_float p e), convert_ray2 a = convert_ray2 b <-> all_parts (fun x y => sci 16 x = sci 16 y) parts_ray2 a b) /\
  (forall a b : Ray3 (binary_float p e), convert_ray3 a = convert_ray3 b <-> all_parts (fun x y => sci 16 x = sci 16 y) parts_ray3 a b) /\
  (forall a b : Plane (binary_float p e), convert_plane a = convert_plane b <-> all_parts (fun x y => sci 16 x = sci 16 y) parts_plane a b) /\
  (forall a b : Circle (binary_float p e), convert_circle a = convert_circle b <-> all_parts (fun x y => sci 16 x = sci 16 y) parts_circle a b) /\
  (forall a b : Sphere (binary_float p e), convert_sphere a = convert_sphere b <-> all_parts (fun x y => sci 16 x = sci 16 y) parts_sphere a b) /\
  (forall a b : Mat2 (binary_float p e), convert_m2 a = convert_m2 b <-> all_parts (fun x y => sci 4 x = sci 4 y) parts_m2 a b) /\
  (forall a b : Mat3 (binary_float p e), convert_m3 a = convert_m3 b <-> all_parts (fun x y => sci 4 x = sci 4 y) parts_m3 a b) /\
  (forall a b : Mat4 (binary_float p e), convert_m4 a = convert_m4 b <-> all_parts (fun x y => sci 4 x = sci 4 y) parts_m4 a b) /\
  (forall a b : Mat34 (binary_float p e), convert_m34 a = convert_m34 b <-> all_parts (fun x y => sci 4 x = sci 4 y) parts_m34 a b).
Proof. exact convert_parts. Qed.
Print Assumptions C99_objects.
(** The text of a frustum shows its corners. *)
Theorem C99_corners {p e : Z} {Hp : Prec_gt_0 p} {He : Prec_lt_emax p e} (f g : Frustum (binary_float p e)) (c d : nat -> Vec3 (binary_float p e)) : holds (fcorners f) 8 c -> holds (fcorners g) 8 d ->
  exists s t, convert_frustum f = Ok s /\ convert_frustum g = Ok t /\
    (s = t <-> Forall2 (fun x y => sci 4 x = sci 4 y) (parts_corners c) (parts_corners d)).
Proof. exact (convert_corners f g c d). Qed.
Print Assumptions C99_corners.
(** Of these types, two objects with the same text are the same. *)
Theorem C99_exact {p e : Z} {Hp : Prec_gt_0 p} {He : Prec_lt_emax p e} : (2 ^ p < 10 ^ 16)%Z ->
  (forall a b : Vec2 (binary_float p e), convert_v2 a = convert_v2 b -> a = b) /\
  (forall a b : Vec3 (binary_float p e), convert_v3 a = convert_v3 b -> a = b) /\
  (forall a b : Vec4 (binary_float p e), convert_v4 a = convert_v4 b -> a = b) /\
  (forall a b : Quat (binary_float p e), convert_q a = convert_q b -> a = b) /\
  (forall a b : RGB (binary_float p e), convert_rgb a = convert_rgb b -> a = b) /\
  (forall a b : RGBA (binary_float p e), convert_rgba a = convert_rgba b -> a = b) /\
  (forall a b : HSV (binary_float p e), convert_hsv a = convert_hsv b -> a = b) /\
  (forall a b : AABB2 (binary_float p e), convert_aabb2 a = convert_aabb2 b -> a = b) /\
  (forall a b : AABB3 (binary_float p e), convert_aabb3 a = convert_aabb3 b -> a = b) /\
  (forall a b : CAABB2 (binary_float p e), convert_caabb2 a = convert_caabb2 b -> a = b) /\
  (forall a b : CAABB3 (binary_float p e), convert_caabb3 a = convert_caabb3 b -> a = b) /\
  (forall a b : Line2 (binary_float p e), convert_line2 a = convert_line2 b -> a = b) /\
  (forall a b : Line3 (binary_float p e), convert_line3 a = convert_line3 b -> a = b) /\
  (forall a b : Ray2 (binary_float p e), convert_ray2 a = convert_ray2 b -> a = b) /\
  (forall a b : Ray3 (binary_float p e), convert_ray3 a = convert_ray3 b -> a = b) /\
  (forall a b : Plane (binary_float p e), convert_plane a = convert_plane b -> a = b) /\
  (forall a b : Circle (binary_float p e), convert_circle a = convert_circle b -> a = b) /\
  (forall a b : Sphere (binary_float p e), convert_sphere a = convert_sphere b -> a = b).
Proof. exact convert_exact. Qed.
Print Assumptions C99_exact.
(** So when a match fails, the text of the object differs from the text of the
    target shown beside it.  [up] converts a part to double. *)
Theorem C99_failed {p e q f : Z} {Hp : Prec_gt_0 p} {He : Prec_lt_emax p e} {Hq : Prec_gt_0 q} {Hf : Prec_lt_emax q f} {O : RealOps (binary_float q f)} (I : ieee O)
  (up : binary_float p e -> binary_float q f) (UP : forall x, number x -> number (up x)) : (2 ^ p < 10 ^ 16)%Z ->
  (forall t k m (a : Vec2 (binary_float p e)), within_abs t k = Some m -> finite k -> Forall number (parts_v2 a) -> match_v2 up m a = false -> convert_v2 a <> convert_v2 t) /\
  (forall t k m (a : Vec3 (binary_float p e)), within_abs t k = Some m -> finite k -> Forall number (parts_v3 a) -> match_v3 up m a = false -> convert_v3 a <> convert_v3 t) /\
  (forall t k m (a : Vec4 (binary_float p e)), within_abs t k = Some m -> finite k -> Forall number (parts_v4 a) -> match_v4 up m a = false -> convert_v4 a <> convert_v4 t) /\
  (forall t k m (a : Quat (binary_float p e)), within_abs t k = Some m -> finite k -> Forall number (parts_q a) -> match_q up m a = false -> convert_q a <> convert_q t) /\
  (forall t k m (a : RGB (binary_float p e)), within_abs t k = Some m -> finite k -> Forall number (parts_rgb a) -> match_rgb up m a = false -> convert_rgb a <> convert_rgb t) /\
  (forall t k m (a : RGBA (binary_float p e)), within_abs t k = Some m -> finite k -> Forall number (parts_rgba a) -> match_rgba up m a = false -> convert_rgba a <> convert_rgba t) /\
  (forall t k m (a : HSV (binary_float p e)), within_abs t k = Some m -> finite k -> Forall number (parts_hsv a) -> match_hsv up m a = false -> convert_hsv a <> convert_hsv t) /\
  (forall t k m (a : AABB2 (binary_float p e)), within_abs t k = Some m -> finite k -> Forall number (parts_aabb2 a) -> match_aabb2 up m a = false -> convert_aabb2 a <> convert_aabb2 t) /\
  (forall t k m (a : AABB3 (binary_float p e)), within_abs t k = Some m -> finite k -> Forall number (parts_aabb3 a) -> match_aabb3 up m a = false -> convert_aabb3 a <> convert_aabb3 t) /\
  (forall t k m (a : CAABB2 (binary_float p e)), within_abs t k = Some m -> finite k -> Forall number (parts_caabb2 a) -> match_caabb2 up m a = false -> convert_caabb2 a <> convert_caabb2 t) /\
  (forall t k m (a : CAABB3 (binary_float p e)), within_abs t k = Some m -> finite k -> Forall number (parts_caabb3 a) -> match_caabb3 up m a = false -> convert_caabb3 a <> convert_caabb3 t) /\
  (forall t k m (a : Line2 (binary_float p e)), within_abs t k = Some m -> finite k -> Forall number (parts_line2 a) -> match_line2 up m a = false -> convert_line2 a <> convert_line2 t) /\
  (forall t k m (a : Line3 (binary_float p e)), within_abs t k = Some m -> finite k -> Forall number (parts_line3 a) -> match_line3 up m a = false -> convert_line3 a <> convert_line3 t) /\
  (forall t k m (a : Ray2 (binary_float p e)), within_abs t k = Some m -> finite k -> Forall number (parts_ray2 a) -> match_ray2 up m a = false -> convert_ray2 a <> convert_ray2 t) /\
  (forall t k m (a : Ray3 (binary_float p e)), within_abs t k = Some m -> finite k -> Forall number (parts_ray3 a) -> match_ray3 up m a = false -> convert_ray3 a <> convert_ray3 t) /\
  (forall t k m (a : Plane (binary_float p e)), within_abs t k = Some m -> finite k -> Forall number (parts_plane a) -> match_plane up m a = false -> convert_plane a <> convert_plane t) /\
  (forall t k m (a : Circle (binary_float p e)), within_abs t k = Some m -> finite k -> Forall number (parts_circle a) -> match_circle up m a = false -> convert_circle a <> convert_circle t) /\
  (forall t k m (a : Sphere (binary_float p e)), within_abs t k = Some m -> finite k -> Forall number (parts_sphere a) -> match_sphere up m a = false -> convert_sphere a <> convert_sphere t).
Proof. exact (failed_texts I up UP). Qed.
Print Assumptions C99_failed.
(** The conversion from float to double is such a conversion. *)
Theorem C99_float_up (x : F32) : number x -> number (F32_to_F64 x).
Proof. exact (float_up x). Qed.
Print Assumptions C99_float_up.
(** Matrices and frustums with the same text agree to four decimals only. What
    is missing is that they be the same. *)
Theorem C99_matrices_partial {p e : Z} {Hp : Prec_gt_0 p} {He : Prec_lt_emax p e} :
  (forall a b : Mat2 (binary_float p e), convert_m2 a = convert_m2 b -> all_parts (looks_like 4) parts_m2 a b) /\
  (forall a b : Mat3 (binary_float p e), convert_m3 a = convert_m3 b -> all_parts (looks_like 4) parts_m3 a b) /\
  (forall a b : Mat4 (binary_float p e), convert_m4 a = convert_m4 b -> all_parts (looks_like 4) parts_m4 a b) /\
  (forall a b : Mat34 (binary_float p e), convert_m34 a = convert_m34 b -> all_parts (looks_like 4) parts_m34 a b) /\
  (forall (f g : Frustum (binary_float p e)) c d, holds (fcorners f) 8 c -> holds (fcorners g) 8 d -> convert_frustum f = convert_frustum g ->
    Forall2 (looks_like 4) (parts_corners c) (parts_corners d)).
Proof. exact convert_short. Qed.
Print Assumptions C99_matrices_partial.
(** For matrices and frustums a match can fail while both texts are the same. *)
Theorem C99_matrices_refuted (L : Libm) :
  (exists t k a m, finite k /\ within_abs (O := F_ops L) t k = Some m /\ match_m2 (O := F_ops L) (fun x => x) m a = false /\ convert_m2 a = convert_m2 t) /\
  (exists t k a m, finite k /\ within_abs (O := F_ops L) t k = Some m /\ match_m3 (O := F_ops L) (fun x => x) m a = false /\ convert_m3 a = convert_m3 t) /\
  (exists t k a m, finite k /\ within_abs (O := F_ops L) t k = Some m /\ match_m4 (O := F_ops L) (fun x => x) m a = false /\ convert_m4 a = convert_m4 t) /\
  (exists t k a m, finite k /\ within_abs (O := F_ops L) t k = Some m /\ match_m34 (O := F_ops L) (fun x => x) m a = false /\ convert_m34 a = convert_m34 t) /\
  (exists t k a m, finite k /\ within_abs (O := F_ops L) t k = Some m /\ match_frustum (O := F_ops L) (fun x => x) m a = Ok false /\ convert_frustum a = convert_frustum t).
Proof. exact (short_texts L). Qed.
Print Assumptions C99_matrices_refuted.
(** What a matcher says of itself tells its target. *)
Theorem C99_describe (k t t' : string) : describe k t = ("is within " ++ k ++ " of " ++ t)%string /\ (describe k t = describe k t' -> t = t').
Proof. exact (describe_tells k t t'). Qed.
Print Assumptions C99_describe.
(** Non-vacuity. *)
Example C99_example (L : Libm) : let one := F64_ofZ 1 in let n1 := F64_ofZ 100001 in let n2 := F64_ofZ 100002 in let half := Bdiv mode_NE (F64_ofZ 1) (F64_ofZ 2) in
  let tenth := Bdiv mode_NE one (F64_ofZ 10) in
  convert_v2 (mkV2 one (F64_ofZ (-2))) = "[1.0000000000000000e+00,-2.0000000000000000e+00]"%string /\
  convert_v3 (mkV3 tenth (Bdiv mode_NE one (F64_ofZ 3)) (Bdiv mode_NE one (F64_ofZ 0))) =
    "[1.0000000000000001e-01,3.3333333333333331e-01,inf]"%string /\
  convert_circle (mkCircle (mkV2 tenth one) (F64_ofZ 123456)) = "[1.0000000000000001e-01,1.0000000000000000e+00]-(1.2345600000000000e+05)"%string /\
  convert_m2 (mkM2 (mkV2 n1 one) (mkV2 tenth (F64_ofZ (-99999))) (mkFlags false false false false false)) =
    "[[1.0000e+05,1.0000e+00],[1.0000e-01,-9.9999e+04]]"%string /\
  (exists m, finite half /\ within_abs (O := F_ops L) (mkV2 one n1) half = Some m /\ Forall number (parts_v2 (mkV2 one n2)) /\
     match_v2 (O := F_ops L) (fun x => x) m (mkV2 one n2) = false).
Proof. exact (text_case L). Qed.
