(** C88: the matchers of the test library. [up] converts a component to double;
    the comparison is made in double. *)
From Coq Require Import Reals ZArith List Lra Lia Bool.
From Flocq Require Import Core.Core IEEE754.BinarySingleNaN.
From Verif.Base Require Import Outcome Array Scalar ScalarR ScalarF ScalarF32.
From Verif.Model Require Import Types Shapes Color Frustum Testlib.
From Verif.Spec Require Import ArraySpec IeeeSpec FloatSpec SingleSpec TestlibSpec.
From Verif.Proof Require Import Ieee IeeeWitness Testlib.
Import ListNotations.
Local Open Scope R_scope.

(** C88. For each of 22 types, an object matches when each of its parts is
    within the margin of the same part of the target. The flags of matrices do
    not matter. *)
Theorem C88_parts {T D : Type} {O : RealOps D} (up : T -> D) :
  (forall m a, match_v2 up m a = true <-> all_parts (fun x y => mc up x y (mMargin m) = true) parts_v2 a (mTarget m)) /\
  (forall m a, match_v3 up m a = true <-> all_parts (fun x y => mc up x y (mMargin m) = true) parts_v3 a (mTarget m)) /\
  (forall m a, match_v4 up m a = true <-> all_parts (fun x y => mc up x y (mMargin m) = true) parts_v4 a (mTarget m)) /\
  (forall m a, match_m2 up m a = true <-> all_parts (fun x y => mc up x y (mMargin m) = true) parts_m2 a (mTarget m)) /\
  (forall m a, match_m3 up m a = true <-> all_parts (fun x y => mc up x y (mMargin m) = true) parts_m3 a (mTarget m)) /\
  (forall m a, match_m4 up m a = true <-> all_parts (fun x y => mc up x y (mMargin m) = true) parts_m4 a (mTarget m)) /\
  (forall m a, match_m34 up m a = true <-> all_parts (fun x y => mc up x y (mMargin m) = true) parts_m34 a (mTarget m)) /\
  (forall m a, match_q up m a = true <-> all_parts (fun x y => mc up x y (mMargin m) = true) parts_q a (mTarget m)) /\
  (forall m a, match_aabb2 up m a = true <-> all_parts (fun x y => mc up x y (mMargin m) = true) parts_aabb2 a (mTarget m)) /\
  (forall m a, match_caabb2 up m a = true <-> all_parts (fun x y => mc up x y (mMargin m) = true) parts_caabb2 a (mTarget m)) /\
  (forall m a, match_aabb3 up m a = true <-> all_parts (fun x y => mc up x y (mMargin m) = true) parts_aabb3 a (mTarget m)) /\
  (forall m a, match_caabb3 up m a = true <-> all_parts (fun x y => mc up x y (mMargin m) = true) parts_caabb3 a (mTarget m)) /\
  (forall m a, match_rgb up m a = true <-> all_parts (fun x y => mc up x y (mMargin m) = true) parts_rgb a (mTarget m)) /\
  (forall m a, match_rgba up m a = true <-> all_parts (fun x y => mc up x y (mMargin m) = true) parts_rgba a (mTarget m)) /\
  (forall m a, match_hsv up m a = true <-> all_parts (fun x y => mc up x y (mMargin m) = true) parts_hsv a (mTarget m)) /\
  (forall m a, match_line2 up m a = true <-> all_parts (fun x y => mc up x y (mMargin m) = true) parts_line2 a (mTarget m)) /\
  (forall m a, match_line3 up m a = true <-> all_parts (fun x y => mc up x y (mMargin m) = true) parts_line3 a (mTarget m)) /\
  (forall m a, match_ray2 up m a = true <-> all_parts (fun x y => mc up x y (mMargin m) = true) parts_ray2 a (mTarget m)) /\
  (forall m a, match_ray3 up m a = true <-> all_parts (fun x y => mc up x y (mMargin m) = true) parts_ray3 a (mTarget m)) /\
  (forall m a, match_plane up m a = true <-> all_parts (fun x y => mc up x y (mMargin m) = true) parts_plane a (mTarget m)) /\
  (forall m a, match_circle up m a = true <-> all_parts (fun x y => mc up x y (mMargin m) = true) parts_circle a (mTarget m)) /\
  (forall m a, match_sphere up m a = true <-> all_parts (fun x y => mc up x y (mMargin m) = true) parts_sphere a (mTarget m)).
Proof. exact (match_parts up). Qed.
Print Assumptions C88_parts.
(** C88. In exact arithmetic, a part matches when it is at most the margin away. *)
Theorem C88_objects :
  (forall t k m (a : Vec2 R), within_abs t k = Some m -> (match_v2 (fun x => x) m a = true <-> all_parts (fun x y => Rabs (x - y) <= k) parts_v2 a t)) /\
  (forall t k m (a : Vec3 R), within_abs t k = Some m -> (match_v3 (fun x => x) m a = true <-> all_parts (fun x y => Rabs (x - y) <= k) parts_v3 a t)) /\
  (forall t k m (a : Vec4 R), within_abs t k = Some m -> (match_v4 (fun x => x) m a = true <-> all_parts (fun x y => Rabs (x - y) <= k) parts_v4 a t)) /\
  (forall t k m (a : Mat2 R), within_abs t k = Some m -> (match_m2 (fun x => x) m a = true <-> all_parts (fun x y => Rabs (x - y) <= k) parts_m2 a t)) /\
  (forall t k m (a : Mat3 R), within_abs t k = Some m -> (match_m3 (fun x => x) m a = true <-> all_parts (fun x y => Rabs (x - y) <= k) parts_m3 a t)) /\
  (forall t k m (a : Mat4 R), within_abs t k = Some m -> (match_m4 (fun x => x) m a = true <-> all_parts (fun x y => Rabs (x - y) <= k) parts_m4 a t)) /\
  (forall t k m (a : Mat34 R), within_abs t k = Some m -> (match_m34 (fun x => x) m a = true <-> all_parts (fun x y => Rabs (x - y) <= k) parts_m34 a t)) /\
  (forall t k m (a : Quat R), within_abs t k = Some m -> (match_q (fun x => x) m a = true <-> all_parts (fun x y => Rabs (x - y) <= k) parts_q a t)) /\
  (forall t k m (a : AABB2 R), within_abs t k = Some m -> (match_aabb2 (fun x => x) m a = true <-> all_parts (fun x y => Rabs (x - y) <= k) parts_aabb2 a t)) /\
  (forall t k m (a : CAABB2 R), within_abs t k = Some m -> (match_caabb2 (fun x => x) m a = true <-> all_parts (fun x y => Rabs (x - y) <= k) parts_caabb2 a t)) /\
  (forall t k m (a : AABB3 R), within_abs t k = Some m -> (match_aabb3 (fun x => x) m a = true <-> all_parts (fun x y => Rabs (x - y) <= k) parts_aabb3 a t)) /\
  (forall t k m (a : CAABB3 R), within_abs t k = Some m -> (match_caabb3 (fun x => x) m a = true <-> all_parts (fun x y => Rabs (x - y) <= k) parts_caabb3 a t)) /\
  (forall t k m (a : RGB R), within_abs t k = Some m -> (match_rgb (fun x => x) m a = true <-> all_parts (fun x y => Rabs (x - y) <= k) parts_rgb a t)) /\
  (forall t k m (a : RGBA R), within_abs t k = Some m -> (match_rgba (fun x => x) m a = true <-> all_parts (fun x y => Rabs (x - y) <= k) parts_rgba a t)) /\
  (forall t k m (a : HSV R), within_abs t k = Some m -> (match_hsv (fun x => x) m a = true <-> all_parts (fun x y => Rabs (x - y) <= k) parts_hsv a t)) /\
  (forall t k m (a : Line2 R), within_abs t k = Some m -> (match_line2 (fun x => x) m a = true <-> all_parts (fun x y => Rabs (x - y) <= k) parts_line2 a t)) /\
  (forall t k m (a : Line3 R), within_abs t k = Some m -> (match_line3 (fun x => x) m a = true <-> all_parts (fun x y => Rabs (x - y) <= k) parts_line3 a t)) /\
  (forall t k m (a : Ray2 R), within_abs t k = Some m -> (match_ray2 (fun x => x) m a = true <-> all_parts (fun x y => Rabs (x - y) <= k) parts_ray2 a t)) /\
  (forall t k m (a : Ray3 R), within_abs t k = Some m -> (match_ray3 (fun x => x) m a = true <-> all_parts (fun x y => Rabs (x - y) <= k) parts_ray3 a t)) /\
  (forall t k m (a : Plane R), within_abs t k = Some m -> (match_plane (fun x => x) m a = true <-> all_parts (fun x y => Rabs (x - y) <= k) parts_plane a t)) /\
  (forall t k m (a : Circle R), within_abs t k = Some m -> (match_circle (fun x => x) m a = true <-> all_parts (fun x y => Rabs (x - y) <= k) parts_circle a t)) /\
  (forall t k m (a : Sphere R), within_abs t k = Some m -> (match_sphere (fun x => x) m a = true <-> all_parts (fun x y => Rabs (x - y) <= k) parts_sphere a t)).
Proof. exact match_R. Qed.
Print Assumptions C88_objects.
Example C88_objects_case : let u := mkV2 1 2 in exists m, within_abs u (1 / 2) = Some m /\
  match_v2 (fun x => x) m (mkV2 (5 / 4) (3 / 2)) = true /\ match_v2 (fun x => x) m (mkV2 (5 / 4) 1) = false.
Proof. exact match_case. Qed.
(** C88. A frustum matches when its eight corners do; its planes do not matter. *)
Theorem C88_frustum {T D : Type} {O : RealOps D} (up : T -> D) m (f : Frustum T) c d :
  holds (fcorners f) 8 c -> holds (fcorners (mTarget m)) 8 d ->
  exists b, match_frustum up m f = Ok b /\ (b = true <-> Forall2 (fun x y => mc up x y (mMargin m) = true) (parts_corners c) (parts_corners d)).
Proof. exact (match_corners up m f c d). Qed.
Print Assumptions C88_frustum.
Example C88_frustum_case : let c := fun i => mkV3 (INR i) 0 0 in holds (arr_of 8 c) 8 c.
Proof. split; [apply le_n|]. intros i _. reflexivity. Qed.
(** C88. Matching is symmetric, for any arithmetic. *)
Theorem C88_symmetric {T D : Type} {O : RealOps D} (up : T -> D) a b m : mc up a b m = mc up b a m.
Proof. exact (mc_sym up a b m). Qed.
Print Assumptions C88_symmetric.
(** C88. Finite numbers: what is within the margin always matches, what matches
    is within the margin but for one rounding, a margin of 0 asks for equality,
    and a larger margin accepts at least as much. No sum is assumed to stay in
    range. *)
Theorem C88_finite {p e : Z} {Hp : Prec_gt_0 p} {He : Prec_lt_emax p e} (O : RealOps (binary_float p e)) (I : ieee O) {T : Type} (up : T -> binary_float p e) a b m : finite (up a) -> finite (up b) -> finite m -> 0 <= num m ->
  (Rabs (num (up a) - num (up b)) <= num m -> mc up a b m = true) /\
  (mc up a b m = true -> Rabs (num (up a) - num (up b)) <= num m + unit p * (Rabs (num (up a)) + Rabs (num (up b)) + num m)) /\
  (num m = 0 -> (mc up a b m = true <-> num (up a) = num (up b))) /\
  (forall m', finite m' -> num m <= num m' -> mc up a b m = true -> mc up a b m' = true).
Proof. exact (mc_finite O I up a b m). Qed.
Print Assumptions C88_finite.
(** C88. A NaN on either side never matches. *)
Theorem C88_nan {p e : Z} {Hp : Prec_gt_0 p} {He : Prec_lt_emax p e} (O : RealOps (binary_float p e)) (I : ieee O) {T : Type} (up : T -> binary_float p e) a b m : is_nan (up a) = true \/ is_nan (up b) = true \/ is_nan m = true -> mc up a b m = false.
Proof. exact (mc_nan O I up a b m). Qed.
Print Assumptions C88_nan.
(** C88. An infinity matches only the same infinity. *)
Theorem C88_infinite {p e : Z} {Hp : Prec_gt_0 p} {He : Prec_lt_emax p e} (O : RealOps (binary_float p e)) (I : ieee O) {T : Type} (up : T -> binary_float p e) a b m s : up a = B754_infinity s -> finite m ->
  (up b = B754_infinity s -> mc up a b m = true) /\
  (finite (up b) -> Rabs (num (up b)) + Rabs (num m) <= huge e -> mc up a b m = false) /\ (up b = B754_infinity (negb s) -> mc up a b m = false).
Proof. exact (mc_infinite O I up a b m s). Qed.
Print Assumptions C88_infinite.
(** C88. WithinAbs throws when the margin is negative or a NaN, and only then. *)
Theorem C88_margin {p e : Z} {Hp : Prec_gt_0 p} {He : Prec_lt_emax p e} (O : RealOps (binary_float p e)) (I : ieee O) {A} (t : A) (m : (binary_float p e)) : (within_abs t m = Some (mkMatcher t m) <-> number m /\ 0 <= num m) /\ (within_abs t m = None <-> is_nan m = true \/ num m < 0).
Proof. exact (within_ieee O I t m). Qed.
Print Assumptions C88_margin.
(** C88. Floats, compared as doubles: one rounding is a rounding of double. *)
Theorem C88_float (L : Libm) (a b : F32) (m : F64) : finite a -> finite b -> finite m -> 0 <= num m ->
  let mcf := @mc F32 F64 (F_ops L) F32_to_F64 in
  (Rabs (num a - num b) <= num m -> mcf a b m = true) /\
  (mcf a b m = true -> Rabs (num a - num b) <= num m + unit 53 * (Rabs (num a) + Rabs (num b) + num m)) /\
  (num m = 0 -> (mcf a b m = true <-> num a = num b)) /\
  (forall m', finite m' -> num m <= num m' -> mcf a b m = true -> mcf a b m' = true).
Proof. exact (mc_float L a b m). Qed.
Print Assumptions C88_float.
(** C88. NaNs in float. *)
Theorem C88_float_nan (L : Libm) (a b : F32) (m : F64) : is_nan a = true \/ is_nan b = true \/ is_nan m = true -> @mc F32 F64 (F_ops L) F32_to_F64 a b m = false.
Proof. exact (mc_float_nan L a b m). Qed.
Print Assumptions C88_float_nan.
(** 1 and 5/4 match within 1/2, and not within 1/8; 2^53 + 2 matches
    2^53 + 4 within 1, by one rounding. *)
Example C88_case (L : Libm) : let mcd := @mc F64 F64 (F_ops L) (fun x => x) in
  mcd (f64 1 0) (f64 5 (-2)) (f64 1 (-1)) = true /\ mcd (f64 1 0) (f64 5 (-2)) (f64 1 (-3)) = false /\
  mcd (f64 9007199254740994 0) (f64 9007199254740996 0) (f64 1 0) = true.
Proof. vm_compute. auto. Qed.
