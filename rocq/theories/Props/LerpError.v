(** C111: linear interpolation of numbers, vectors and colors, and color
    arithmetic, in binary numbers of any format. *)
From Coq Require Import Reals ZArith List Lra Lia Bool.
From Flocq Require Import Core.Core IEEE754.BinarySingleNaN.
From Verif.Base Require Import Outcome Array Scalar ScalarR ScalarF ScalarF32.
From Verif.Model Require Import Types Functions Vec Interpolation Shapes Box Color.
From Verif.Spec Require Import NumSpec FloatSpec IeeeSpec TurnErrorSpec.
From Verif.Proof Require Import Ieee IeeeVec IeeeWitness IeeeLerp IeeeColor TurnErrorWitness LerpErrorWitness.
Import ListNotations.
From Verif.Spec Require Import LerpErrorSpec.
Local Open Scope R_scope.

(** C111. lerp: below ratio 1 the result is never outside the range from a to b, at
    ratio 0 it is a, it never goes back, and it is near the exact point. *)
Theorem C111_lerp {p e : Z} {Hp : Prec_gt_0 p} {He : Prec_lt_emax p e} (O : RealOps (binary_float p e)) (I : ieee O)
  (a b : (binary_float p e)) : moderate a b ->
  (forall r, inner_ratio r -> mixed a b r (lerp a b r)) /\
  (forall r, finite r -> num r = 0 -> num (lerp a b r) = num a) /\
  (forall r, ratio r -> finite (lerp a b r) /\ Rabs (num (lerp a b r) - (num a + (num b - num a) * num r)) <= unit p * (4 * (Rabs (num a) + Rabs (num b)) + 2 * tiny e)) /\
  (forall r s, ratio r -> ratio s -> num r <= num s -> on_the_way (num a) (num b) (num (lerp a b r)) (num (lerp a b s))).
Proof. exact (lerp_num O I a b). Qed.
Print Assumptions C111_lerp.
(** C111. The eased lerp starts at a in every mode; the powers never leave the range. *)
Theorem C111_eased {p e : Z} {Hp : Prec_gt_0 p} {He : Prec_lt_emax p e} (O : RealOps (binary_float p e)) (I : ieee O)
  (a b r : (binary_float p e)) m : moderate a b -> finite r ->
  (num r <= 0 -> num (lerp_mode a b r m) = num a) /\
  (1 <= num r -> lerp_mode a b r m = lerp a b (fofZ 1)) /\
  (power_mode m -> num r < 1 -> finite (lerp_mode a b r m) /\ inside (num a) (num b) (num (lerp_mode a b r m))).
Proof. exact (lerp_eased O I a b r m). Qed.
Print Assumptions C111_eased.
(** C111. Plane vectors, and so Line2::pointAt. *)
Theorem C111_lerp2 {p e : Z} {Hp : Prec_gt_0 p} {He : Prec_lt_emax p e} (O : RealOps (binary_float p e)) (I : ieee O)
  (a b : Vec2 (binary_float p e)) r : moderate (x2 a) (x2 b) -> moderate (y2 a) (y2 b) -> inner_ratio r ->
  mixed (x2 a) (x2 b) r (x2 (lerp2 a b r)) /\ mixed (y2 a) (y2 b) r (y2 (lerp2 a b r)) /\ (forall l, lstart2 l = a -> lend2 l = b -> line2_pointAt l r = lerp2 a b r).
Proof. exact (lerp2_num O I a b r). Qed.
Print Assumptions C111_lerp2.
(** C111. Vectors, and so Line3::pointAt. *)
Theorem C111_lerp3 {p e : Z} {Hp : Prec_gt_0 p} {He : Prec_lt_emax p e} (O : RealOps (binary_float p e)) (I : ieee O)
  (a b : Vec3 (binary_float p e)) r : moderate (x3 a) (x3 b) -> moderate (y3 a) (y3 b) -> moderate (z3 a) (z3 b) -> inner_ratio r ->
  mixed (x3 a) (x3 b) r (x3 (lerp3 a b r)) /\ mixed (y3 a) (y3 b) r (y3 (lerp3 a b r)) /\ mixed (z3 a) (z3 b) r (z3 (lerp3 a b r)) /\ (forall l, lstart3 l = a -> lend3 l = b -> line3_pointAt l r = lerp3 a b r).
Proof. exact (lerp3_num O I a b r). Qed.
Print Assumptions C111_lerp3.
(** C111. AABB2::pointAt gives a point of the box, says AABB2::contains. *)
Theorem C111_pointAt2 {p e : Z} {Hp : Prec_gt_0 p} {He : Prec_lt_emax p e} (O : RealOps (binary_float p e)) (I : ieee O)
  (b : AABB2 (binary_float p e)) (r : Vec2 (binary_float p e)) : moderate (x2 (inf2 b)) (x2 (sup2 b)) -> moderate (y2 (inf2 b)) (y2 (sup2 b)) ->
  num (x2 (inf2 b)) <= num (x2 (sup2 b)) -> num (y2 (inf2 b)) <= num (y2 (sup2 b)) -> inner_ratio (x2 r) -> inner_ratio (y2 r) -> aabb2_contains b (aabb2_pointAt b r) = true.
Proof. exact (pointAt2_in O I b r). Qed.
Print Assumptions C111_pointAt2.
(** C111. AABB3::pointAt gives a point of the box, says AABB3::contains. *)
Theorem C111_pointAt3 {p e : Z} {Hp : Prec_gt_0 p} {He : Prec_lt_emax p e} (O : RealOps (binary_float p e)) (I : ieee O)
  (b : AABB3 (binary_float p e)) (r : Vec3 (binary_float p e)) : moderate (x3 (inf3 b)) (x3 (sup3 b)) -> moderate (y3 (inf3 b)) (y3 (sup3 b)) -> moderate (z3 (inf3 b)) (z3 (sup3 b)) ->
  num (x3 (inf3 b)) <= num (x3 (sup3 b)) -> num (y3 (inf3 b)) <= num (y3 (sup3 b)) -> num (z3 (inf3 b)) <= num (z3 (sup3 b)) -> inner_ratio (x3 r) -> inner_ratio (y3 r) -> inner_ratio (z3 r) -> aabb3_contains b (aabb3_pointAt b r) = true.
Proof. exact (pointAt3_in O I b r). Qed.
Print Assumptions C111_pointAt3.
(** C111. ColorRGB::interp: every component stays in its range for every ratio, ratio 1
    included, the ends are exact, and no component goes back. *)
Theorem C111_rgb {p e : Z} {Hp : Prec_gt_0 p} {He : Prec_lt_emax p e} (O : RealOps (binary_float p e)) (I : ieee O)
  (a b : RGB (binary_float p e)) r : moderate (cr a) (cr b) -> moderate (cg a) (cg b) -> moderate (cb a) (cb b) -> ratio r ->
  let c := rgb_interp a b r in
  mixed (cr a) (cr b) r (cr c) /\ mixed (cg a) (cg b) r (cg c) /\ mixed (cb a) (cb b) r (cb c) /\ (num r = 0 -> c = a) /\ (num r = 1 -> c = b) /\
  forall s, ratio s -> num r <= num s -> let c' := rgb_interp a b s in
    on_the_way (num (cr a)) (num (cr b)) (num (cr c)) (num (cr c')) /\ on_the_way (num (cg a)) (num (cg b)) (num (cg c)) (num (cg c')) /\ on_the_way (num (cb a)) (num (cb b)) (num (cb c)) (num (cb c')).
Proof. exact (rgb_mixed O I a b r). Qed.
Print Assumptions C111_rgb.
(** C111. ColorRGBA::interp. *)
Theorem C111_rgba {p e : Z} {Hp : Prec_gt_0 p} {He : Prec_lt_emax p e} (O : RealOps (binary_float p e)) (I : ieee O)
  (a b : RGBA (binary_float p e)) r : moderate (ar a) (ar b) -> moderate (ag a) (ag b) -> moderate (ab a) (ab b) -> moderate (aa a) (aa b) -> ratio r ->
  let c := rgba_interp a b r in
  mixed (ar a) (ar b) r (ar c) /\ mixed (ag a) (ag b) r (ag c) /\ mixed (ab a) (ab b) r (ab c) /\ mixed (aa a) (aa b) r (aa c) /\ (num r = 0 -> c = a) /\ (num r = 1 -> c = b) /\
  forall s, ratio s -> num r <= num s -> let c' := rgba_interp a b s in
    on_the_way (num (ar a)) (num (ar b)) (num (ar c)) (num (ar c')) /\ on_the_way (num (ag a)) (num (ag b)) (num (ag c)) (num (ag c')) /\ on_the_way (num (ab a)) (num (ab b)) (num (ab c)) (num (ab c')) /\ on_the_way (num (aa a)) (num (aa b)) (num (aa c)) (num (aa c')).
Proof. exact (rgba_mixed O I a b r). Qed.
Print Assumptions C111_rgba.
(** C111. Colors of the unit cube give colors of the unit cube. *)
Theorem C111_unit {p e : Z} {Hp : Prec_gt_0 p} {He : Prec_lt_emax p e} (O : RealOps (binary_float p e)) (I : ieee O)
  (a b : RGB (binary_float p e)) (a' b' : RGBA (binary_float p e)) r : ratio r -> (unit_rgb_b a -> unit_rgb_b b -> unit_rgb_b (rgb_interp a b r)) /\ (unit_rgba_b a' -> unit_rgba_b b' -> unit_rgba_b (rgba_interp a' b' r)).
Proof. exact (unit_interp O I a b a' b' r). Qed.
Print Assumptions C111_unit.
(** C111. ColorHSV::interp: saturation and value as above; the hue turns by some D of at
    most half a turn, up to rounding, that leads from the one hue to the other. *)
Theorem C111_hsv {p e : Z} {Hp : Prec_gt_0 p} {He : Prec_lt_emax p e} (O : RealOps (binary_float p e)) (I : ieee O)
  (FM : exact_fmod O)
  (a b : HSV (binary_float p e)) r : unit_hsv_b a -> unit_hsv_b b -> ratio r ->
  exists c D m, hsv_interp a b r = Ok c /\ unit_hsv_b c /\ mixed (cs a) (cs b) r (cs c) /\ mixed (cv a) (cv b) r (cv c) /\
  congruent 360 (num (ch a) + D) (num (ch b)) /\ Rabs D <= 180 + 360 * unit p /\ congruent 360 m (num (ch a) + D * num r) /\ Rabs (num (ch c) - m) <= 2000 * unit p /\
  (num r = 0 -> c = a) /\ (num r = 1 -> c = b).
Proof. exact (hsv_mixed O I FM a b r). Qed.
Print Assumptions C111_hsv.
(** Non-vacuity. *)
Example C111_case (L : Libm) : let r := @flit F64 (F_ops L) 1 2 in let a := mkHSV (@fofZ F64 (F_ops L) 350%Z) r (@fofZ F64 (F_ops L) 0%Z) in let b := mkHSV (@fofZ F64 (F_ops L) 20%Z) (@fofZ F64 (F_ops L) 1%Z) r in
  moderate (@fofZ F64 (F_ops L) 3%Z) (@fofZ F64 (F_ops L) (-8)%Z) /\ inner_ratio r /\ ratio (@fofZ F64 (F_ops L) 1%Z) /\ unit_hsv_b a /\ unit_hsv_b b /\ power_mode ImCubicIn /\ byte 17.
Proof. exact (lerp_case L). Qed.
(** C111. Colors from bytes: in range, right to one rounding, ordered, 0 and 255 exact. *)
Theorem C111_bytes {p e : Z} {Hp : Prec_gt_0 p} {He : Prec_lt_emax p e} (O : RealOps (binary_float p e)) (I : ieee O)
  (r g b a : Z) : byte r -> byte g -> byte b -> byte a ->
  unit_rgb_b (rgb_of_int r g b) /\ unit_rgba_b (rgba_of_int r g b a) /\
  Rabs (num (cr (rgb_of_int r g b)) - IZR r / 255) <= unit p * (IZR r / 255) /\ Rabs (num (cg (rgb_of_int r g b)) - IZR g / 255) <= unit p * (IZR g / 255) /\ Rabs (num (cb (rgb_of_int r g b)) - IZR b / 255) <= unit p * (IZR b / 255) /\
  rgba_of_int r g b a = mkRGBA (cr (rgb_of_int r g b)) (cg (rgb_of_int r g b)) (cb (rgb_of_int r g b)) (cr (rgb_of_int a 0 0)) /\
  (forall s, (r < s)%Z -> byte s -> num (cr (rgb_of_int r g b)) < num (cr (rgb_of_int s g b))) /\
  num (cr (rgb_of_int 0 g b)) = 0 /\ num (cr (rgb_of_int 255 g b)) = 1.
Proof. exact (bytes O I r g b a). Qed.
Print Assumptions C111_bytes.
(** C111. Sums, differences and multiples of colors are right to one rounding. *)
Theorem C111_arithmetic {p e : Z} {Hp : Prec_gt_0 p} {He : Prec_lt_emax p e} (O : RealOps (binary_float p e)) (I : ieee O)
  (a c : RGB (binary_float p e)) (k : (binary_float p e)) : moderate (cr a) (cr c) -> moderate (cg a) (cg c) -> moderate (cb a) (cb c) -> finite k ->
  Rabs (num (cr a) * num k) <= huge e -> Rabs (num (cg a) * num k) <= huge e -> Rabs (num (cb a) * num k) <= huge e ->
  (approx 1 (Rabs (num (cr a) + num (cr c))) (cr (rgb_add a c)) (num (cr a) + num (cr c)) /\ approx 1 (Rabs (num (cg a) + num (cg c))) (cg (rgb_add a c)) (num (cg a) + num (cg c)) /\ approx 1 (Rabs (num (cb a) + num (cb c))) (cb (rgb_add a c)) (num (cb a) + num (cb c))) /\
  (approx 1 (Rabs (num (cr a) - num (cr c))) (cr (rgb_sub a c)) (num (cr a) - num (cr c)) /\ approx 1 (Rabs (num (cg a) - num (cg c))) (cg (rgb_sub a c)) (num (cg a) - num (cg c)) /\ approx 1 (Rabs (num (cb a) - num (cb c))) (cb (rgb_sub a c)) (num (cb a) - num (cb c))) /\
  (approx 1 (Rabs (num (cr a) * num k) + tiny e) (cr (rgb_scale a k)) (num (cr a) * num k) /\ approx 1 (Rabs (num (cg a) * num k) + tiny e) (cg (rgb_scale a k)) (num (cg a) * num k) /\ approx 1 (Rabs (num (cb a) * num k) + tiny e) (cb (rgb_scale a k)) (num (cb a) * num k)) /\
  (num (cr (rgb_opp a)) = - num (cr a) /\ num (cg (rgb_opp a)) = - num (cg a) /\ num (cb (rgb_opp a)) = - num (cb a)).
Proof. exact (rgb_ops O I a c k). Qed.
Print Assumptions C111_arithmetic.
(** C111. So are quotients; a zero divisor is rejected. *)
Theorem C111_quotient {p e : Z} {Hp : Prec_gt_0 p} {He : Prec_lt_emax p e} (O : RealOps (binary_float p e)) (I : ieee O)
  (a : RGB (binary_float p e)) (k : (binary_float p e)) : finite (cr a) -> finite (cg a) -> finite (cb a) -> finite k ->
  (num k = 0 -> rgb_div a k = AssertFail) /\
  (num k <> 0 -> Rabs (num (cr a) / num k) <= huge e -> Rabs (num (cg a) / num k) <= huge e -> Rabs (num (cb a) / num k) <= huge e ->
   exists c, rgb_div a k = Ok c /\ approx 1 (Rabs (num (cr a) / num k) + tiny e) (cr c) (num (cr a) / num k) /\ approx 1 (Rabs (num (cg a) / num k) + tiny e) (cg c) (num (cg a) / num k) /\ approx 1 (Rabs (num (cb a) / num k) + tiny e) (cb c) (num (cb a) / num k)).
Proof. exact (rgb_quotient O I a k). Qed.
Print Assumptions C111_quotient.
(** C111. In doubles lerp at ratio 1 can pass the end. *)
Theorem C111_lerp_end_refuted (L : Libm) : exists a b : F64, moderate a b /\ num a < num b /\ num b < num (@lerp F64 (F_ops L) a b (@fofZ F64 (F_ops L) 1%Z)).
Proof. exact (passes_end L). Qed.
Print Assumptions C111_lerp_end_refuted.
(** C111. In doubles AABB2::pointAt(1, 1) can be outside the box. *)
Theorem C111_pointAt_end_refuted (L : Libm) : exists b : AABB2 F64, num (x2 (inf2 b)) <= num (x2 (sup2 b)) /\ num (y2 (inf2 b)) <= num (y2 (sup2 b)) /\ @aabb2_contains F64 (F_ops L) b (@aabb2_pointAt F64 (F_ops L) b (mkV2 (@fofZ F64 (F_ops L) 1%Z) (@fofZ F64 (F_ops L) 1%Z))) = false.
Proof. exact (leaves_box L). Qed.
Print Assumptions C111_pointAt_end_refuted.
(** C111. In doubles an interpolated hue can be 360. *)
Theorem C111_hue_refuted (L : Libm) : exists (a b : HSV F64) (r : F64) c, unit_hsv_b a /\ unit_hsv_b b /\ num (ch a) < 360 /\ num (ch b) < 360 /\ ratio r /\ @hsv_interp F64 (F_ops L) a b r = Ok c /\ num (ch c) = 360.
Proof. exact (full_turn L). Qed.
Print Assumptions C111_hue_refuted.
